(** The loop over models, years and resolutions (C70). *)
From Coq Require Import String Ascii ZArith List Bool Reals FunctionalExtensionality.
Import ListNotations.
From Verif Require Import Prelude Values Model_XArray Spec_XArray Proofs_XArray Model_MetricsBase Model_Aggregation Model_Categorical
  Model_Prepare Proofs_RoundTrip Proofs_Deterministic Proofs_AggState Model_Combine Spec_Combine Proofs_Combine Proofs_Combine2 Proofs_Combine3 Proofs_Combine4.
Local Open Scope string_scope.
Local Open Scope list_scope.

Definition cell_name (c : string * string * string) : string := let '(a, y, r) := c in result_file a y r.
Lemma cells_names_NoDup m : NoDup (map cell_name (cells m)).
Proof. apply nodups_NoDup. destruct m; vm_compute; reflexivity. Qed.
Lemma cells_NoDup m : NoDup (cells m).
Proof. eapply NoDup_map_inv, cells_names_NoDup. Qed.
Lemma cells_In m model year resolution : In (model, year, resolution) (cells m) <-> exists M, is_cell m model M year resolution.
Proof.
  unfold cells, is_cell. rewrite in_flat_map. split.
  - intros (mo & I & H). apply in_flat_map in H. destruct H as (y & Iy & H). apply in_map_iff in H. destruct H as (r & [= -> -> ->] & Ir). apply keys_dget in I. destruct I as (M & E). exists M. split; [apply model_get, E|auto].
  - intros (M & HM & Iy & Ir). exists model. split; [eapply shown_key; exact HM|]. apply in_flat_map. exists year. split; [exact Iy|]. apply in_map_iff. exists resolution. auto.
Qed.

Section Loop.
  Variables (m : mode) (files : string -> option (vars da)).
  Hypothesis Hf : result_files m files.

  Definition done_value (cs : list (string * string * string)) (w : string) (e : env) (x : val) : Prop :=
    exists model year resolution M ds, In (model, year, resolution) cs /\ shown_model m model M /\ files (result_file model year resolution) = Some ds
      /\ e "model" = LS M /\ e "year" = LS year /\ e "resolution" = LS resolution /\ has_value m ds w e x.
  Definition ok (cs : list (string * string * string)) (Z : vars da) : Prop :=
    realizes Z (done_value cs)
    /\ (forall w z, dget Z w = Some z -> In "region" (dnames z) /\ forall d, In d (dnames z) <-> In d ["model"; "resolution"; "year"; "metric"] \/
          exists ds n k v a, found m files ds /\ named n k v /\ shown_variable v w /\ dget ds n = Some a /\ In d (dnames a))
    /\ (forall w z l, dget Z w = Some z -> In l (labels_of (dims z) "lead_time") -> exists ds n a, found m files ds /\ dget ds n = Some a /\ In l (labels_of (dims a) "lead_time"))
    /\ (forall w w' z z' d, dget Z w = Some z -> dget Z w' = Some z' -> In d (dnames z) -> In d (dnames z') -> labels_of (dims z) d = labels_of (dims z') d)
    /\ (forall model year resolution ds n k v K V a, In (model, year, resolution) cs -> files (result_file model year resolution) = Some ds ->
          dget ds n = Some a -> named n k v -> shown_metric m k K -> shown_variable v V -> exists z, dget Z V = Some z).

  Lemma ok_nil : ok [] [].
  Proof.
    split; [|split; [|split; [|split]]]; try (intros; discriminate); try (intros; contradiction).
    split; [constructor|]. split; [intros; discriminate|]. split; [|intros; discriminate]. intros w e x (? & ? & ? & ? & ? & [] & _).
  Qed.
  Lemma add_ok done Z model year resolution : In (model, year, resolution) (cells m) -> ~ In (model, year, resolution) done -> ok done Z ->
    exists Z', add_cell m files Z (model, year, resolution) = Ok Z' /\ ok (done ++ [(model, year, resolution)]) Z'.
  Proof.
    intros Ic Nc Ok. destruct Ok as (R & Dm & Lb & Sh & Cv). pose proof Ic as Ic'. apply cells_In in Ic'. destruct Ic' as (M & Hcell). pose proof Hcell as (HM & _). unfold add_cell, process_results, open_nc.
    destruct (files (result_file model year resolution)) as [ds|] eqn:Efile.
    - assert (found m files ds) as Hfound by (exists model, M, year, resolution; auto). destruct Hf as [H1 H2].
      destruct (process_ok m ds (H1 ds Hfound)) as (out & Eout & One & Rout & Dout & Cout & Lout).
      { intros n n' k k' v a a' Hn Hn' Ga Ga'. exact (H2 ds ds n n' k k' v a a' Hfound Hfound Hn Hn' Ga Ga'). }
      rewrite Eout. cbn [bind]. pose proof HM as GM. apply model_get in GM. unfold dgetE. rewrite GM. cbn [bind].
      assert (forall w b d, dget out w = Some b -> In d (dnames b) -> d = "metric" \/ ~ reserved d) as Hres.
      { intros w b d G I. destruct (Dout _ _ G) as [_ Hd]. apply Hd in I. destruct I as [->|(n & k & v & a & _ & _ & Ga & I)]; [left; reflexivity|right]. destruct (H1 ds Hfound) as (_ & _ & He & _). destruct (He n a Ga) as [(_ & _ & _ & Rr) _]. apply Rr, I. }
      assert (forall d, In d ["model"; "resolution"; "year"] -> reserved d) as Hr3 by (intros d [<-|[<-|[<-|[]]]]; left; cbn; auto).
      destruct (expand_realizes M resolution year out (has_value m ds)) as [Eex Rex]; auto.
      { intros w b G. assert (forall d, In d ["model"; "resolution"; "year"] -> ~ In d (dnames b)) as K.
        { intros d Id I. destruct (Hres w b d G I) as [->|Hn]; [destruct Id as [[=]|[[=]|[[=]|[]]]]|]. apply Hn, Hr3, Id. }
        repeat split; apply K; cbn; auto. }
      rewrite Eex. cbn [bind]. set (E := map (fun kv => (fst kv, expanded M resolution year (snd kv))) out) in *.
      assert (forall w b, dget E w = Some b <-> exists c, dget out w = Some c /\ b = expanded M resolution year c) as GE by (intros; apply (dget_map_some (expanded M resolution year))).
      assert (forall w b, dget E w = Some b -> In "region" (dnames b) /\ forall d, In d (dnames b) <-> In d ["model"; "resolution"; "year"; "metric"] \/
          exists ds n k v a, found m files ds /\ named n k v /\ shown_variable v w /\ dget ds n = Some a /\ In d (dnames a)) as DE.
      { intros w b G. apply GE in G. destruct G as (c & G & ->). destruct (Dout _ _ G) as [Ir Hd]. split; [right; right; right; exact Ir|]. intros d.
        change (dnames (expanded M resolution year c)) with ("model" :: "resolution" :: "year" :: dnames c). cbn [In]. rewrite Hd. split.
        - intros [H|[H|[H|[H|(n & k & v & a & Hn & HV & Ga & Id)]]]]; try (left; cbn; auto 6; fail). right. exists ds, n, k, v, a. auto 6.
        - intros [[H|[H|[H|[H|[]]]]]|(ds' & n & k & v & a & Hfd & Hn & HV & Ga & Id)]; auto 6. right. right. right. right.
          apply Hd in Ir. destruct Ir as [[=]|(n0 & k0 & v0 & a0 & Hn0 & HV0 & Ga0 & _)]. exists n0, k0, v0, a0. split; auto. split; auto. split; auto.
          rewrite (variable_inj _ _ _ HV HV0) in Hn. apply (H2 ds ds' n0 n k0 k v0 a0 a Hfound Hfd Hn0 Hn Ga0 Ga d). exact Id. }
      destruct (merge_realizes Z E (done_value done) _ R Rex) as (Z' & EZ & RZ & KZ & DZ & LZ & SZ).
      { intros w a b Ga Gb d. rewrite (proj2 (Dm w a Ga) d), (proj2 (DE w b Gb) d). reflexivity. }
      { intros w e x y (mo & ye & re & M' & ds' & Id & HM' & _ & E1 & E2 & E3 & _) (F1 & F2 & F3 & _). apply Nc. rewrite E1 in F1. rewrite E2 in F3. rewrite E3 in F2. injection F1 as ->. injection F2 as ->. injection F3 as ->.
        rewrite (model_inj _ _ _ _ HM HM'). exact Id. }
      exists Z'. split; [exact EZ|].
      assert (forall w z, dget Z' w = Some z -> (exists a, dget Z w = Some a) \/ (exists b, dget E w = Some b)) as Hin.
      { intros w z G. apply dget_Some_keys in G. apply KZ in G. destruct G as [G|G]; apply keys_dget in G; auto. }
      split; [|split; [|split; [|split]]].
      + revert RZ. apply realizes_ext. intros w e x. split.
        * intros [(mo & ye & re & M' & ds' & Id & Hrest)|(E1 & E2 & E3 & Hv)].
          -- exists mo, ye, re, M', ds'. split; [apply in_app_iff; left; exact Id|exact Hrest].
          -- exists model, year, resolution, M, ds. split; [apply in_app_iff; right; left; reflexivity|]. auto 8.
        * intros (mo & ye & re & M' & ds' & Id & HM' & Hfi & E1 & E2 & E3 & Hv). apply in_app_iff in Id. destruct Id as [Id|[Id|[]]].
          -- left. exists mo, ye, re, M', ds'. auto 10.
          -- injection Id as <- <- <-. right. rewrite Efile in Hfi. injection Hfi as <-. assert (M' = M) as -> by (apply model_get in HM'; congruence). split; [exact E1|]. split; [exact E3|]. split; [exact E2|exact Hv].
      + intros w z G. assert (forall d, In d (dnames z) <-> In d ["model"; "resolution"; "year"; "metric"] \/ exists ds n k v a, found m files ds /\ named n k v /\ shown_variable v w /\ dget ds n = Some a /\ In d (dnames a)) as Hd.
        { intros d. rewrite (DZ w z d G). split.
          - intros [(a & Ga & I)|(b & Gb & I)]; [apply (Dm w a Ga), I|apply (DE w b Gb), I].
          - intros I. destruct (Hin w z G) as [(a & Ga)|(b & Gb)]; [left; exists a; split; [exact Ga|apply (Dm w a Ga), I]|right; exists b; split; [exact Gb|apply (DE w b Gb), I]]. }
        split; [|exact Hd]. apply (DZ w z "region" G). destruct (Hin w z G) as [(a & Ga)|(b & Gb)]; [left; exists a; split; [exact Ga|exact (proj1 (Dm w a Ga))]|right; exists b; split; [exact Gb|exact (proj1 (DE w b Gb))]].
      + intros w z l G Il. destruct (LZ w z "lead_time" l G Il) as (w' & c & [Gc|Gc] & Il'); [eapply Lb; eauto|]. apply GE in Gc. destruct Gc as (b & Gb & ->). change (labels_of (dims (expanded M resolution year b)) "lead_time") with (labels_of (dims b) "lead_time") in Il'.
        destruct (Lout w' b "lead_time" l Gb) as (n & a & Ga & Ia); try discriminate; auto. exists ds, n, a. auto.
      + exact SZ.
      + intros mo ye re ds' n k v K V a Id Hfi Ga Hn HK HV. apply dget_keys_some, KZ. apply in_app_iff in Id. destruct Id as [Id|[Id|[]]].
        * left. apply dget_keys_some. eapply Cv; eauto.
        * injection Id as <- <- <-. rewrite Efile in Hfi. injection Hfi as <-. right. destruct (Cout n k v K V a Ga Hn HK HV) as (b & Gb). apply dget_keys_some. eexists. apply GE. eauto.
    - cbn [bind]. exists Z. split; [reflexivity|]. split; [|split; [exact Dm|split; [exact Lb|split; [exact Sh|]]]].
      + revert R. apply realizes_ext. intros w e x. split.
        * intros (mo & ye & re & M' & ds' & Id & Hrest). exists mo, ye, re, M', ds'. split; [apply in_app_iff; left; exact Id|exact Hrest].
        * intros (mo & ye & re & M' & ds' & Id & HM' & Hfi & Hrest). apply in_app_iff in Id. destruct Id as [Id|[Id|[]]]; [exists mo, ye, re, M', ds'; auto 10|]. injection Id as <- <- <-. congruence.
      + intros mo ye re ds' n k v K V a Id Hfi Ga Hn HK HV. apply in_app_iff in Id. destruct Id as [Id|[Id|[]]]; [eapply Cv; eauto|]. injection Id as <- <- <-. congruence.
  Qed.
  Lemma merge_all_ok cs : forall done Z, (forall c, In c cs -> In c (cells m)) -> NoDup (done ++ cs) -> ok done Z -> exists Z', merge_all m files Z cs = Ok Z' /\ ok (done ++ cs) Z'.
  Proof.
    induction cs as [|[[mo ye] re] cs IH]; intros done Z Hc N Hok; [rewrite app_nil_r; exists Z; auto|].
    destruct (add_ok done Z mo ye re) as (Z1 & E1 & Ok1); [apply Hc; left; reflexivity| |exact Hok|].
    - intros I. apply NoDup_remove_2 in N. apply N, in_app_iff. left. exact I.
    - cbn [merge_all]. rewrite E1. cbn [bind]. destruct (IH (done ++ [(mo, ye, re)]) Z1) as (Z2 & E2 & Ok2); [intros c I; apply Hc; right; exact I|rewrite <- app_assoc; exact N|exact Ok1|].
      exists Z2. split; [exact E2|]. rewrite <- app_assoc in Ok2. exact Ok2.
  Qed.
  Lemma loop_ok : exists Z, merge_all m files [] (cells m) = Ok Z /\ ok (cells m) Z.
  Proof. apply (merge_all_ok (cells m) [] []); auto; [apply cells_NoDup|apply ok_nil]. Qed.
  Lemma done_cells w e x : done_value (cells m) w e x <-> cell_value m files w e x.
  Proof.
    split.
    - intros (mo & ye & re & M & ds & Ic & HM & Hfi & E1 & E2 & E3 & Hv). apply cells_In in Ic. destruct Ic as (M' & Hcell). exists mo, M, ye, re, ds. split; [split; [exact HM|apply Hcell]|]. auto 6.
    - intros (mo & M & ye & re & ds & Hcell & Hfi & E1 & E2 & E3 & Hv). exists mo, ye, re, M, ds. split; [apply cells_In; eauto|]. split; [apply Hcell|]. auto 6.
  Qed.
  Lemma ds_labels_Ok (Z : vars da) d l : NoDup (keys Z) -> ds_labels Z d = Ok l -> exists w z, dget Z w = Some z /\ In d (dnames z) /\ l = labels_of (dims z) d.
  Proof.
    intros N. unfold ds_labels. destruct (find _ Z) as [[w z]|] eqn:E; [|discriminate]. intros [= <-]. apply find_some in E. destruct E as [I Hm]. cbn [snd] in *. exists w, z. split; [now apply In_dget|]. split; [now apply memb_In|reflexivity].
  Qed.
  Lemma main_Ok out : main m files = Ok out -> exists Z, ok (cells m) Z /\ o_data out = Z /\ o_file out = match m with Deterministic => "deterministic.zarr" | Probabilistic => "probabilistic.zarr" end /\
    forall w z, dget Z w = Some z -> In "lead_time" (dnames z) -> mapM to_hours (labels_of (dims z) "lead_time") = Ok (o_lead_time_h out).
  Proof.
    destruct loop_ok as (Z & EZ & OkZ). unfold main. rewrite EZ. cbn [bind]. destruct (ds_labels Z "lead_time") as [l|] eqn:El; [|discriminate]. cbn [bind]. destruct (mapM to_hours l) as [h|] eqn:Eh; [|discriminate]. cbn [bind].
    destruct (forallb _ _); [|discriminate]. intros [= <-]. exists Z. split; [exact OkZ|]. cbn [o_data o_file o_lead_time_h]. split; [reflexivity|]. split; [reflexivity|].
    intros w z G I. destruct (ds_labels_Ok Z "lead_time" l) as (w0 & z0 & G0 & I0 & ->); [apply OkZ|exact El|]. destruct OkZ as (_ & _ & _ & Sh & _). rewrite (Sh w w0 z z0 "lead_time" G G0 I I0). exact Eh.
  Qed.
  Lemma main_total : 
    (exists ds n k v K V a, found m files ds /\ dget ds n = Some a /\ named n k v /\ shown_metric m k K /\ shown_variable v V /\ In "lead_time" (dnames a)) ->
    (exists ds n k v K V a, found m files ds /\ dget ds n = Some a /\ named n k v /\ shown_metric m k K /\ shown_variable v V /\ In "level" (dnames a)) ->
    (forall ds n a l, found m files ds -> dget ds n = Some a -> In l (labels_of (dims a) "lead_time") -> exists t, l = LZ t) ->
    exists out, main m files = Ok out.
  Proof.
    intros H1 H2 H3. destruct loop_ok as (Z & EZ & OkZ). unfold main. rewrite EZ. cbn [bind]. destruct OkZ as (R & Dm & Lb & Sh & Cv).
    assert (forall d, (exists ds n k v K V a, found m files ds /\ dget ds n = Some a /\ named n k v /\ shown_metric m k K /\ shown_variable v V /\ In d (dnames a)) -> exists w z, dget Z w = Some z /\ In d (dnames z)) as Hd.
    { intros d (ds & n & k & v & K & V & a & Hfd & Ga & Hn & HK & HV & Id). pose proof Hfd as (mo & M & ye & re & Hcell & Hfi).
      destruct (Cv mo ye re ds n k v K V a) as (z & Gz); auto; [apply cells_In; eauto|]. exists V, z. split; [exact Gz|]. apply (Dm V z Gz). right. exists ds, n, k, v, a. auto 6. }
    destruct (Hd "lead_time" H1) as (w1 & z1 & G1 & I1). destruct (Hd "level" H2) as (w2 & z2 & G2 & I2).
    assert (exists l, ds_labels Z "lead_time" = Ok l) as (l & El).
    { unfold ds_labels. destruct (find _ Z) as [kv|] eqn:E; [eauto|]. exfalso. apply find_none with (x := (w1, z1)) in E; [|apply dget_In, G1]. cbn [snd] in E. apply memb_false in E. contradiction. }
    rewrite El. cbn [bind]. destruct (mapM_total to_hours l) as (h & Eh).
    { intros t It. destruct (ds_labels_Ok Z "lead_time" l) as (w0 & z0 & G0 & I0 & ->); [apply R|exact El|]. destruct (Lb _ _ _ G0 It) as (ds & n & a & Hfd & Ga & Ia). destruct (H3 ds n a t Hfd Ga Ia) as (q & ->). cbn. eauto. }
    rewrite Eh. cbn [bind]. replace (forallb _ chunk_dims) with true; [eauto|]. symmetry. apply forallb_forall. intros d Id. apply existsb_exists.
    assert (exists w z, dget Z w = Some z /\ In d (dnames z)) as (w & z & G & I).
    { destruct (Dm w1 z1 G1) as [Ir Hdz]. destruct Id as [<-|[<-|[<-|[<-|[<-|[<-|[<-|[]]]]]]]]; try (exists w1, z1; split; [exact G1|]; try exact Ir; apply Hdz; left; cbn; auto 6; fail); [exists w2, z2; auto|exists w1, z1; auto]. }
    exists (w, z). split; [apply dget_In, G|]. apply memb_In. exact I.
  Qed.
End Loop.
