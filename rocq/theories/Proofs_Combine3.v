(** One result file (C70): process_results puts every entry at its metric, variable and region. *)
From Coq Require Import String Ascii ZArith List Bool Reals FunctionalExtensionality.
Import ListNotations.
From Verif Require Import Prelude Values Model_XArray Spec_XArray Proofs_XArray Model_MetricsBase Model_Aggregation Model_Categorical
  Model_Prepare Spec_Prepare Proofs_Prepare Proofs_Select Proofs_RoundTrip Proofs_Seeps Proofs_Loaders Proofs_AggState Model_Combine Spec_Combine Proofs_Combine Proofs_Combine2.
Local Open Scope string_scope.
Local Open Scope list_scope.

Definition switch (old new n : string) : string := if String.eqb n old then new else n.
Lemma switch_new old new n : new_name [(old, new)] n = switch old new n.
Proof. unfold new_name, switch. cbn [dget]. destruct (eq_dec n old) as [->|E]; [now rewrite String.eqb_refl|]. destruct (String.eqb_spec n old); congruence. Qed.
Lemma rename_vector_ok old new (D : vars da) : old <> new -> NoDup (keys D) ->
  (forall n a, In (n, a) D -> wf a /\ aux a = [] /\ ~ In old (dnames a) /\ ~ In new (dnames a)) ->
  ~ (In old (keys D) /\ In new (keys D)) ->
  rename_vector old new D = Ok (map (fun kv => (switch old new (fst kv), snd kv)) D).
Proof.
  intros Hne N H Hb. assert (forall n, coordinate_of D n -> n <> old /\ n <> new) as Hc.
  { intros n (v & a & I & Hn). destruct (H v a I) as (_ & X & H1 & H2). rewrite X in Hn. destruct Hn as [Hn|[]]. split; intros ->; auto. }
  unfold rename_vector. destruct (memb old (ds_names D)) eqn:E.
  - apply memb_In, in_ds_names in E. destruct E as [E|E]; [|apply Hc in E; destruct E; congruence].
    rewrite rename_names.
    + f_equal. apply map_ext. intros kv. now rewrite switch_new.
    + intros n a I. destruct (H n a I) as (W & X & H1 & H2). split; [exact W|]. split; [exact X|]. intros d Id. rewrite switch_new. unfold switch. destruct (String.eqb_spec d old); [subst; contradiction|reflexivity].
    + intros n [<-|[]]. exact E.
    + intros n n' Hn Hn' Es. rewrite !switch_new in Es. unfold switch in Es.
      assert (~ name_of D new) as Hx by (intros [K|K]; [auto|apply Hc in K; destruct K; congruence]).
      destruct (String.eqb_spec n old), (String.eqb_spec n' old); subst; auto; contradiction.
  - apply memb_false in E. rewrite in_ds_names in E. f_equal. transitivity (map (fun kv : string * da => kv) D); [now rewrite List.map_id|].
    apply map_ext_in. intros [n a] I. cbn [fst snd]. unfold switch. destruct (String.eqb_spec n old); [|reflexivity]. subst. exfalso. apply E. left. eapply shown_key; eauto.
Qed.
Lemma canon_switch n : switch "vector_rmse.10m_wind" "rmse.10m_wind_vector" (switch "vector_rmse.wind" "rmse.wind_vector" n) = canon n.
Proof.
  unfold switch, canon. destruct (String.eqb_spec n "vector_rmse.wind") as [->|H1]; [reflexivity|]. destruct (String.eqb_spec n "vector_rmse.10m_wind"); reflexivity.
Qed.
Lemma mapM_NoDup {A B} (f : A -> result B) l r : mapM f l = Ok r -> NoDup l -> (forall x y z, In x l -> In y l -> f x = Ok z -> f y = Ok z -> x = y) -> NoDup r.
Proof.
  intros H. apply mapM_Ok_Forall2 in H. induction H as [|x y l r E F IH]; intros N J; [constructor|]. apply NoDup_cons_iff in N. destruct N as [N1 N2]. constructor.
  - intros I. apply N1. assert (mapM f l = Ok r) as M by now apply mapM_Ok_Forall2. apply (proj1 (mapM_In_iff f l r M y)) in I. destruct I as (x' & I & E').
    rewrite (J x x' y); auto; [left; reflexivity|right; exact I].
  - apply IH; auto. intros a b c Ia Ib. apply J; right; auto.
Qed.
Lemma realizes_rename f (D : vars da) C : NoDup (map f (keys D)) -> realizes D C ->
  realizes (map (fun kv => (f (fst kv), snd kv)) D) (fun w e x => exists v, w = f v /\ C v e x).
Proof.
  intros Nf (N & W & A & B). pose proof (dget_rename f D Nf N) as G. split; [rewrite keys_rename; exact Nf|]. split; [|split].
  - intros w b H. apply G in H. destruct H as (v & H & _). apply (W _ _ H).
  - intros w e x (v & -> & Hc). destruct (A _ _ _ Hc) as (b & H & P & E). exists b. split; [apply G; eauto|auto].
  - intros w b e H P. apply G in H. destruct H as (v & H & ->). destruct (B v b e H P) as [E|E]; [left; exact E|right; eauto].
Qed.

Section File.
  Variables (m : mode) (ds : vars da).
  Hypothesis Hds : result_dataset m ds.
  Hypothesis Huni : forall n n' k k' v a a', named n k v -> named n' k' v -> dget ds n = Some a -> dget ds n' = Some a' -> same_dims a a'.
  Let D0 : vars da := map (fun kv => (fst kv, strip (snd kv))) ds.
  Let D2 : vars da := map (fun kv => (canon (fst kv), snd kv)) D0.

  Lemma ds_entry n a : dget ds n = Some a -> result_array a /\ exists k v K V, named n k v /\ shown_metric m k K /\ shown_variable v V.
  Proof. destruct Hds as (_ & _ & H & _). apply H. Qed.
  Lemma D0_get n a' : dget D0 n = Some a' <-> exists a, dget ds n = Some a /\ a' = strip a.
  Proof. unfold D0. apply (dget_map_some strip). Qed.
  Lemma D0_keys : keys D0 = keys ds.
  Proof. apply (keys_map_val strip). Qed.
  Lemma ds_NoDup : NoDup (keys ds).
  Proof. apply Hds. Qed.
  Lemma D0_in n a' : In (n, a') D0 -> exists a, dget ds n = Some a /\ a' = strip a.
  Proof. intros I. apply D0_get, In_dget; auto. rewrite D0_keys. apply ds_NoDup. Qed.
  Lemma D0_array n a' : In (n, a') D0 -> wf a' /\ aux a' = [] /\ forall d, In d (dnames a') -> ~ reserved d.
  Proof.
    intros I. destruct (D0_in _ _ I) as (a & G & ->). destruct (ds_entry _ _ G) as [(W & _ & _ & R) _]. split; [exact W|]. split; [reflexivity|exact R].
  Qed.
  Lemma not_both old new k v : named old k v -> named new k v -> old <> new -> ~ (In old (keys ds) /\ In new (keys ds)).
  Proof. intros H1 H2 Hn [I1 I2]. destruct Hds as (_ & _ & _ & J). apply Hn. eapply J; eauto. Qed.
  Lemma vectors_ok : (do d <- rename_vector "vector_rmse.wind" "rmse.wind_vector" D0; rename_vector "vector_rmse.10m_wind" "rmse.10m_wind_vector" d) = Ok D2.
  Proof.
    rewrite rename_vector_ok.
    - cbn [bind]. rewrite rename_vector_ok.
      + f_equal. rewrite map_map. cbn [fst snd]. unfold D2. apply map_ext. intros [n a]. cbn [fst snd]. now rewrite canon_switch.
      + discriminate.
      + rewrite keys_rename. apply NoDup_map_on; [|rewrite D0_keys; apply ds_NoDup]. intros x y Ix Iy E. rewrite D0_keys in Ix, Iy. unfold switch in E.
        pose proof (not_both "vector_rmse.wind" "rmse.wind_vector" "rmse" "wind_vector" named_wind (named_plain "rmse" "wind_vector" ltac:(intros [[=] _])) ltac:(discriminate)) as NB.
        destruct (String.eqb_spec x "vector_rmse.wind") as [->|Hx], (String.eqb_spec y "vector_rmse.wind") as [->|Hy]; auto; subst; exfalso; apply NB; auto.
      + intros n a I. apply in_map_iff in I. destruct I as ([n0 a0] & [= <- <-] & I). destruct (D0_array _ _ I) as (W & X & R). split; [exact W|]. split; [exact X|].
        split; intros Id; apply (R _ Id); left; cbn; auto 10.
      + rewrite keys_rename, D0_keys. intros [I1 I2]. apply in_map_iff in I1, I2. destruct I1 as (n1 & E1 & I1). destruct I2 as (n2 & E2 & I2). unfold switch in E1, E2.
        destruct (String.eqb_spec n1 "vector_rmse.wind"); [discriminate|]. destruct (String.eqb_spec n2 "vector_rmse.wind"); [discriminate|]. subst n1 n2.
        revert I1 I2. pose proof (not_both "vector_rmse.10m_wind" "rmse.10m_wind_vector" "rmse" "10m_wind_vector" named_10m (named_plain "rmse" "10m_wind_vector" ltac:(intros [[=] _])) ltac:(discriminate)). tauto.
    - discriminate.
    - rewrite D0_keys. apply ds_NoDup.
    - intros n a I. destruct (D0_array _ _ I) as (W & X & R). split; [exact W|]. split; [exact X|]. split; intros Id; apply (R _ Id); left; cbn; auto 10.
    - rewrite D0_keys. apply (not_both _ _ "rmse" "wind_vector"); [apply named_wind|apply (named_plain "rmse" "wind_vector"); intros [[=] _]|discriminate].
  Qed.
  Lemma canon_NoDup : NoDup (map canon (keys ds)).
  Proof.
    apply NoDup_map_on; [|apply ds_NoDup]. intros x y Ix Iy E. pose proof Ix as Ix'. pose proof Iy as Iy'. apply dget_keys_some in Ix, Iy. destruct Ix as (a & Ga). destruct Iy as (b & Gb).
    destruct (ds_entry _ _ Ga) as [_ (k & v & K & V & Hn & HK & HV)]. destruct (ds_entry _ _ Gb) as [_ (k' & v' & K' & V' & Hn' & HK' & HV')].
    rewrite (named_canon m _ _ _ _ _ Hn HK HV), (named_canon m _ _ _ _ _ Hn' HK' HV') in E.
    destruct (nm_inj m k v k' v') as [-> ->]; auto; try (eapply shown_key; eauto; fail). destruct Hds as (_ & _ & _ & J). eapply J; eauto.
  Qed.
  Lemma D2_get n' a' : dget D2 n' = Some a' <-> exists n a, dget ds n = Some a /\ n' = canon n /\ a' = strip a.
  Proof.
    unfold D2. rewrite (dget_rename canon D0); [|rewrite D0_keys; apply canon_NoDup|rewrite D0_keys; apply ds_NoDup]. split.
    - intros (n & G & ->). apply D0_get in G. destruct G as (a & G & ->). eauto.
    - intros (n & a & G & -> & ->). exists n. split; [apply D0_get; eauto|reflexivity].
  Qed.
  Lemma D2_keys n' : In n' (keys D2) <-> exists a', dget D2 n' = Some a'.
  Proof. apply dget_keys_some. Qed.
  Lemma D2_NoDup : NoDup (keys D2).
  Proof. unfold D2. rewrite keys_rename, D0_keys. apply canon_NoDup. Qed.
  (** What an entry of the renamed file is. *)
  Lemma D2_entry n' a' : dget D2 n' = Some a' -> exists n a k v K V, dget ds n = Some a /\ named n k v /\ shown_metric m k K /\ shown_variable v V /\ n' = nm k v /\ a' = strip a /\ result_array a.
  Proof.
    intros H. apply D2_get in H. destruct H as (n & a & G & -> & ->). destruct (ds_entry _ _ G) as [Ra (k & v & K & V & Hn & HK & HV)].
    exists n, a, k, v, K, V. rewrite (named_canon m _ _ _ _ _ Hn HK HV). auto 10.
  Qed.
  Lemma D2_known k v K V a' : dget D2 (nm k v) = Some a' -> shown_metric m k K -> shown_variable v V -> exists n a, dget ds n = Some a /\ named n k v /\ a' = strip a /\ result_array a.
  Proof.
    intros H HK HV. destruct (D2_entry _ _ H) as (n & a & k0 & v0 & K0 & V0 & G & Hn & HK0 & HV0 & E & -> & Ra).
    destruct (nm_inj m k v k0 v0) as [-> ->]; auto; try (eapply shown_key; eauto; fail). exists n, a. auto.
  Qed.

  Lemma variables_ok : exists vs, mapM (part 1) (keys D2) = Ok vs /\ vs <> [] /\
    forall v, In v vs <-> exists k K V a', shown_metric m k K /\ shown_variable v V /\ dget D2 (nm k v) = Some a'.
  Proof.
    assert (forall n, In n (keys D2) -> exists k v K V a', n = nm k v /\ shown_metric m k K /\ shown_variable v V /\ dget D2 n = Some a' /\ part 1 n = Ok v /\ part 0 n = Ok k) as K1.
    { intros n I. apply D2_keys in I. destruct I as (a' & G). destruct (D2_entry _ _ G) as (n0 & a & k & v & K & V & _ & _ & HK & HV & -> & _).
      destruct (pair_facts m k v) as (P0 & P1 & _); try (eapply shown_key; eauto; fail). exists k, v, K, V, a'. auto 10. }
    destruct (mapM_total (part 1) (keys D2)) as (vs & Evs); [intros n I; destruct (K1 n I) as (? & v & ? & ? & ? & ? & ? & ? & ? & ? & _); eauto|].
    exists vs. split; [exact Evs|]. assert (forall v, In v vs <-> exists k K V a', shown_metric m k K /\ shown_variable v V /\ dget D2 (nm k v) = Some a') as Hin.
    { intros v. rewrite (mapM_In_iff _ _ _ Evs). split.
      - intros (n & I & P). destruct (K1 n I) as (k & v0 & K & V & a' & -> & HK & HV & G & P1 & _). rewrite P in P1. injection P1 as ->. eauto 8.
      - intros (k & K & V & a' & HK & HV & G). exists (nm k v). split; [apply D2_keys; eauto|]. destruct (pair_facts m k v) as (_ & P1 & _); try (eapply shown_key; eauto; fail). exact P1. }
    split; [|exact Hin]. assert (exists n a, dget ds n = Some a) as (n & a & G).
    { destruct Hds as (Hne & _). clear -Hne. destruct ds as [|[n a] r]; [contradiction|]. exists n, a. cbn [dget]. destruct (eq_dec n n); congruence. }
    intros ->.
    destruct (ds_entry _ _ G) as [_ (k & v & K & V & Hn & HK & HV)]. apply (Hin v). exists k, K, V, (strip a). split; auto. split; auto.
    rewrite <- (named_canon m _ _ _ _ _ Hn HK HV). apply D2_get. eauto.
  Qed.

  Lemma cat_ok v V : shown_variable v V -> (exists k K a', shown_metric m k K /\ dget D2 (nm k v) = Some a') ->
    exists parts, cat_variable D2 v = Ok (v, concat_new "metric" parts) /\ NoDup (map fst parts) /\ parts <> [] /\
      (forall l a', dget parts l = Some a' <-> exists k K, l = LS k /\ shown_metric m k K /\ dget D2 (nm k v) = Some a').
  Proof.
    intros HV Hex. pose proof (shown_key _ _ _ HV) as Iv.
    assert (forall n, In n (filter (endswith ("." ++ v)%string) (keys D2)) <-> exists k K a', n = nm k v /\ shown_metric m k K /\ dget D2 n = Some a') as Hf.
    { intros n. rewrite filter_In, D2_keys. split.
      - intros [(a' & G) En]. destruct (D2_entry _ _ G) as (n0 & a & k & v0 & K & V0 & _ & _ & HK & HV0 & -> & _).
        destruct (pair_facts m k v0) as (_ & _ & _ & Pe); try (eapply shown_key; eauto; fail). rewrite (Pe v Iv) in En. apply String.eqb_eq in En. subst v0. eauto 8.
      - intros (k & K & a' & -> & HK & G). split; [eauto|]. destruct (pair_facts m k v) as (_ & _ & _ & Pe); try (eapply shown_key; eauto; fail). rewrite (Pe v Iv). apply String.eqb_refl. }
    assert (forall k K, shown_metric m k K -> part 0 (nm k v) = Ok k) as P0 by (intros k K HK; apply (pair_facts m); auto; eapply shown_key; eauto).
    unfold cat_variable, metrics_for_variable.
    destruct (mapM_total (part 0) (filter (endswith ("." ++ v)%string) (keys D2))) as (ms & Ems).
    { intros n I. apply Hf in I. destruct I as (k & K & a' & -> & HK & _). eauto. }
    rewrite Ems. cbn [bind].
    assert (forall k, In k ms <-> exists K a', shown_metric m k K /\ dget D2 (nm k v) = Some a') as Hms.
    { intros k. rewrite (mapM_In_iff _ _ _ Ems). split.
      - intros (n & I & P). apply Hf in I. destruct I as (k0 & K & a' & -> & HK & G). rewrite (P0 _ _ HK) in P. injection P as ->. eauto.
      - intros (K & a' & HK & G). exists (nm k v). split; [apply Hf; eauto 8|eauto]. }
    destruct (mapM_total (fun mv => dgetE D2 (mv ++ "." ++ v)%string) ms) as (arrs & Earrs).
    { intros k I. apply Hms in I. destruct I as (K & a' & _ & G). exists a'. unfold dgetE. change (k ++ "." ++ v)%string with (nm k v). now rewrite G. }
    rewrite Earrs. cbn [bind]. exists (combine (map LS ms) arrs).
    assert (length arrs = length ms) as Len by (eapply mapM_Ok_length; eauto).
    assert (NoDup ms) as Nms.
    { eapply mapM_NoDup; [exact Ems|apply NoDup_filter, D2_NoDup|]. intros x y z Ix Iy Px Py. apply Hf in Ix, Iy. destruct Ix as (k & K & a' & -> & HK & _). destruct Iy as (k' & K' & b' & -> & HK' & _).
      rewrite (P0 _ _ HK) in Px. rewrite (P0 _ _ HK') in Py. congruence. }
    assert (map fst (combine (map LS ms) arrs) = map LS ms) as Ef.
    { clear -Len. revert arrs Len. induction ms as [|k ms IH]; intros [|a arrs] Len; try discriminate; [reflexivity|]. cbn [map combine fst]. f_equal. apply IH. now injection Len. }
    assert (ms <> []) as Hne. { destruct Hex as (k & K & a' & HK & G). intros ->. apply (proj2 (Hms k)). eauto. }
    split; [|split; [|split]].
    - destruct ms; [contradiction|reflexivity].
    - rewrite Ef. apply NoDup_map_on; [intros x y _ _ [= E]; exact E|exact Nms].
    - intros E. rewrite E in Ef. destruct ms; [contradiction|discriminate].
    - intros l a'. split.
      + intros G. pose proof (dget_Some_keys _ _ G) as Il. unfold keys in Il. rewrite Ef in Il. apply in_map_iff in Il. destruct Il as (k & <- & Ik).
        apply (proj1 (dget_combine_mapM _ _ _ Earrs k a')) in G. destruct G as [_ G]. unfold dgetE in G. change (k ++ "." ++ v)%string with (nm k v) in G. destruct (dget D2 (nm k v)) as [c|] eqn:Ec; [|discriminate]. injection G as ->.
        apply Hms in Ik. destruct Ik as (K & _ & HK & _). eauto.
      + intros (k & K & -> & HK & G). apply (proj2 (dget_combine_mapM _ _ _ Earrs k a')). split; [apply Hms; eauto|]. unfold dgetE. change (k ++ "." ++ v)%string with (nm k v). now rewrite G.
  Qed.

  (** The dataset of 229, before the renaming of variables and labels. *)
  Definition C1 (v : string) (e : env) (x : val) : Prop :=
    exists k K V a', shown_metric m k K /\ shown_variable v V /\ dget D2 (nm k v) = Some a' /\ e "metric" = LS k /\ point_of (dims a') e /\ x = get a' e.
  Lemma metric_not_dim a : result_array a -> ~ In "metric" (dnames a).
  Proof. intros (_ & _ & _ & R) I. apply (R _ I). left. left. reflexivity. Qed.
  Lemma dataset_ok : exists cats J D3,
    mapM (cat_variable D2) (nodup string_dec (match mapM (part 1) (keys D2) with Ok vs => vs | Err _ => [] end)) = Ok cats /\
    D3 = combine (map fst cats) (align_dataset (map snd cats)) /\ D3 <> [] /\ realizes D3 C1 /\
    (forall v b, dget D3 v = Some b -> (exists V, shown_variable v V) /\ labels_of (dims b) "metric" = labels_of J "metric" /\ labels_of (dims b) "region" = labels_of J "region" /\
       (forall d, In d (dnames b) <-> d = "metric" \/ exists n k a, named n k v /\ dget ds n = Some a /\ In d (dnames a)) /\ In "region" (dnames b)) /\
    (forall l, In l (labels_of J "metric") -> exists k K, l = LS k /\ shown_metric m k K) /\
    (forall l, In l (labels_of J "region") -> exists r G, l = LS r /\ shown_region r G) /\
    NoDup (labels_of J "metric") /\ NoDup (labels_of J "region") /\
    (forall v b d l, dget D3 v = Some b -> d <> "metric" -> In l (labels_of (dims b) d) -> exists n a, dget ds n = Some a /\ In l (labels_of (dims a) d)) /\
    (forall n k v K V a, dget ds n = Some a -> named n k v -> shown_metric m k K -> shown_variable v V -> exists b, dget D3 v = Some b).
  Proof.
    destruct variables_ok as (vs & Evs & Hvne & Hvs). rewrite Evs.
    assert (forall v, In v vs -> exists V parts, shown_variable v V /\ cat_variable D2 v = Ok (v, concat_new "metric" parts) /\ NoDup (map fst parts) /\ parts <> [] /\
      (forall l a', dget parts l = Some a' <-> exists k K, l = LS k /\ shown_metric m k K /\ dget D2 (nm k v) = Some a')) as Hc.
    { intros v I. apply Hvs in I. destruct I as (k & K & V & a' & HK & HV & G). destruct (cat_ok v V HV) as (parts & H); [eauto|]. exists V, parts. auto. }
    destruct (mapM_total (cat_variable D2) (nodup string_dec vs)) as (cats & Ecats).
    { intros v I. apply nodup_In in I. destruct (Hc v I) as (V & parts & _ & E & _). eauto. }
    set (J := fold_left (merge_dims union_labels) (map dims (map snd cats)) []).
    set (D3 := combine (map fst cats) (align_dataset (map snd cats))).
    assert (D3 = map (fun kv => (fst kv, reindex J NaN (snd kv))) cats) as ED3.
    { unfold D3, align_dataset. rewrite align_reindex. fold J. generalize (reindex J NaN). intros h. clear. induction cats as [|[k a] cats IH]; [reflexivity|]. cbn [map combine fst snd]. now rewrite IH. }
    assert (keys cats = nodup string_dec vs) as Kc.
    { clear - Ecats Hc. assert (forall v, In v (nodup string_dec vs) -> exists c, cat_variable D2 v = Ok (v, c)) as H.
      { intros v I. apply nodup_In in I. destruct (Hc v I) as (V & parts & _ & E & _). eauto. }
      clear Hc. revert cats Ecats. generalize dependent (nodup string_dec vs). intros l. induction l as [|v l IH]; intros H cats E; cbn [mapM] in E; [injection E as <-; reflexivity|].
      destruct (H v (or_introl eq_refl)) as (c & Ev). rewrite Ev in E. cbn [bind] in E. destruct (mapM (cat_variable D2) l) as [r|] eqn:El; [|discriminate]. injection E as <-. cbn. f_equal. apply IH; auto. intros v' I. apply H. right. exact I. }
    assert (NoDup (keys cats)) as Ncats by (rewrite Kc; apply NoDup_nodup).
    assert (forall v c, dget cats v = Some c -> In v vs /\ cat_variable D2 v = Ok (v, c)) as Gc.
    { intros v c G. pose proof (dget_Some_keys _ _ G) as I. rewrite Kc in I. split; [now apply nodup_In in I|]. apply dget_In in G. apply (proj1 (mapM_In_iff _ _ _ Ecats (v, c))) in G. destruct G as (v' & I' & E).
      apply nodup_In in I'. destruct (Hc v' I') as (V & parts & _ & E' & _). rewrite E' in E. injection E as <- <-. exact E'. }
    assert (forall v, In v vs -> exists c, dget cats v = Some c) as Gc' by (intros v I; apply dget_keys_some; rewrite Kc; now apply nodup_In).
    (* the concatenation of a variable *)
    assert (forall v c, dget cats v = Some c -> exists V parts, shown_variable v V /\ c = concat_new "metric" parts /\ NoDup (map fst parts) /\ parts <> [] /\
      (forall l a', dget parts l = Some a' <-> exists k K, l = LS k /\ shown_metric m k K /\ dget D2 (nm k v) = Some a')) as Gp.
    { intros v c G. destruct (Gc _ _ G) as [I E]. destruct (Hc v I) as (V & parts & HV & E' & N & Hn & Hp). rewrite E' in E. injection E as <-. exists V, parts. auto. }
    assert (forall v V parts, shown_variable v V -> NoDup (map fst parts) -> (forall l a', dget parts l = Some a' <-> exists k K, l = LS k /\ shown_metric m k K /\ dget D2 (nm k v) = Some a') ->
      forall q, In q parts -> exists k K n a, fst q = LS k /\ shown_metric m k K /\ dget D2 (nm k v) = Some (snd q) /\ dget ds n = Some a /\ named n k v /\ snd q = strip a /\ result_array a) as Hq.
    { intros v V parts HV N Hp [l a'] I. assert (dget parts l = Some a') as G by (apply In_dget; auto). apply Hp in G. destruct G as (k & K & -> & HK & G).
      destruct (D2_known k v K V a' G HK HV) as (n & a & Ga & Hn & -> & Ra). exists k, K, n, a. cbn [fst snd]. auto 10. }
    assert (forall v c, dget cats v = Some c -> wf c /\ aux c = [] /\ forall d, In d (dnames c) <-> d = "metric" \/ exists n k a, named n k v /\ dget ds n = Some a /\ In d (dnames a)) as Wc.
    { intros v c G. destruct (Gp _ _ G) as (V & parts & HV & -> & N & Hn & Hp). pose proof (Hq v V parts HV N Hp) as Hq'. destruct (wf_concat_new "metric" parts) as [W Wn]; auto.
      - intros q I. destruct (Hq' q I) as (k & K & n & a & _ & _ & _ & _ & _ & -> & Ra). apply Ra.
      - intros q I. destruct (Hq' q I) as (k & K & n & a & _ & _ & _ & _ & _ & -> & Ra). apply (metric_not_dim a Ra).
      - split; [exact W|]. split; [apply concat_aux; intros q I; destruct (Hq' q I) as (k & K & n & a & _ & _ & _ & _ & _ & -> & Ra); reflexivity|].
        intros d. rewrite Wn. split; (intros [->|H]; [left; reflexivity|right]).
        + destruct H as (q & I & Id). destruct (Hq' q I) as (k & K & n & a & _ & _ & _ & Ga & Hna & E & Ra). rewrite E in Id. exists n, k, a. auto.
        + destruct H as (n & k & a & Hna & Ga & Id). destruct parts as [|q r] eqn:Ep; [contradiction|]. exists q. split; [left; reflexivity|]. destruct (Hq' q (or_introl eq_refl)) as (k' & K' & n' & a2 & _ & _ & _ & Ga' & Hna' & E & Ra').
          rewrite E. apply (Huni n n' k k' v a a2 Hna Hna' Ga Ga'). exact Id. }
    assert (forall v b, dget D3 v = Some b <-> exists c, dget cats v = Some c /\ b = reindex J NaN c) as G3 by (intros v b; rewrite ED3; apply (dget_map_some (reindex J NaN))).
    assert (forall d, NoDup (labels_of J d)) as NJ.
    { apply joint_NoDup. intros c I. apply in_map_iff in I. destruct I as ([v c'] & <- & I). cbn [snd]. apply (Wc v). now apply In_dget. }
    assert (forall v c d l, dget cats v = Some c -> In l (labels_of (dims c) d) -> In l (labels_of J d)) as LJ.
    { intros v c d l G Il. apply joint_labels. exists c. split; [|exact Il]. apply in_map_iff. exists (v, c). split; [reflexivity|apply dget_In, G]. }
    exists cats, J, D3. split; [exact Ecats|]. split; [reflexivity|]. split.
    { intros E. destruct vs as [|v r]; [contradiction|]. destruct (Gc' v (or_introl eq_refl)) as (c & G). assert (dget D3 v = Some (reindex J NaN c)) as G' by (apply G3; eauto). rewrite E in G'. discriminate. }
    split; [|split; [|split; [|split; [|split; [|split; [|split]]]]]].
    - split; [rewrite ED3; unfold keys; rewrite map_map; exact Ncats|]. split; [|split].
      + intros v b G. apply G3 in G. destruct G as (c & G & ->). destruct (Wc _ _ G) as (W & X & _). split; [apply reindex_wf; auto|exact X].
      + intros v e x (k & K & V & a' & HK & HV & G & Em & P & ->). assert (In v vs) as Iv by (apply Hvs; eauto 8).
        destruct (Gc' v Iv) as (c & Gcv). destruct (Wc _ _ Gcv) as (W & X & Dc). destruct (Gp _ _ Gcv) as (V' & parts & HV' & Ec & N & Hn & Hp).
        assert (dget parts (LS k) = Some a') as Gk by (apply Hp; eauto).
        assert (point_of (dims c) e) as Pc.
        { rewrite point_of_labels by apply W. intros d Id. fold (dnames c) in Id. destruct (string_dec d "metric") as [->|Hd].
          - rewrite Em, Ec, concat_labels_self. eapply (dget_Some_keys _ _ Gk).
          - rewrite Ec. apply concat_labels; auto. exists (LS k, a'). split; [apply dget_In, Gk|]. cbn [snd].
            apply Dc in Id. destruct Id as [->|(n & k' & a & Hna & Ga & Id)]; [congruence|]. destruct (D2_known k v K V a' G HK HV) as (n0 & a0 & Ga0 & Hn0 & -> & Ra0).
            rewrite point_of_labels in P by apply Ra0. apply P. apply (Huni n n0 k' k v a a0 Hna Hn0 Ga Ga0). exact Id. }
        exists (reindex J NaN c). split; [apply G3; eauto|]. split.
        * rewrite point_of_labels; [|fold (dnames (reindex J NaN c)); rewrite reindex_dnames; apply W]. fold (dnames (reindex J NaN c)). rewrite reindex_dnames. intros d Id. rewrite reindex_labels by exact Id.
          eapply LJ; eauto. rewrite point_of_labels in Pc by apply W. apply Pc, Id.
        * unfold reindex. cbn [get]. apply in_box_iff in Pc. rewrite Pc. rewrite Ec, concat_get, Em, Gk. apply in_box_iff in P. now rewrite P.
      + intros v b e G P. apply G3 in G. destruct G as (c & G & ->). destruct (Gp _ _ G) as (V & parts & HV & Ec & N & Hn & Hp). unfold reindex. cbn [get].
        destruct (in_box (dims c) e); [|left; reflexivity]. rewrite Ec, concat_get. destruct (dget parts (e "metric")) as [a'|] eqn:Ea; [|left; reflexivity].
        destruct (in_box (dims a') e) eqn:Eb; [|left; reflexivity]. right. apply Hp in Ea. destruct Ea as (k & K & Em & HK & Ga). exists k, K, V, a'. apply in_box_iff in Eb. auto 10.
    - intros v b G. apply G3 in G. destruct G as (c & G & ->). destruct (Wc _ _ G) as (W & X & Dc). destruct (Gp _ _ G) as (V & parts & HV & Ec & N & Hn & Hp).
      assert (In "metric" (dnames c)) as Im by (apply Dc; auto).
      assert (In "region" (dnames c)) as Ir.
      { destruct parts as [|q r] eqn:Ep; [contradiction|]. rewrite <- Ep in *. destruct (Hq v V parts HV N Hp q) as (k & K & n & a & _ & _ & _ & Ga & Hna & _ & Ra); [rewrite Ep; left; reflexivity|].
        apply Dc. right. exists n, k, a. split; auto. split; auto. apply Ra. }
      split; [eauto|]. rewrite !reindex_labels by auto. split; [reflexivity|]. split; [reflexivity|]. rewrite reindex_dnames. split; [exact Dc|exact Ir].
    - intros l Il. apply joint_labels in Il. destruct Il as (c & Ic & Il). apply in_map_iff in Ic. destruct Ic as ([v c'] & <- & Ic). cbn [snd] in Il. apply (In_dget _ _ _ Ncats) in Ic.
      destruct (Gp _ _ Ic) as (V & parts & HV & Ec & N & Hn & Hp). rewrite Ec, concat_labels_self in Il. apply in_map_iff in Il. destruct Il as (q & <- & Iq).
      destruct (Hq v V parts HV N Hp q Iq) as (k & K & n & a & -> & HK & _). eauto.
    - intros l Il. apply joint_labels in Il. destruct Il as (c & Ic & Il). apply in_map_iff in Ic. destruct Ic as ([v c'] & <- & Ic). cbn [snd] in Il. apply (In_dget _ _ _ Ncats) in Ic.
      destruct (Gp _ _ Ic) as (V & parts & HV & Ec & N & Hn & Hp). rewrite Ec in Il. apply concat_labels in Il; [|discriminate]. destruct Il as (q & Iq & Il).
      destruct (Hq v V parts HV N Hp q Iq) as (k & K & n & a & _ & _ & _ & _ & _ & E & Ra). rewrite E in Il. destruct Ra as (_ & _ & Rr & _). apply Rr, Il.
    - apply NJ.
    - apply NJ.
    - intros v b d l G Hd Il. apply G3 in G. destruct G as (c & G & ->). assert (In d (dnames c)) as Id by (rewrite <- (reindex_dnames J NaN c); eapply labels_of_In; eauto). rewrite reindex_labels in Il by exact Id.
      apply joint_labels in Il. destruct Il as (c' & Ic & Il). apply in_map_iff in Ic. destruct Ic as ([v' c2] & <- & Ic). cbn [snd] in Il. apply (In_dget _ _ _ Ncats) in Ic.
      destruct (Gp _ _ Ic) as (V & parts & HV & Ec & N & Hn & Hp). rewrite Ec in Il. apply concat_labels in Il; [|exact Hd]. destruct Il as (q & Iq & Il).
      destruct (Hq v' V parts HV N Hp q Iq) as (k & K & n & a & _ & _ & _ & Ga & _ & E & _). rewrite E in Il. exists n, a. auto.
    - intros n k v K V a G Hn HK HV. assert (In v vs) as Ivs.
      { apply Hvs. exists k, K, V, (strip a). split; auto. split; auto. rewrite <- (named_canon m _ _ _ _ _ Hn HK HV). apply D2_get. eauto. }
      destruct (Gc' v Ivs) as (c & Gcv). eexists. apply G3. eauto.
  Qed.

  Definition gm (l : label) : label := match l with LS k => LS (match dget (metric_names m) k with Some K => K | None => k end) | _ => l end.
  Definition gr (l : label) : label := match rename_region l with Ok l' => l' | Err _ => l end.
  Lemma process_ok : exists out, process m D0 = Ok out /\ out <> [] /\ realizes out (has_value m ds) /\
    (forall V b, dget out V = Some b -> In "region" (dnames b) /\
       forall d, In d (dnames b) <-> d = "metric" \/ exists n k v a, named n k v /\ shown_variable v V /\ dget ds n = Some a /\ In d (dnames a)) /\
    (forall n k v K V a, dget ds n = Some a -> named n k v -> shown_metric m k K -> shown_variable v V -> exists b, dget out V = Some b) /\
    (forall V b d l, dget out V = Some b -> d <> "metric" -> d <> "region" -> In l (labels_of (dims b) d) -> exists n a, dget ds n = Some a /\ In l (labels_of (dims a) d)).
  Proof.
    destruct dataset_ok as (cats & J & D3 & Ecats & ED3 & H3ne & R3 & H3 & HJm & HJr & NJm & NJr & Hlab & Hcov). destruct variables_ok as (vs & Evs & _). rewrite Evs in Ecats.
    pose proof vectors_ok as Ev. unfold process. match type of Ev with bind ?x _ = _ => destruct x as [D1|] eqn:E1 end; [|discriminate]. cbn [bind] in *. rewrite Ev. cbn [bind]. rewrite Evs. cbn [bind]. rewrite Ecats. cbn [bind]. rewrite <- ED3. clear Ev E1 Evs Ecats ED3 D1 vs cats.
    assert (forall v b d, dget D3 v = Some b -> In d (dnames b) -> d = "metric" \/ ~ reserved d) as Hres.
    { intros v b d G I. destruct (H3 _ _ G) as (_ & _ & _ & Hd & _). apply Hd in I. destruct I as [->|(n & k & a & _ & Ga & I)]; [left; reflexivity|right]. destruct (ds_entry _ _ Ga) as [(_ & _ & _ & R) _]. apply R, I. }
    destruct R3 as (N3 & W3 & A3 & B3).
    assert (forall d, coordinate_of D3 d -> d = "metric" \/ ~ reserved d) as Hcoord.
    { intros d (v & b & I & H). apply (In_dget _ _ _ N3) in I. destruct (W3 _ _ I) as [_ X]. rewrite X in H. destruct H as [H|[]]. eapply Hres; eauto. }
    assert (forall d, d = "metric" \/ ~ reserved d -> ~ In d (keys VARIABLE_NAMES) /\ ~ In d (values VARIABLE_NAMES)) as Hnot.
    { intros d [->|R]; [split; intros I; revert I; apply memb_false; vm_compute; reflexivity|]. split; intros I; apply R; right; [left|right]; exact I. }
    assert (forall n, ~ In n (keys VARIABLE_NAMES) -> new_name (known_renames D3) n = n) as Hid.
    { intros n Hn. unfold new_name. destruct (dget (known_renames D3) n) as [x|] eqn:E; [|reflexivity]. exfalso. apply Hn. apply dget_In in E. unfold known_renames in E. apply filter_In in E. destruct E as [E _]. eapply shown_key; eauto. }
    assert (NoDup (keys VARIABLE_NAMES)) as NV by (apply nodups_NoDup; vm_compute; reflexivity).
    assert (forall v V, In v (keys D3) -> shown_variable v V -> new_name (known_renames D3) v = V) as Hsh.
    { intros v V I HV. unfold new_name. assert (dget (known_renames D3) v = Some V) as ->; [|reflexivity]. apply In_dget.
      - unfold known_renames, keys. clear -NV. revert NV. unfold keys. generalize VARIABLE_NAMES. intros l. induction l as [|x l IH]; intros N; [constructor|]. cbn [map] in N. apply NoDup_cons_iff in N. destruct N as [N1 N2]. cbn [filter].
        destruct (memb (fst x) (ds_names D3)); auto. cbn [map]. constructor; auto. intros Ix. apply N1. apply in_map_iff in Ix. destruct Ix as (y & E & Iy). apply filter_In in Iy. apply in_map_iff. exists y. tauto.
      - unfold known_renames. apply filter_In. split; [exact HV|]. cbn [fst]. apply memb_In, in_ds_names. left. exact I. }
    assert (forall v, In v (keys D3) -> exists V, shown_variable v V) as HV3.
    { intros v I. apply dget_keys_some in I. destruct I as (b & G). apply (H3 _ _ G). }
    rewrite rename_names.
    2:{ intros v b I. apply (In_dget _ _ _ N3) in I. destruct (W3 _ _ I) as [W X]. split; [exact W|]. split; [exact X|]. intros d Id. apply Hid, Hnot. eapply Hres; eauto. }
    2:{ intros n I. apply in_map_iff in I. destruct I as ([v V] & <- & I). unfold known_renames in I. apply filter_In in I. destruct I as [I1 I2]. cbn [fst] in *. apply memb_In, in_ds_names in I2. destruct I2 as [I2|I2]; [exact I2|].
        exfalso. apply Hcoord, Hnot in I2. apply (proj1 I2). eapply shown_key; eauto. }
    2:{ assert (forall n V, shown_variable n V -> In V (values VARIABLE_NAMES)) as Hval by (intros n V HV; apply in_map_iff; exists (n, V); auto).
        intros n n' [I|I] [I'|I'] E.
        - destruct (HV3 n I) as (V & HV). destruct (HV3 n' I') as (V' & HV'). rewrite (Hsh n V I HV), (Hsh n' V' I' HV') in E. subst V'. eapply variable_inj; eauto.
        - destruct (HV3 n I) as (V & HV). rewrite (Hsh n V I HV) in E. apply Hcoord, Hnot in I'. destruct I' as [I1 I2]. rewrite (Hid n' I1) in E. subst n'. exfalso. apply I2. eauto.
        - destruct (HV3 n' I') as (V & HV). rewrite (Hsh n' V I' HV) in E. apply Hcoord, Hnot in I. destruct I as [I1 I2]. rewrite (Hid n I1) in E. subst n. exfalso. apply I2. eauto.
        - apply Hcoord, Hnot in I, I'. destruct I as [I1 I2]. destruct I' as [I1' I2']. rewrite (Hid n I1), (Hid n' I1') in E. exact E. }
    cbn [bind]. set (f := new_name (known_renames D3)) in *. set (D4 := map (fun kv => (f (fst kv), snd kv)) D3).
    assert (NoDup (map f (keys D3))) as Nf.
    { apply NoDup_map_on; [|exact N3]. intros x y Ix Iy E. destruct (HV3 x Ix) as (V & HV). destruct (HV3 y Iy) as (V' & HV'). rewrite (Hsh x V Ix HV), (Hsh y V' Iy HV') in E. subst V'. eapply variable_inj; eauto. }
    assert (realizes D4 (fun w e x => exists v, w = f v /\ C1 v e x)) as R4 by (apply realizes_rename; [exact Nf|split; auto]).
    assert (forall w b, dget D4 w = Some b <-> exists v, dget D3 v = Some b /\ w = f v) as G4 by (apply dget_rename; auto).
    assert (D4 <> []) as H4ne by (unfold D4; destruct D3; [contradiction|discriminate]).
    destruct (relabel_realizes "metric" (rename_metric m) gm (labels_of J "metric") D4 (fun w e x => exists v, w = f v /\ C1 v e x) H4ne) as [E5 R5]; auto.
    { intros w b G. apply G4 in G. destruct G as (v & G & _). destruct (H3 _ _ G) as (_ & L & _ & Hd & _). split; [apply Hd; left; reflexivity|exact L]. }
    { intros l I. apply HJm in I. destruct I as (k & K & -> & HK). apply metric_get in HK. unfold rename_metric, dgetE, gm. rewrite HK. reflexivity. }
    { intros x y Ix Iy E. apply HJm in Ix, Iy. destruct Ix as (k & K & -> & HK). destruct Iy as (k' & K' & -> & HK'). pose proof HK as Gk. pose proof HK' as Gk'. apply metric_get in Gk, Gk'. unfold gm in E. rewrite Gk, Gk' in E. injection E as ->. f_equal. eapply metric_inj; eauto. }
    rewrite E5. cbn [bind]. set (D5 := map (fun kv => (fst kv, relabel_da "metric" (labels_of J "metric") (map gm (labels_of J "metric")) (snd kv))) D4) in *. clear E5.
    assert (forall w b, dget D5 w = Some b <-> exists c, dget D4 w = Some c /\ b = relabel_da "metric" (labels_of J "metric") (map gm (labels_of J "metric")) c) as G5 by (intros; apply (dget_map_some (relabel_da "metric" (labels_of J "metric") (map gm (labels_of J "metric"))))).
    assert (D5 <> []) as H5ne by (unfold D5; destruct D4; [contradiction|discriminate]).
    destruct (relabel_realizes "region" rename_region gr (labels_of J "region") D5 (fun w e x => exists l, In l (labels_of J "metric") /\ e "metric" = gm l /\ exists v, w = f v /\ C1 v (upd e "metric" l) x) H5ne) as [E6 R6]; auto.
    { intros w b G. apply G5 in G. destruct G as (c & G & ->). apply G4 in G. destruct G as (v & G & _). destruct (H3 _ _ G) as (_ & _ & L & Hd & Ir). rewrite relabel_dnames. split; [exact Ir|]. rewrite relabel_labels by (apply Hd; left; reflexivity). exact L. }
    { intros l I. apply HJr in I. destruct I as (r & G & -> & HG). unfold gr. rewrite (region_rename _ _ HG). reflexivity. }
    { intros x y Ix Iy E. apply HJr in Ix, Iy. destruct Ix as (r & G & -> & HG). destruct Iy as (r' & G' & -> & HG'). unfold gr in E. rewrite (region_rename _ _ HG), (region_rename _ _ HG') in E. injection E as ->. f_equal. eapply region_inj; eauto. }
    rewrite E6. set (D6 := map _ D5) in *. clear E6. exists D6. split; [reflexivity|]. split; [unfold D6; destruct D5; [contradiction|discriminate]|].
    assert (forall w b, dget D6 w = Some b <-> exists c, dget D5 w = Some c /\ b = relabel_da "region" (labels_of J "region") (map gr (labels_of J "region")) c) as G6 by (intros; apply (dget_map_some (relabel_da "region" (labels_of J "region") (map gr (labels_of J "region"))))).
    split; [|split; [|split]].
    - revert R6. apply realizes_ext. intros w e x. split.
      + intros (lr & Ir & Er & lm & Im & Em & v & -> & k & K & V & a' & HK & HV & G & Ek & P & ->). apply HJr in Ir. destruct Ir as (r & Gr & -> & HGr).
        destruct (D2_known k v K V a' G HK HV) as (n & a & Ga & Hn & -> & Ra). unfold upd in Ek at 1. destruct (string_dec "metric" "metric") as [_|C]; [|congruence]. subst lm.
        assert (forall d, In d (dnames a) -> upd (upd e "region" (LS r)) "metric" (LS k) d = upd e "region" (LS r) d) as Hloc.
        { intros d Id. unfold upd at 1. destruct (string_dec d "metric") as [->|_]; [|reflexivity]. exfalso. exact (metric_not_dim a Ra Id). }
        assert (f v = V) as -> by (apply Hsh; [|exact HV]; destruct (Hcov n k v K V a Ga Hn HK HV) as (b & Gb); eapply dget_Some_keys; eauto).
        exists n, k, v, K, a, r, Gr. split; [exact Ga|]. split; [exact Hn|]. split; [exact HK|]. split; [exact HV|]. split; [exact HGr|].
        split; [unfold upd in Em; destruct (string_dec "metric" "region"); [discriminate|]; unfold gm in Em; apply metric_get in HK; rewrite HK in Em; exact Em|].
        split; [unfold gr in Er; rewrite (region_rename _ _ HGr) in Er; exact Er|]. change (dims (strip a)) with (dims a) in P. change (get (strip a)) with (get a). split.
        * intros d ls I. rewrite <- Hloc; [apply (P d ls I)|]. apply in_map_iff. exists (d, ls). auto.
        * apply Ra. exact Hloc.
      + intros (n & k & v & K & a & r & Gr & Ga & Hn & HK & HV & HGr & Em & Er & P & ->). destruct (ds_entry _ _ Ga) as [Ra _]. destruct (Hcov n k v K w a Ga Hn HK HV) as (b & Gb).
        assert (forall d, In d (dnames a) -> upd (upd e "region" (LS r)) "metric" (LS k) d = upd e "region" (LS r) d) as Hloc.
        { intros d Id. unfold upd at 1. destruct (string_dec d "metric") as [->|_]; [|reflexivity]. exfalso. exact (metric_not_dim a Ra Id). }
        assert (dget D2 (nm k v) = Some (strip a)) as G2 by (apply D2_get; exists n, a; rewrite (named_canon m _ _ _ _ _ Hn HK HV); auto).
        assert (point_of (dims a) (upd (upd e "region" (LS r)) "metric" (LS k))) as P' by (intros d ls I; rewrite Hloc; [apply (P d ls I)|apply in_map_iff; exists (d, ls); auto]).
        assert (get a (upd e "region" (LS r)) = get a (upd (upd e "region" (LS r)) "metric" (LS k))) as Eg by (apply Ra; intros d Id; symmetry; apply Hloc, Id).
        assert (C1 v (upd (upd e "region" (LS r)) "metric" (LS k)) (get a (upd e "region" (LS r)))) as Hc1.
        { exists k, K, w, (strip a). split; [exact HK|]. split; [exact HV|]. split; [exact G2|]. split; [reflexivity|]. split; [exact P'|exact Eg]. }
        assert (In (LS r) (labels_of J "region") /\ In (LS k) (labels_of J "metric")) as [Ir Im].
        { destruct (A3 _ _ _ Hc1) as (b' & Gb' & Pb & _). rewrite Gb in Gb'. injection Gb' as <-. destruct (H3 _ _ Gb) as (_ & L1 & L2 & Hd & Irb). destruct (W3 _ _ Gb) as [Wb _]. rewrite point_of_labels in Pb by apply Wb. split.
          - rewrite <- L2. apply (Pb "region" Irb). - rewrite <- L1. apply (Pb "metric"). apply Hd. left. reflexivity. }
        exists (LS r). split; [exact Ir|]. split; [unfold gr; rewrite (region_rename _ _ HGr); exact Er|]. exists (LS k). split; [exact Im|].
        split; [change (upd e "region" (LS r) "metric") with (e "metric"); rewrite Em; unfold gm; apply metric_get in HK; now rewrite HK|].
        exists v. split; [symmetry; apply Hsh; [eapply dget_Some_keys; eauto|exact HV]|exact Hc1].
    - intros V b G. apply G6 in G. destruct G as (c & G & ->). apply G5 in G. destruct G as (c' & G & ->). apply G4 in G. destruct G as (v & G & ->). rewrite !relabel_dnames.
      destruct (H3 _ _ G) as ((V & HV) & _ & _ & Hd & Ir). split; [exact Ir|]. assert (f v = V) as Ef by (apply Hsh; [eapply dget_Some_keys; eauto|exact HV]).
      intros d. rewrite Hd. split; (intros [->|H]; [left; reflexivity|right]).
      + destruct H as (n & k & a & Hn & Ga & Id). exists n, k, v, a. rewrite Ef. auto.
      + destruct H as (n & k & v' & a & Hn & HV' & Ga & Id). rewrite Ef in HV'. rewrite (variable_inj _ _ _ HV' HV) in Hn. exists n, k, a. auto.
    - intros n k v K V a Ga Hn HK HV. destruct (Hcov n k v K V a Ga Hn HK HV) as (b & Gb). eexists. apply G6. eexists. split; [|reflexivity]. apply G5. eexists. split; [|reflexivity]. apply G4. exists v. split; [exact Gb|].
      symmetry. apply Hsh; [eapply dget_Some_keys; eauto|exact HV].
    - intros V b d l G Hm Hr Il. apply G6 in G. destruct G as (c & G & ->). apply G5 in G. destruct G as (c' & G & ->). apply G4 in G. destruct G as (v & G & _). destruct (H3 _ _ G) as (_ & _ & _ & Hd & Ir).
      rewrite relabel_labels in Il by (rewrite relabel_dnames; exact Ir). destruct (String.eqb_spec d "region"); [congruence|]. rewrite relabel_labels in Il by (apply Hd; left; reflexivity). destruct (String.eqb_spec d "metric"); [congruence|].
      eapply Hlab; eauto.
  Qed.
End File.
