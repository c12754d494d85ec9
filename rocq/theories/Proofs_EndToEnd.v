(** Scores over regions: the Aggregator with Regions and GridAreaWeighting (C72). *)
From Coq Require Import String List Bool ZArith QArith Permutation Reals Lra Lia.
Import ListNotations.
From Verif Require Import Prelude Values Model_XArray Spec_XArray Proofs_XArray Model_MetricsBase Model_Deterministic Model_Aggregation Spec_Aggregator Proofs_Aggregator Proofs_Aggregator2
  Proofs_Unaggregated Proofs_Wrappers Spec_Means Proofs_Means Proofs_TTest Proofs_Deterministic Model_Binning Spec_Binning Proofs_Binning Proofs_Binning2 Model_Weighting Spec_Weighting Proofs_Weighting Props_Weighting Props_Regions Spec_EndToEnd.
Local Open Scope R_scope.
Local Open Scope string_scope.
Local Open Scope list_scope.

Lemma is_number_fun l p q : is_number l p -> is_number l q -> p = q.
Proof. intros A B. inversion A; subst; inversion B; subst; reflexivity. Qed.

Lemma Regions_coords regions d land : uses_coords (create_bin_mask (Regions regions d land)).
Proof. intros [da ga xa] [db gb xb] Hd Ha. cbn in Hd, Ha. subst. reflexivity. Qed.
Lemma GridArea_coords lat norm : uses_coords (GridAreaWeighting lat norm).
Proof. intros [da ga xa] [db gb xb] Hd Ha. cbn in Hd, Ha. subst. reflexivity. Qed.

Lemma append_inj_r (a b s : string) : (a ++ s)%string = (b ++ s)%string -> a = b.
Proof.
  revert b. induction a as [|c a IH]; intros [|c' b] H; [reflexivity| | |].
  - exfalso. apply (f_equal String.length) in H. cbn in H. rewrite length_append in H. lia.
  - exfalso. apply (f_equal String.length) in H. cbn in H. rewrite length_append in H. lia.
  - cbn in H. injection H as -> H. f_equal. apply IH, H.
Qed.

Lemma truthy_iff l : truthy l = true <-> l = LB true.
Proof. destruct l; cbn; split; congruence. Qed.
Lemma isnan_false x : isnan x = false <-> x <> NaN.
Proof. destruct x; cbn; split; congruence. Qed.
Lemma counted_valid g a q : counted g a q = true <-> valid_point (masked g) (skipna g) a q.
Proof.
  unfold counted, valid_point. rewrite andb_true_iff, orb_true_iff, !negb_true_iff, isnan_false.
  assert ((match (if masked g then dget (aux a) "mask" else None) with Some c => truthy (c_get c q) | None => true end = true) <->
    (masked g = true -> forall c, dget (aux a) "mask" = Some c -> c_get c q = LB true)) as ->.
  { destruct (masked g), (dget (aux a) "mask") as [c|]; rewrite ?truthy_iff; split; auto; try discriminate.
    intros H _ c' [= <-]. exact H. }
  split; intros [A B]; (split; [exact A|]).
  - destruct B as [B|B]; [congruence|auto].
  - destruct (skipna g); auto.
Qed.

Lemma rsum_filter {A} (f : A -> R) (p : A -> bool) l : rsum (map (fun x => if p x then f x else 0) l) = rsum (map f (filter p l)).
Proof. induction l as [|x l IH]; [reflexivity|]. cbn [map filter]. destruct (p x); cbn [map rsum fold_right] in *; unfold rsum in *; cbn [fold_right]; rewrite IH; lra. Qed.
Lemma rsum_pos {A} (f : A -> R) l : l <> [] -> (forall x, In x l -> 0 < f x) -> 0 < rsum (map f l).
Proof.
  intros N H. induction l as [|x l IH]; [congruence|]. cbn [map]. unfold rsum in *. cbn [fold_right]. pose proof (H x (or_introl eq_refl)).
  destruct l as [|y l]; [cbn; lra|]. assert (0 < fold_right Rplus 0 (map f (y :: l))) by (apply IH; [discriminate|intros; apply H; now right]). lra.
Qed.

Definition vone (v : val) : bool := match v with Fin x => if Req_EM_T x 1 then true else false | _ => false end.
Lemma vone_shows v P : shows v P -> (vone v = true <-> P).
Proof. intros [[H ->]|[H ->]]; cbn; destruct (Req_EM_T _ _); try lra; split; intros; auto; try discriminate; contradiction. Qed.
Lemma vone_01 v : v = Fin 0 \/ v = Fin 1 -> v = b2v (vone v).
Proof. intros [-> | ->]; cbn; destruct (Req_EM_T _ _); try lra; reflexivity. Qed.

Lemma labels_at a d ls : wf a -> In (d, ls) (dims a) -> labels_of (dims a) d = ls.
Proof. intros W I. unfold labels_of. rewrite (In_dget _ _ _ (proj1 W) I). reflexivity. Qed.

Section REGION.
  Variables (regions : list (string * ((Q * Q) * (Q * Q)))) (land : option da) (over : list string) (norm mk sk : bool) (lats : list R).
  Let g := mkAgg over [Regions regions "region" land] [GridAreaWeighting "latitude" norm] mk sk.
  Variables (st : da) (lab_lat lab_lon : list label).
  Hypothesis Wst : wf st.
  Hypothesis Cl : coords_local st.
  Hypothesis Ms : mask_spans st.
  Hypothesis Dlat : In ("latitude", lab_lat) (dims st).
  Hypothesis Dlon : In ("longitude", lab_lon) (dims st).
  Hypothesis Nlon : forall l, In l lab_lon -> exists q, is_number l q.
  Hypothesis Hlat : Forall2 latitude lab_lat lats.
  Hypothesis Rlat : in_range lats.
  Hypothesis Nreg : ~ In "region" (dnames st).
  Hypothesis Nnames : NoDup (region_names regions land).
  Hypothesis Hland : forall lm, land = Some lm -> wf lm /\ grid_dims lm.

  Lemma point_number q : point_of (dims st) q -> exists lat lon, is_number (q "latitude") lat /\ is_number (q "longitude") lon.
  Proof.
    intros H. pose proof (H _ _ Dlat) as A. pose proof (H _ _ Dlon) as B. destruct (Nlon _ B) as [lon L2].
    destruct (some_latitude _ _ _ Hlat A) as [x (lat & L1 & _)]. eauto.
  Qed.
  Lemma coord_lat q : coord_at st "latitude" q (q "latitude").
  Proof. left. split; auto. apply (in_map fst) in Dlat. exact Dlat. Qed.
  Lemma coord_lon q : coord_at st "longitude" q (q "longitude").
  Proof. left. split; auto. apply (in_map fst) in Dlon. exact Dlon. Qed.

  Lemma names_fst : NoDup (map fst regions).
  Proof using Nnames. clear Hland g. unfold region_names in Nnames. destruct land; auto. unfold all_names in Nnames. apply NoDup_app_l in Nnames. exact Nnames. Qed.
  Lemma regions_fun name x y : In (name, x) regions -> In (name, y) regions -> x = y.
  Proof using Nnames. intros A B. apply (In_dget _ _ _ names_fst) in A. apply (In_dget _ _ _ names_fst) in B. congruence. Qed.
  Lemma land_not_name name x name' y : land <> None -> In (name, x) regions -> In (name', y) regions -> name <> (name' ++ "_land")%string.
  Proof using Nnames.
    clear Hland g. intros L A B ->. unfold region_names in Nnames. destruct land; [|congruence]. unfold all_names in Nnames.
    apply (in_map fst) in A. cbn in A. apply (in_map (fun r => (fst r ++ "_land")%string)) in B. cbn in B.
    revert A B. generalize (name' ++ "_land")%string. intros n A B. clear - Nnames A B.
    induction (map fst regions) as [|x l IH]; [destruct A|]. cbn in Nnames. inversion Nnames as [|? ? N1 N2]; subst. destruct A as [->|A]; [|auto].
    apply N1. apply in_app_iff. now right.
  Qed.

  Definition in_lims (r : (Q * Q) * (Q * Q)) (q : env) : Prop :=
    exists lat lon, is_number (q "latitude") lat /\ is_number (q "longitude") lon /\
      (fst (fst r) <= lat <= snd (fst r))%Q /\ on_arc (fst (snd r)) (snd (snd r)) lon.
  Lemma in_region_name name r q : In (name, r) regions -> (in_region regions land name q <-> in_lims r q).
  Proof using Nnames.
    intros I. destruct r as [la lo]. split.
    - intros H. remember name as nm in H. destruct H as [name' la' lo' q lat lon I' N1 N2 A B|name' la' lo' q lat lon lm El I' N1 N2 A B C].
      + subst name'. pose proof (regions_fun _ _ _ I I') as E. injection E as -> ->. exists lat, lon. auto.
      + exfalso. apply (land_not_name name (la, lo) name' (la', lo')); auto; congruence.
    - intros (lat & lon & N1 & N2 & A & B). econstructor; eauto.
  Qed.
  Lemma in_region_land name r q lm : land = Some lm -> In (name, r) regions ->
    (in_region regions land (name ++ "_land")%string q <-> in_lims r q /\ get lm q <> Fin 0).
  Proof using Nnames.
    intros El I. destruct r as [la lo]. split.
    - intros H. remember (name ++ "_land")%string as nl. destruct H as [name' la' lo' q lat lon I' N1 N2 A B|name' la' lo' q lat lon lm' El' I' N1 N2 A B C].
      + exfalso. apply (land_not_name name' (la', lo') name (la, lo)); auto. congruence.
      + apply append_inj_r in Heqnl. subst name'. pose proof (regions_fun _ _ _ I I') as E. injection E as -> ->. split; [exists lat, lon; auto|congruence].
    - intros ((lat & lon & N1 & N2 & A & B) & C). eapply in_limits_on_land; eauto.
  Qed.
  Lemma shows_iff v P P' : (P <-> P') -> shows v P -> shows v P'.
  Proof. unfold shows. tauto. Qed.

  Lemma mask_region m : create_bin_mask (Regions regions "region" land) st = Ok m ->
    mask_for st m "region" (map LS (region_names regions land)) /\
    forall label q, In label (region_names regions land) -> point_of (dims st) q -> shows (in_bin m "region" (LS label) q) (in_region regions land label q).
  Proof.
    intros E.
    assert (forall q lat, is_number (q "latitude") lat -> number_at st "latitude" q lat) as NA1 by (intros q lat H; exists (q "latitude"); split; auto; apply coord_lat).
    assert (forall q lon, is_number (q "longitude") lon -> number_at st "longitude" q lon) as NA2 by (intros q lon H; exists (q "longitude"); split; auto; apply coord_lon).
    assert (forall r q lat lon, is_number (q "latitude") lat -> is_number (q "longitude") lon ->
      ((fst (fst r) <= lat <= snd (fst r))%Q /\ on_arc (fst (snd r)) (snd (snd r)) lon) <-> in_lims r q) as IL.
    { intros r q lat lon N1 N2. split; [intros []; exists lat, lon; auto|]. intros (lat' & lon' & M1 & M2 & ?).
      rewrite (is_number_fun _ _ _ N1 M1), (is_number_fun _ _ _ N2 M2). auto. }
    pose proof in_region_name as IRN. pose proof in_region_land as IRL. pose proof names_fst as NF.
    destruct land as [lm|] eqn:El.
    - destruct (Hland lm eq_refl) as [Wl Gl]. destruct (C37_regions_land regions "region" lm st m Wst Cl Wl Gl) as [M V]; auto. { cbn; intuition discriminate. }
      split; [exact M|]. intros label q I Pq. destruct (point_number q Pq) as (lat & lon & N1 & N2).
      cbn in I. unfold all_names in I. apply in_app_iff in I. destruct I as [I|I]; apply in_map_iff in I; destruct I as ((name & [la lo]) & <- & I); cbn [fst].
      + destruct (V name la lo q lat lon I Pq) as [A _]; eauto. eapply shows_iff; [|exact A]. rewrite (IL (la, lo) q lat lon N1 N2). symmetry. apply IRN, I.
      + destruct (V name la lo q lat lon I Pq) as [_ A]; eauto. eapply shows_iff; [|exact A]. rewrite (IL (la, lo) q lat lon N1 N2). symmetry. apply IRL; auto.
    - destruct (C34_regions regions "region" st m Wst Cl) as [M V]; auto. cbn [region_names]. rewrite map_map. split; [exact M|]. intros label q I Pq. destruct (point_number q Pq) as (lat & lon & N1 & N2).
      apply in_map_iff in I; destruct I as ((name & [la lo]) & <- & I); cbn [fst].
      eapply shows_iff; [|eapply V; eauto]. rewrite (IL (la, lo) q lat lon N1 N2). symmetry. apply IRN, I.
  Qed.

  (** Labels of the result. *)
  Lemma result_in_box m0 label e : mean_array g st m0 -> result_point regions land over st label e -> point_of (dims m0) e.
  Proof.
    intros (x & y & Hxy & Hm0) (Er & Il & Ed).
    assert (forall w, In w (weigh_by g) -> uses_coords w) as Uw by (intros w [<-|[]]; apply GridArea_coords).
    assert (forall b, In b (bin_by g) -> uses_coords (create_bin_mask b)) as Ub by (intros b [<-|[]]; apply Regions_coords).
    apply (mean_dims g st m0 x y Uw Ub Ms Hxy Hm0).
    destruct (agg_var_Some g st x y Uw Ub Ms Hxy) as (ws & ms & Hw & Hm & Inc & _ & -> & _).
    cbn [weigh_by g mapM] in Hw. destruct (GridAreaWeighting "latitude" norm st) as [w|] eqn:Ew; [|discriminate]. injection Hw as <-.
    apply bin_masks_Some in Hm. destruct Hm as [Hm _]. unfold g in Hm. cbn [bin_by mapM] in Hm. destruct (create_bin_mask (Regions regions "region" land) st) as [m|] eqn:Em; [|discriminate]. injection Hm as <-.
    destruct (mask_region m Em) as [Mf _]. destruct (C38_weights _ _ _ _ _ _ Wst Dlat Hlat Rlat Ew) as (Ww & Dw & _).
    destruct (prepare_dims g st) as [D1 _].
    assert (forall a, In a (fst (prepare g st) :: [w; m]) -> NoDup (dnames a)) as ND.
    { intros a [<-|[<-|[<-|[]]]]; [unfold dnames; rewrite D1; apply Wst|apply Ww|apply Mf]. }
    intros d ls I. rewrite dims_dot in I. unfold keep in I. apply filter_In in I. destruct I as [I HR]. apply negb_true_iff, memb_false in HR.
    assert (ls = labels_of (ijoint (fst (prepare g st) :: [w] ++ [m])) d) as ->.
    { unfold labels_of. apply (In_dget _ _ _ (ij_NoDup _ ND)) in I. cbn [app] in I |- *. rewrite I. reflexivity. }
    assert (exists a, In a (fst (prepare g st) :: [w] ++ [m]) /\ In d (dnames a)) as [a0 [Ia0 Id0]] by (apply ij_names; apply (in_map fst) in I; exact I).
    apply ij_labels. split; [eauto|]. intros a Ia Ida. cbn in Ia.
    assert (d <> "region" -> In d (dnames st)) as Dst.
    { intros Nr. destruct Ia0 as [<-|[<-|[<-|[]]]].
      - unfold dnames in *. rewrite D1 in Id0. exact Id0.
      - unfold dnames in Id0. rewrite Dw in Id0. destruct Id0 as [<-|[]]. apply (in_map fst) in Dlat. exact Dlat.
      - apply in_map_iff in Id0. destruct Id0 as ([k l0] & Ek & Ik). cbn in Ek. subst k. destruct (mf_dims _ _ _ _ Mf _ _ Ik) as [C|C]; [congruence|]. apply (in_map fst) in C. exact C. }
    destruct Ia as [<-|[<-|[<-|[]]]].
    - unfold dnames in Ida. rewrite D1 in *. apply Ed; auto.
    - unfold dnames in Ida. rewrite Dw in Ida. destruct Ida as [<-|[]].
      change (fst ("latitude", lab_lat)) with "latitude" in *. rewrite (labels_at w "latitude" lab_lat Ww), <- (labels_at st _ _ Wst Dlat) by (rewrite Dw; now left).
      apply Ed; auto. apply (in_map fst) in Dlat. exact Dlat.
    - destruct (eq_dec d "region") as [->|Nr].
      + unfold labels_of. rewrite (mf_labels _ _ _ _ Mf), Er. apply in_map, Il.
      + apply in_map_iff in Ida. destruct Ida as ([k l0] & Ek & Ik). cbn in Ek. subst k. destruct (mf_dims _ _ _ _ Mf _ _ Ik) as [C|C]; [congruence|].
        unfold labels_of. rewrite (In_dget _ _ _ (proj1 (mf_wf _ _ _ _ Mf)) Ik). rewrite <- (labels_at _ _ _ Wst C). apply Ed; auto.
  Qed.

  Variable s0 : env -> R.
  Hypothesis Fin0 : forall q, point_of (dims st) q -> valid_point mk sk st q -> get st q = Fin (s0 q).

  Theorem region_mean m0 label e : mean_array g st m0 -> result_point regions land over st label e ->
    exists Q area, region_sample regions land mk sk over st label e Q /\ cell_areas lats Q area /\
      (forall q, In q Q -> 0 < area q) /\
      forall st' s' m', same_sample st st' ->
        (forall q, point_of (dims st) q -> valid_point mk sk st q -> get st' q = Fin (s' q)) ->
        mean_array g st' m' -> point_of (dims m') e /\ get m' e = area_mean Q area s'.
  Proof.
    intros HM RP. pose proof (result_in_box m0 label e HM RP) as Pe. destruct RP as (Er & Il & Ed).
    assert (forall w, In w (weigh_by g) -> uses_coords w) as Uw by (intros w [<-|[]]; apply GridArea_coords).
    assert (forall b, In b (bin_by g) -> uses_coords (create_bin_mask b)) as Ub by (intros b [<-|[]]; apply Regions_coords).
    pose proof HM as (x & y & Hxy & Hm0).
    destruct (agg_var_Some g st x y Uw Ub Ms Hxy) as (ws & ms & Hw & Hm & Inc & _ & _ & _).
    pose proof Hw as Hw0. cbn [weigh_by g mapM] in Hw. destruct (GridAreaWeighting "latitude" norm st) as [w|] eqn:Ew; [|discriminate]. injection Hw as <-.
    apply bin_masks_Some in Hm. destruct Hm as [Hm _]. pose proof Hm as Hm1. unfold g in Hm. cbn [bin_by mapM] in Hm. destruct (create_bin_mask (Regions regions "region" land) st) as [m|] eqn:Em; [|discriminate]. injection Hm as <-.
    destruct (mask_region m Em) as [Mf Mv].
    destruct (C38_weights _ _ _ _ _ _ Wst Dlat Hlat Rlat Ew) as (Ww & Dw & r & south & north & _ & Tot & Wv & Wa & _).
    set (wr := fun q : env => Rabs (r (q "latitude"))). set (b := fun q => vone (get m q)).
    assert (weighted_input g st s0 [w] [wr] [m] [b]) as WI.
    { constructor; auto.
      - intros a [<-|[<-|[]]]; [exact Ww|apply Mf].
      - constructor; [|constructor]. intros q Pq. assert (In (q "latitude") lab_lat) as I by (apply (Pq "latitude" lab_lat); rewrite Dw; now left).
        rewrite Wv by exact I. unfold wr. destruct (some_latitude _ _ _ Hlat I) as [xx Hx]. destruct (Wa _ _ I Hx) as [P _]. rewrite Rabs_right by lra. reflexivity.
      - constructor; [|constructor]. intros q Pq. apply vone_01. apply (mf_01 _ _ _ _ Mf), Pq.
      - intros q Pq C. apply Fin0; auto. apply counted_valid in C. exact C. }
    destruct (joint_means g st s0 [w] [wr] [m] [b] m0 e WI HM Pe) as (P & RPt & Pin & JM).
    set (sel := fun q => counted g st q && b q).
    set (c := if norm then INR (List.length lab_lat) / zone_area south north else 1).
    assert (lab_lat <> []) as Nl.
    { intros ->. inversion Hlat; subst. unfold GridAreaWeighting in Ew. unfold labels_of in Ew.
      rewrite (In_dget _ _ _ (proj1 Wst) Dlat) in Ew. cbn in Ew. discriminate. }
    assert (0 < c) as Pc.
    { unfold c. destruct norm; [|lra]. apply Rdiv_lt_0_compat; [|exact Tot]. apply lt_0_INR. destruct lab_lat; [congruence|cbn; lia]. }
    assert (~ In "region" over) as NRo by (intros F; apply Nreg, Inc, F).
    assert (forall q, In q P -> q "region" = LS label) as Lr.
    { intros q I. rewrite <- Er. apply (proj2 RPt) in I. apply (proj1 I). tauto. }
    assert (forall q, In q P -> (b q = true <-> in_region regions land label q)) as Hb.
    { intros q I. pose proof (Mv label q Il (Pin q I)) as S. apply vone_shows in S. rewrite <- S. unfold b, in_bin.
      replace (get m (upd q "region" (LS label))) with (get m q); [reflexivity|]. apply (mf_wf _ _ _ _ Mf). intros d _. unfold upd. destruct (string_dec d "region") as [->|]; [apply (Lr q I)|reflexivity]. }
    exists (filter sel P), (fun q => r (q "latitude") / c). split; [|split; [|split]].
    - split; [apply NoDup_filter, RPt|]. intros q. rewrite filter_In. split.
      + intros [I C]. unfold sel in C. apply andb_true_iff in C. destruct C as [C1 C2]. apply counted_valid in C1. apply (Hb q I) in C2.
        pose proof I as I'. apply (proj2 RPt) in I'. destruct I' as [A B]. split; [intros d Nd; apply A; tauto|]. split; [|split; auto].
        intros d Hd. apply (B st d); [now left|exact Hd|apply Inc, Hd].
      + intros (A & B & V & IR).
        assert (In q P) as I.
        { apply (proj2 RPt). split.
          - intros d Nd. apply A. intros Hd. apply Nd. split; auto. exists st. split; [now left|]. apply Inc, Hd.
          - intros a d Ia Hd Ida. specialize (B d Hd). destruct Ia as [<-|[<-|[<-|[]]]]; auto.
            + unfold dnames in Ida. rewrite Dw in *. destruct Ida as [<-|[]]. unfold labels_of in *. rewrite (In_dget _ _ _ (proj1 Wst) Dlat) in B. exact B.
            + apply in_map_iff in Ida. destruct Ida as ([k l0] & Ek & Ik). cbn in Ek. subst k. destruct (mf_dims _ _ _ _ Mf _ _ Ik) as [->|C]; [contradiction|].
              unfold labels_of. rewrite (In_dget _ _ _ (proj1 (mf_wf _ _ _ _ Mf)) Ik). rewrite <- (labels_at _ _ _ Wst C). exact B. }
        split; [exact I|]. unfold sel. apply andb_true_iff. split; [apply counted_valid, V|apply (Hb q I), IR].
    - intros q xx I Hx. apply filter_In in I. destruct I as [I _]. assert (In (q "latitude") lab_lat) as Iq by (apply (Pin q I _ _ Dlat)).
      destruct (Wa _ _ Iq Hx) as [_ (a & Ca & Ea)]. replace (r (q "latitude") / c) with a; [exact Ca|]. rewrite Ea. unfold c. destruct norm; field.
      split; [lra|]. apply Rgt_not_eq, lt_0_INR. destruct lab_lat; [congruence|cbn; lia].
    - intros q I. apply filter_In in I. destruct I as [I _]. assert (In (q "latitude") lab_lat) as Iq by (apply (Pin q I _ _ Dlat)).
      destruct (some_latitude _ _ _ Hlat Iq) as [xx Hx]. destruct (Wa _ _ Iq Hx) as [Pr _]. apply Rdiv_lt_0_compat; auto.
    - intros st' s' m' SS Fs MM. destruct (JM st' s' m' SS) as (Pe' & Pos & Zero); auto.
      { intros q Pq C. apply Fs; auto. apply counted_valid in C. exact C. }
      split; [exact Pe'|].
      assert (forall q, In q P -> 0 < r (q "latitude")) as Rp.
      { intros q I. assert (In (q "latitude") lab_lat) as Iq by (apply (Pin q I _ _ Dlat)). destruct (some_latitude _ _ _ Hlat Iq) as [xx Hx]. apply (Wa _ _ Iq Hx). }
      assert (forall q, In q P -> point_weight g st [wr] [b] q = if sel q then r (q "latitude") else 0) as Pw.
      { intros q I. unfold point_weight, sel. cbn [forallb map rprod fold_right]. rewrite andb_true_r. destruct (counted g st q && b q); auto. unfold wr. rewrite Rabs_right; [lra|]. pose proof (Rp q I). lra. }
      assert (forall f, rsum (map (fun q => point_weight g st [wr] [b] q * f q) P) = rsum (map (fun q => r (q "latitude") * f q) (filter sel P))) as Sf.
      { intros f. rewrite <- rsum_filter. apply rsum_eq. intros q I. rewrite (Pw q I). destruct (sel q); lra. }
      assert (rsum (map (point_weight g st [wr] [b]) P) = rsum (map (fun q => r (q "latitude")) (filter sel P))) as S1.
      { rewrite <- rsum_filter. apply rsum_eq. intros q I. rewrite (Pw q I). destruct (sel q); lra. }
      unfold area_mean. destruct (filter sel P) as [|q0 Q'] eqn:EQ.
      + apply Zero; [rewrite S1; reflexivity|]. intros q. unfold point_weight. destruct (counted g st q && _); [|lra]. cbn. unfold wr. pose proof (Rabs_pos (r (q "latitude"))). nra.
      + rewrite <- EQ in *. assert (0 < rsum (map (fun q => r (q "latitude")) (filter sel P))) as Ps.
        { apply rsum_pos; [congruence|]. intros q I. apply filter_In in I. apply Rp, I. }
        rewrite Pos by lra. f_equal. unfold wavg, total. rewrite S1, Sf.
        change (fold_right Rplus 0 ?l) with (rsum l).
        rewrite (rsum_eq (fun q => r (q "latitude") / c * s' q) (fun q => (/ c) * (r (q "latitude") * s' q))) by (intros; field; lra).
        rewrite (rsum_eq (fun q => r (q "latitude") / c) (fun q => (/ c) * r (q "latitude"))) by (intros; field; lra).
        rewrite !rsum_scale. field. lra.
  Qed.
End REGION.


(** ** Forecasts and targets on one grid *)
Lemma same_box_names a b d : same_box a b -> (In d (dnames a) <-> In d (dnames b)).
Proof.
  intros H. unfold dnames. split; intros I.
  - destruct (dget (dims b) d) as [x|] eqn:E; [eapply dget_Some_keys, E|]. rewrite <- H in E. exfalso. apply dget_None in E. apply E, I.
  - destruct (dget (dims a) d) as [x|] eqn:E; [eapply dget_Some_keys, E|]. rewrite H in E. exfalso. apply dget_None in E. apply E, I.
Qed.
Lemma binop_box f a b : wf a -> wf b -> same_box a b -> forall d, dget (dims (binop f a b)) d = dget (dims b) d.
Proof.
  intros Wa Wb H d. cbn [binop dims]. rewrite dget_merge. pose proof (H d) as E.
  destruct (dget (dims a) d) as [l|]; rewrite <- E; [|reflexivity]. f_equal. apply inter_self.
Qed.
Lemma binop_point_of f a b q : wf a -> wf b -> same_box a b -> (point_of (dims (binop f a b)) q <-> point_of (dims b) q).
Proof.
  intros Wa Wb H. pose proof (binop_box f a b Wa Wb H) as D. assert (wf (binop f a b)) as W by (apply wf_binop; auto).
  split; intros P d ls I; apply (P d).
  - apply dget_In. rewrite D. apply (In_dget _ _ _ (proj1 Wb) I).
  - apply dget_In. rewrite <- D. apply (In_dget _ _ _ (proj1 W) I).
Qed.

Lemma merge_aux_In ds x y k c : In (k, c) (merge_aux ds x y) -> In (k, c) x \/ In (k, c) y.
Proof. unfold merge_aux. rewrite in_app_iff, !filter_In. tauto. Qed.
Lemma dget_filter_fst' {V} (p : string -> bool) (l : dict string V) k : dget (filter (fun q => p (fst q)) l) k = if p k then dget l k else None.
Proof.
  induction l as [|[k0 v0] l IH]; [now destruct (p k)|]. cbn [filter fst dget]. destruct (p k0) eqn:E; cbn [dget].
  - destruct (eq_dec k k0) as [->|]; [now rewrite E|exact IH].
  - destruct (eq_dec k k0) as [->|]; [now rewrite E in *|exact IH].
Qed.
Lemma merge_aux_mask ds x y : ~ In "mask" (keys x) -> dget (merge_aux ds x y) "mask" = dget y "mask".
Proof.
  intros N. unfold merge_aux. rewrite dget_app_any.
  assert (dget (filter (fun p : string * coord => match dget y (fst p) with Some c => coord_eqb ds (snd p) c | None => true end) x) "mask" = None) as ->.
  { apply dget_None. intros I. apply N. apply in_map_iff in I. destruct I as ([k c] & <- & I). apply filter_In in I. apply (in_map fst), I. }
  rewrite (dget_filter_fst' (fun k => negb (memb k (map fst x)))). apply memb_false in N. unfold keys in N. rewrite N. reflexivity.
Qed.

Section PAIR.
  Variables (regions : list (string * ((Q * Q) * (Q * Q)))) (land : option da) (over : list string) (norm mk sk : bool) (lats : list R).
  Let g := mkAgg over [Regions regions "region" land] [GridAreaWeighting "latitude" norm] mk sk.
  Variables (pv tv : da) (lab_lat lab_lon : list label) (f o : env -> R).
  Hypothesis Wp : wf pv.
  Hypothesis Wt : wf tv.
  Hypothesis Cp : coords_local pv.
  Hypothesis Ct : coords_local tv.
  Hypothesis Ap : NoDup (keys (aux pv)).
  Hypothesis At : NoDup (keys (aux tv)).
  Hypothesis Np : ~ In "mask" (keys (aux pv)).
  Hypothesis Fm : full_mask tv.
  Hypothesis Box : same_box pv tv.
  Hypothesis Dlat : In ("latitude", lab_lat) (dims tv).
  Hypothesis Dlon : In ("longitude", lab_lon) (dims tv).
  Hypothesis Nlon : forall l, In l lab_lon -> exists q, is_number l q.
  Hypothesis Hlat : Forall2 latitude lab_lat lats.
  Hypothesis Rlat : in_range lats.
  Hypothesis Nreg : ~ In "region" (dnames tv).
  Hypothesis Nnames : NoDup (region_names regions land).
  Hypothesis Hland : forall lm, land = Some lm -> wf lm /\ grid_dims lm.
  Hypothesis Num : numbers mk sk pv tv f o.

  Let st := binop vsub pv tv.
  Lemma pair_wf : wf st.
  Proof. apply wf_binop; auto. Qed.
  Lemma pair_names d : In d (dnames st) <-> In d (dnames tv).
  Proof.
    unfold dnames. pose proof (binop_box vsub pv tv Wp Wt Box d) as E. fold st in E. split; intros I.
    - destruct (dget (dims tv) d) as [x|] eqn:E1; [eapply dget_Some_keys, E1|]. exfalso. apply dget_None in E. apply E, I.
    - destruct (dget (dims st) d) as [x|] eqn:E1; [eapply dget_Some_keys, E1|]. symmetry in E. exfalso. apply dget_None in E. apply E, I.
  Qed.
  Lemma pair_labels d : labels_of (dims st) d = labels_of (dims tv) d.
  Proof. unfold labels_of. pose proof (binop_box vsub pv tv Wp Wt Box d) as E. fold st in E. rewrite E. reflexivity. Qed.
  Lemma pair_aux k c : In (k, c) (aux st) -> dget (aux pv) k = Some c \/ dget (aux tv) k = Some c.
  Proof. intros I. apply merge_aux_In in I. destruct I as [I|I]; [left|right]; apply In_dget; auto. Qed.
  Lemma pair_aux_local k c : In (k, c) (aux st) -> incl (c_dims c) (dnames st) /\ forall e e', (forall d, In d (c_dims c) -> e d = e' d) -> c_get c e = c_get c e'.
  Proof.
    intros I. destruct (pair_aux _ _ I) as [G|G].
    - destruct (Cp _ _ G) as [A B]. split; auto. intros d Hd. apply pair_names. apply (same_box_names pv tv d Box), A, Hd.
    - destruct (Ct _ _ G) as [A B]. split; auto. intros d Hd. apply pair_names, A, Hd.
  Qed.
  Lemma pair_local : coords_local st.
  Proof. intros k c G. apply (pair_aux_local k). apply (dget_In _ _ G). Qed.
  Lemma pair_mask : dget (aux st) "mask" = dget (aux tv) "mask".
  Proof. apply merge_aux_mask, Np. Qed.
  Lemma pair_spans : mask_spans st.
  Proof.
    intros c G k c' I d Hd. rewrite pair_mask in G. apply (Fm c G). apply pair_names. apply (pair_aux_local k c' I), Hd.
  Qed.
  Lemma pair_point q : point_of (dims st) q <-> point_of (dims tv) q.
  Proof. apply binop_point_of; auto. Qed.
  Lemma pair_valid q : point_of (dims tv) q -> valid_point mk sk st q <->
    ((mk = true -> forall c, dget (aux tv) "mask" = Some c -> c_get c q = LB true) /\ (sk = true -> get pv q <> NaN /\ get tv q <> NaN)).
  Proof.
    intros Pq. unfold valid_point. rewrite pair_mask. cbn [st binop get]. split; intros [A B]; (split; [exact A|]); intros S.
    - specialize (B S). split; intros E; apply B, vsub_nan; auto.
    - destruct (Num q Pq A B) as [-> ->]. discriminate.
  Qed.
  Lemma pair_numbers q : point_of (dims tv) q -> valid_point mk sk st q -> get pv q = Fin (f q) /\ get tv q = Fin (o q).
  Proof. intros Pq V. apply (pair_valid q Pq) in V. destruct V. apply Num; auto. Qed.
  Lemma pair_lat : In ("latitude", lab_lat) (dims st).
  Proof. apply dget_In. unfold st. rewrite binop_box by auto. apply (In_dget _ _ _ (proj1 Wt) Dlat). Qed.
  Lemma pair_lon : In ("longitude", lab_lon) (dims st).
  Proof. apply dget_In. unfold st. rewrite binop_box by auto. apply (In_dget _ _ _ (proj1 Wt) Dlon). Qed.

  (** Any statistic of the pair with the same missing points. *)
  Theorem pair_like st' s' m' label e : same_sample st st' ->
    (forall q, get pv q = Fin (f q) -> get tv q = Fin (o q) -> get st' q = Fin (s' q)) ->
    mean_array g st' m' -> result_point regions land over tv label e ->
    exists Q area, pair_sample regions land mk sk over pv tv label e Q /\ cell_areas lats Q area /\ (forall q, In q Q -> 0 < area q) /\
      point_of (dims m') e /\ get m' e = area_mean Q area s'.
  Proof.
    intros (SD & SA & SW & SN) Vs HM (Er & Il & Ed).
    assert (coords_local st') as Cl'. { intros k c G. unfold dnames. rewrite SD. rewrite SA in G. apply (pair_local k c G). }
    assert (mask_spans st') as Ms'. { intros c G k c' I. rewrite SA in G, I. apply (pair_spans c G k c' I). }
    assert (forall q, point_of (dims tv) q -> (valid_point mk sk st' q <-> valid_point mk sk st q)) as Vv.
    { intros q Pq. apply pair_point in Pq. specialize (SN q Pq). unfold valid_point. rewrite SA.
      assert (get st' q <> NaN <-> get st q <> NaN) as -> by (rewrite <- !isnan_false, SN; reflexivity). reflexivity. }
    assert (incl over (dnames st')) as Inc.
    { destruct HM as (x & y & Hxy & _). destruct (agg_var_Some g st' x y) as (? & ? & _ & _ & I & _); auto.
      - intros w [<-|[]]; apply GridArea_coords.
      - intros b [<-|[]]; apply Regions_coords. }
    assert (forall q, (forall d, ~ In d over -> q d = e d) -> (forall d, In d over -> In (q d) (labels_of (dims tv) d)) -> point_of (dims tv) q) as PQ.
    { intros q A B d ls I. rewrite <- (labels_at _ _ _ Wt I). destruct (in_dec string_dec d over) as [Hd|Hd]; [apply B, Hd|]. rewrite A by exact Hd. apply Ed; auto. apply (in_map fst) in I. exact I. }
    assert (forall q, point_of (dims st') q -> valid_point mk sk st' q -> get st' q = Fin (s' q)) as Fs.
    { intros q Pq V. rewrite SD in Pq. apply pair_point in Pq. apply (Vv q Pq) in V. destruct (pair_numbers q Pq V). apply Vs; auto. }
    destruct (region_mean regions land over norm mk sk lats st' lab_lat lab_lon SW Cl' Ms') with (s0 := s') (m0 := m') (label := label) (e := e)
      as (Q & area & RS & CA & Pa & K); auto.
    - rewrite SD. apply pair_lat.
    - rewrite SD. apply pair_lon.
    - intros I. unfold dnames in I. rewrite SD in I. apply Nreg, pair_names, I.
    - split; [exact Er|]. split; [exact Il|]. intros d Hd Nd. rewrite SD, pair_labels. apply Ed; auto. unfold dnames in Hd. rewrite SD in Hd. apply pair_names, Hd.
    - exists Q, area. split; [|split; [exact CA|split; [exact Pa|]]].
      + split; [apply RS|]. intros q. rewrite (proj2 RS q). split.
        * intros (A & B & V & IR). assert (forall d, In d over -> In (q d) (labels_of (dims tv) d)) as B' by (intros d Hd; rewrite <- pair_labels, <- SD; auto).
          pose proof (PQ q A B') as Pq. apply (Vv q Pq), (pair_valid q Pq) in V. tauto.
        * intros (A & B & M & S & IR). pose proof (PQ q A B) as Pq. split; [exact A|]. split; [intros d Hd; rewrite SD, pair_labels; auto|]. split; [|exact IR]. apply (Vv q Pq), pair_valid; auto.
      + apply (K st' s' m'); auto. apply same_sample_refl, SW.
  Qed.

  Variables (p t : vars da) (v : string).
  Hypothesis Hn : NoDup (keys p).
  Hypothesis Hp : dget p v = Some pv.
  Hypothesis Ht : dget t v = Some tv.
  Lemma area_nonneg (area h : env -> R) Q : (forall q, In q Q -> 0 < area q) -> (forall q, 0 <= h q) -> Q <> [] -> 0 <= total (fun q => area q * h q) Q / total area Q.
  Proof.
    intros Pa Hh N. unfold total. change (fold_right Rplus 0 ?l) with (rsum l).
    assert (forall l, (forall x, In x l -> 0 < area x) -> 0 <= rsum (map (fun q => area q * h q) l)) as B.
    { induction l as [|y l IH]; intros P; [cbn; lra|]. cbn [map]. unfold rsum in *. cbn [fold_right]. assert (0 < area y) by (apply P; now left).
      pose proof (Hh y). assert (0 <= fold_right Rplus 0 (map (fun q => area q * h q) l)) by (apply IH; intros; apply P; now right). nra. }
    apply Rmult_le_pos; [apply B, Pa|]. apply Rlt_le, Rinv_0_lt_compat. apply rsum_pos; auto.
  Qed.

  Theorem pair_score m h post a label e : score m h post -> metric_value g p t m v a -> result_point regions land over tv label e ->
    exists Q area, pair_sample regions land mk sk over pv tv label e Q /\ cell_areas lats Q area /\ (forall q, In q Q -> 0 < area q) /\
      point_of (dims a) e /\ get a e = post (area_mean Q area (fun q => h (f q - o q))).
  Proof.
    intros S H RP.
    assert (forall q, get pv q = Fin (f q) -> get tv q = Fin (o q) -> get st q = Fin (f q - o q)) as F by (intros q A B; cbn [st binop get]; rewrite A, B; reflexivity).
    assert (forall q, get pv q = Fin (f q) -> get tv q = Fin (o q) -> get (squared_error_var pv tv) q = Fin ((f q - o q) * (f q - o q))) as F2.
    { intros q A B. cbn [squared_error_var da_map get]. change (get (binop vsub pv tv) q) with (get st q). rewrite (F q A B), vsq_Fin. f_equal. ring. }
    destruct S.
    - apply value_of_per_variable in H; auto. destruct H as (p1 & t1 & s1 & E1 & E2 & [= <-] & M). rewrite Hp in E1. rewrite Ht in E2. injection E1 as <-. injection E2 as <-.
      destruct (pair_like st (fun q => f q - o q) a label e (same_sample_refl st pair_wf) F M RP) as (Q & area & PS & CA & Pa & Pe & K). exists Q, area. auto.
    - apply value_of_per_variable in H; auto. destruct H as (p1 & t1 & s1 & E1 & E2 & [= <-] & M). rewrite Hp in E1. rewrite Ht in E2. injection E1 as <-. injection E2 as <-.
      assert (same_sample st (absolute_error_var pv tv)) as SS by (apply same_sample_map; [apply pair_wf|apply isnan_vabs]).
      destruct (pair_like (absolute_error_var pv tv) (fun q => Rabs (f q - o q)) a label e SS) as (Q & area & PS & CA & Pa & Pe & K); auto.
      { intros q A B. cbn [absolute_error_var da_map get]. change (get (binop vsub pv tv) q) with (get st q). rewrite (F q A B). reflexivity. }
      exists Q, area. auto.
    - apply value_of_per_variable in H; auto. destruct H as (p1 & t1 & s1 & E1 & E2 & [= <-] & M). rewrite Hp in E1. rewrite Ht in E2. injection E1 as <-. injection E2 as <-.
      assert (same_sample st (squared_error_var pv tv)) as SS by (apply same_sample_map; [apply pair_wf|apply isnan_vsq]).
      destruct (pair_like (squared_error_var pv tv) (fun q => (f q - o q) * (f q - o q)) a label e SS) as (Q & area & PS & CA & Pa & Pe & K); auto.
      exists Q, area. auto.
    - apply value_of_rmse in H; auto. destruct H as (p1 & t1 & m4 & E1 & E2 & M & ->). rewrite Hp in E1. rewrite Ht in E2. injection E1 as <-. injection E2 as <-.
      assert (same_sample st (squared_error_var pv tv)) as SS by (apply same_sample_map; [apply pair_wf|apply isnan_vsq]).
      destruct (pair_like (squared_error_var pv tv) (fun q => (f q - o q) * (f q - o q)) m4 label e SS) as (Q & area & PS & CA & Pa & Pe & K); auto.
      exists Q, area. do 4 (split; [assumption|]). cbn [da_map get]. rewrite K. unfold area_mean. destruct Q as [|q0 Q']; [reflexivity|]. cbn [root]. apply vsqrt_Fin.
      apply area_nonneg; [exact Pa| |discriminate]. intros q. apply Rle_0_sqr.
  Qed.

  (** The sample and the areas are determined. *)
  Lemma sample_unique label e Q Q' : pair_sample regions land mk sk over pv tv label e Q -> pair_sample regions land mk sk over pv tv label e Q' -> Permutation Q Q'.
  Proof. intros [N H] [N' H']. apply NoDup_Permutation; auto. intros q. rewrite H, H'. reflexivity. Qed.
  Lemma total_perm (h : env -> R) Q Q' : Permutation Q Q' -> total h Q = total h Q'.
  Proof. intros P. apply (rsum_perm (map h Q) (map h Q')), Permutation_map, P. Qed.
  Lemma total_ext (h h' : env -> R) Q : (forall q, In q Q -> h q = h' q) -> total h Q = total h' Q.
  Proof. intros E. apply (rsum_eq h h' Q E). Qed.
  Lemma area_mean_unique label e Q Q' area area' s : result_point regions land over tv label e ->
    pair_sample regions land mk sk over pv tv label e Q -> pair_sample regions land mk sk over pv tv label e Q' ->
    cell_areas lats Q area -> cell_areas lats Q' area' -> area_mean Q area s = area_mean Q' area' s.
  Proof.
    intros (Er & Il & Ed) S S' A A'. pose proof (sample_unique _ _ _ _ S S') as P.
    assert (forall q, In q Q -> area q = area' q) as E.
    { intros q I. assert (In (q "latitude") lab_lat) as Iq.
      { rewrite <- (labels_at _ _ _ Wt Dlat). apply (proj2 S) in I. destruct I as (B & C & _). destruct (in_dec string_dec "latitude" over) as [Ho|Ho]; [apply C, Ho|].
        rewrite B by exact Ho. apply Ed; auto. apply (in_map fst) in Dlat. exact Dlat. }
      destruct (some_latitude _ _ _ Hlat Iq) as [x Hx]. apply (cell_area_fun lats x); [apply A; auto|apply A'; auto]. eapply Permutation_in; eauto. }
    unfold area_mean. destruct Q as [|q0 Q0], Q' as [|q1 Q1]; [reflexivity|exfalso; eapply Permutation_nil_cons; eauto|exfalso; eapply Permutation_nil_cons; symmetry; eauto|].
    f_equal. rewrite (total_ext (fun q => area q * s q) (fun q => area' q * s q)) by (intros q I; rewrite (E q I); reflexivity).
    rewrite (total_ext area area') by exact E. rewrite !(total_perm _ _ _ P). reflexivity.
  Qed.
End PAIR.
