(** When the scores over regions exist (C72). *)
From Coq Require Import String List Bool ZArith QArith Reals Lia.
Import ListNotations.
From Verif Require Import Prelude Values Model_XArray Spec_XArray Proofs_XArray Model_MetricsBase Model_Deterministic Model_Aggregation Spec_Aggregator Proofs_Aggregator Proofs_Aggregator2
  Proofs_Wrappers Spec_Means Proofs_Means Proofs_Exists Proofs_Deterministic Model_Binning Spec_Binning Proofs_Binning Proofs_Binning2 Model_Weighting Spec_Weighting Proofs_Weighting Props_Weighting Props_Regions Spec_EndToEnd Proofs_EndToEnd.
Local Open Scope R_scope.
Local Open Scope string_scope.
Local Open Scope list_scope.

Lemma agg_var_ok g st ws ms :
  (forall w, In w (weigh_by g) -> uses_coords w) ->
  (forall b, In b (bin_by g) -> uses_coords (create_bin_mask b)) ->
  mask_spans st ->
  mapM (fun w => w st) (weigh_by g) = Ok ws -> bin_masks (bin_by g) st = Ok (Some ms) ->
  incl (reduce_dims g) (dnames st) -> nodupb (map bin_dim_name (bin_by g)) = true ->
  exists m, mean_array g st m.
Proof.
  intros Hw Hb Hs Ew Eb I N. destruct (prepare_dims g st) as [D1 D2]. destruct (prepare_aux g st Hs) as [A1 A2].
  assert (forall a, dims a = dims st -> aux a = aux st -> exists x, aggregation_fn g a = Ok (Some x)) as K.
  { intros a Da Aa. unfold aggregation_fn. assert (subsetb (reduce_dims g) (dnames a) = true) as -> by (apply subsetb_In; unfold dnames; rewrite Da; exact I). cbn [negb].
    rewrite (mapM_uses_coords _ _ st Hw Da Aa), Ew. cbn [bind]. rewrite N. cbn [negb]. rewrite (bin_masks_uses_coords _ _ st Hb Da Aa), Eb. cbn [bind]. eauto. }
  destruct (K (fst (prepare g st)) D1 A1) as [x Ex], (K (snd (prepare g st)) D2 A2) as [y Ey].
  exists (binop vdiv x y), x, y. split; [|reflexivity]. unfold aggregate_stat_var. destruct (prepare g st) as [s m] eqn:Ep. cbn [fst snd] in *. rewrite Ex. cbn [bind]. rewrite Ey. reflexivity.
Qed.

Section DEF.
  Variables (regions : list (string * ((Q * Q) * (Q * Q)))) (land : option da) (over : list string) (norm mk sk : bool) (lats : list R).
  Let g := mkAgg over [Regions regions "region" land] [GridAreaWeighting "latitude" norm] mk sk.
  Variables (st : da) (lab_lat : list label).
  Hypothesis Wst : wf st.
  Hypothesis Cl : coords_local st.
  Hypothesis Ms : mask_spans st.
  Hypothesis Dlat : In ("latitude", lab_lat) (dims st).
  Hypothesis Dlon : In "longitude" (dnames st).
  Hypothesis Hlat : Forall2 latitude lab_lat lats.
  Hypothesis Mono : monotonic lats /\ (2 <= List.length lats)%nat.
  Hypothesis Nreg : ~ In "region" (dnames st).
  Hypothesis Nnames : NoDup (region_names regions land).
  Hypothesis Hland : forall lm, land = Some lm -> wf lm /\ grid_dims lm /\ same_grid st lm.
  Hypothesis Nr : regions <> [].
  Hypothesis Lims : forall name la lo, In (name, (la, lo)) regions -> (fst la < snd la)%Q.
  Hypothesis Over : incl over (dnames st).

  Lemma region_defined : exists m, mean_array g st m.
  Proof.
    assert (In "latitude" (dnames st)) as Il by (apply (in_map fst) in Dlat; exact Dlat).
    assert (exists m, create_bin_mask (Regions regions "region" None) st = Ok m) as E0.
    { apply (C34_success regions "region" st Wst Nreg). split; [left; exact Il|]. split; [left; exact Dlon|]. split; [exact Nr|exact Lims]. }
    assert (NoDup (map fst regions)) as NF by (apply (names_fst regions land Nnames)).
    assert (exists m, create_bin_mask (Regions regions "region" land) st = Ok m /\ mask_for st m "region" (map LS (region_names regions land))) as (m & Em & Mf).
    { destruct land as [lm|] eqn:El.
      - destruct (Hland lm eq_refl) as (W & G & S). assert (~ In "region" ["latitude"; "longitude"]) as N2 by (cbn; intuition discriminate).
        destruct (proj1 (C37_same_grid regions "region" lm st Wst W G N2 NF E0)) as [_ X]. destruct (X S) as [m Em]. exists m. split; [exact Em|].
        destruct (C37_regions_land regions "region" lm st m Wst Cl W G N2 Nnames Em) as [M _]. exact M.
      - destruct E0 as [m Em]. exists m. split; [exact Em|]. destruct (C34_regions regions "region" st m Wst Cl NF Em) as [M _]. cbn [region_names]. rewrite map_map. exact M. }
    destruct (proj1 (C38_errors "latitude" norm st lab_lat lats Wst Dlat Hlat)) as [_ X]. destruct (X Mono) as [w Ew].
    apply (agg_var_ok g st [w] [m]); cbn [g weigh_by bin_by mapM reduce_dims map].
    - intros u [<-|[]]. apply GridArea_coords.
    - intros b [<-|[]]. apply Regions_coords.
    - exact Ms.
    - rewrite Ew. reflexivity.
    - cbn [bin_masks]. rewrite Em. cbn [bind].
      assert (subsetb (filter (fun d => negb (String.eqb d (bin_dim_name (Regions regions "region" land)))) (dnames m)) (dnames st) = true) as ->; [|reflexivity].
      apply subsetb_In. intros d I. apply filter_In in I. destruct I as [I Hd]. apply negb_true_iff, String.eqb_neq in Hd. cbn in Hd.
      apply in_map_iff in I. destruct I as ([k ls] & Ek & I). cbn in Ek. subst k. destruct (mf_dims _ _ _ _ Mf _ _ I) as [C|C]; [contradiction|]. apply (in_map fst) in C. exact C.
    - exact Over.
    - reflexivity.
  Qed.
End DEF.

(** One variable. *)
Lemma score_defined g p t v pv tv m h post : score m h post -> p = [(v, pv)] -> t = [(v, tv)] ->
  (forall st, In st [binop vsub pv tv; absolute_error_var pv tv; squared_error_var pv tv] -> exists x, mean_array g st x) ->
  exists a, metric_value g p t m v a.
Proof.
  intros S -> -> H.
  assert (forall name f st, f pv tv = Ok (Some st) -> compute (per_variable_statistic name f) [(v, pv)] [(v, tv)] = Ok [(v, st)]) as K.
  { intros name f st E. cbn. destruct (eq_dec v v) as [_|]; [|congruence]. rewrite E. reflexivity. }
  destruct S.
  - destruct (H (binop vsub pv tv)) as [x Hx]; [cbn; auto|]. exists x. eapply statistic_metric_intro; [apply K; reflexivity|exact Hx].
  - destruct (H (absolute_error_var pv tv)) as [x Hx]; [cbn; auto|]. exists x. eapply statistic_metric_intro; [apply K; reflexivity|exact Hx].
  - destruct (H (squared_error_var pv tv)) as [x Hx]; [cbn; auto|]. exists x. eapply statistic_metric_intro; [apply K; reflexivity|exact Hx].
  - destruct (H (squared_error_var pv tv)) as [x Hx]; [cbn; auto|]. exists (da_map vsqrt x).
    apply (metric_value_intro _ _ _ _ _ _ _ [("SquaredError", x)]); [discriminate|repeat constructor; intros []|intros s s' [<-|[]] [<-|[]] _; reflexivity| |reflexivity].
    constructor; [|constructor]. split; [reflexivity|]. eexists. split; [apply K; reflexivity|exact Hx].
Qed.
