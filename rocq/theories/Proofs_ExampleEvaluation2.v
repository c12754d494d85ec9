(** The example evaluation: the shape of a mean over regions; the tables of metric values. *)
From Coq Require Import String Ascii ZArith QArith Reals List Bool Lia.
Import ListNotations.
From Verif Require Import Prelude Values Model_XArray Spec_XArray Proofs_XArray Model_MetricsBase Model_Deterministic Model_Aggregation Spec_Aggregator Proofs_Aggregator Proofs_Aggregator2
  Proofs_Unaggregated Proofs_Wrappers Spec_Means Proofs_Means Proofs_Beam Spec_RoundTrip Proofs_RoundTrip Proofs_Deterministic Model_Binning Spec_Binning Proofs_Binning Proofs_Binning2 Model_Weighting Spec_Weighting Proofs_Weighting Props_Weighting Props_Regions Spec_EndToEnd Proofs_EndToEnd.
Local Open Scope string_scope.
Local Open Scope list_scope.

Section SHAPE.
  Variables (regions : list (string * ((Q * Q) * (Q * Q)))) (land : option da) (over : list string) (norm mk sk : bool) (lats : list R).
  Let g := mkAgg over [Regions regions "region" land] [GridAreaWeighting "latitude" norm] mk sk.
  Variables (st : da) (lab_lat lab_lon : list label).
  Hypothesis Wst : wf st.
  Hypothesis Cl : coords_local st.
  Hypothesis Ms : mask_spans st.
  Hypothesis Dlat : In ("latitude", lab_lat) (dims st).
  Hypothesis Dlon : In ("longitude", lab_lon) (dims st).
  Hypothesis Nlon : forall l, In l lab_lon -> exists q, is_number l q.
  Hypothesis Hlat : Forall2 latitude lab_lat lats.
  Hypothesis Rlat : in_range lats.
  Hypothesis Nreg : ~ In "region" (dnames st).
  Hypothesis Nnames : NoDup (region_names regions land).
  Hypothesis Hland : forall lm, land = Some lm -> wf lm /\ grid_dims lm.

  (** Sums and weights lie over the regions and the dimensions of the statistic that are kept. *)
  Lemma region_entry x y : aggregate_stat_var g st = Ok (Some (x, y)) ->
    wf x /\ wf y /\ dims x = dims y /\
    (forall d, In d (dnames x) <-> ~ In d over /\ (d = "region" \/ In d (dnames st))) /\
    (forall d l, In d (dnames x) -> (In l (labels_of (dims x) d) <-> if eq_dec d "region" then In l (map LS (region_names regions land)) else In l (labels_of (dims st) d))).
  Proof.
    intros H.
    assert (forall w, In w (weigh_by g) -> uses_coords w) as Uw by (intros w [<-|[]]; apply GridArea_coords).
    assert (forall b, In b (bin_by g) -> uses_coords (create_bin_mask b)) as Ub by (intros b [<-|[]]; apply Regions_coords).
    destruct (agg_var_Some g st x y Uw Ub Ms H) as (ws & ms & Hw & Hm & Inc & _ & Ex & Ey).
    cbn [weigh_by g mapM] in Hw. destruct (GridAreaWeighting "latitude" norm st) as [w|] eqn:Ew; [|discriminate]. injection Hw as <-.
    apply bin_masks_Some in Hm. destruct Hm as [Hm _]. unfold g in Hm. cbn [bin_by mapM] in Hm. destruct (create_bin_mask (Regions regions "region" land) st) as [m|] eqn:Em; [|discriminate]. injection Hm as <-.
    assert (mask_for st m "region" (map LS (region_names regions land))) as Mf by (eapply (mask_region regions land over mk sk norm lats st lab_lat lab_lon); eauto).
    destruct (C38_weights _ _ _ _ _ _ Wst Dlat Hlat Rlat Ew) as (Ww & Dw & _).
    destruct (prepare_dims g st) as [D1 D2].
    destruct (prepare_wf g st Wst) as [W1 W2].
    { intros c Gc e e' He. destruct (Cl _ _ Gc) as [Ic Lc]. apply Lc. intros d Id. apply He, Ic, Id. }
    assert (forall p, wf p -> dims p = dims st -> forall a, In a (p :: [w; m]) -> wf a) as WA.
    { intros p Wp Dp a [<-|[<-|[<-|[]]]]; auto. apply Mf. }
    assert (dims x = dims y) as Exy. { rewrite Ex, Ey, !dims_dot. unfold ijoint. cbn [app map]. rewrite D1, D2. reflexivity. }
    assert (forall d, In d (dnames x) <-> ~ In d over /\ (d = "region" \/ In d (dnames st))) as Names.
    { intros d. rewrite Ex. unfold dnames at 1. rewrite dims_dot, keep_names, ij_names, negb_true_iff, memb_false. cbn [reduce_dims g]. split.
      - intros [(a & Ia & Id) NI]. split; [exact NI|]. cbn [app] in Ia. destruct Ia as [<-|[<-|[<-|[]]]].
        + right. unfold dnames in *. rewrite D1 in Id. exact Id.
        + right. unfold dnames in Id. rewrite Dw in Id. destruct Id as [<-|[]]. apply (in_map fst) in Dlat. exact Dlat.
        + apply in_map_iff in Id. destruct Id as ([k l0] & Ek & Ik). cbn in Ek. subst k. destruct (mf_dims _ _ _ _ Mf _ _ Ik) as [C|C]; [auto|right; apply (in_map fst) in C; exact C].
      - intros [NI [->|Id]]; (split; [|exact NI]).
        + exists m. split; [cbn; auto|]. pose proof (mf_labels _ _ _ _ Mf) as E. eapply dget_Some_keys, E.
        + exists (fst (prepare g st)). split; [now left|]. unfold dnames in *. rewrite D1. exact Id. }
    split; [rewrite Ex; apply dot_wf; apply WA; auto|]. split; [rewrite Ey; apply dot_wf; apply WA; auto|]. split; [exact Exy|]. split; [exact Names|].
    intros d l Id. apply Names in Id. destruct Id as [NI Id]. rewrite Ex, dims_dot, labels_keep. cbn [reduce_dims g]. rewrite (proj2 (memb_false d over) NI). cbn [negb]. rewrite ij_labels. cbn [app].
    destruct (eq_dec d "region") as [->|Nr].
    - split.
      + intros [_ K]. specialize (K m ltac:(cbn; auto)). unfold labels_of in K. pose proof (mf_labels _ _ _ _ Mf) as E. rewrite E in K. apply K. eapply dget_Some_keys, E.
      + intros Il. pose proof (mf_labels _ _ _ _ Mf) as E. split.
        * exists m. split; [cbn; auto|]. eapply dget_Some_keys, E.
        * intros a [<-|[<-|[<-|[]]]] Ida.
          -- exfalso. unfold dnames in Ida. rewrite D1 in Ida. tauto.
          -- exfalso. unfold dnames in Ida. rewrite Dw in Ida. cbn in Ida. destruct Ida as [C|[]]. discriminate.
          -- unfold labels_of. rewrite E. exact Il.
    - destruct Id as [->|Id]; [congruence|]. split.
      + intros [_ K]. specialize (K (fst (prepare g st)) ltac:(now left)). unfold dnames in K. rewrite D1 in K. apply K, Id.
      + intros Il. split.
        * exists (fst (prepare g st)). split; [now left|]. unfold dnames in *. rewrite D1. exact Id.
        * intros a [<-|[<-|[<-|[]]]] Ida.
          -- rewrite D1. exact Il.
          -- unfold dnames in Ida. rewrite Dw in Ida. destruct Ida as [<-|[]]. cbn [fst].
             change (fst ("latitude", lab_lat)) with "latitude" in *. rewrite (labels_at w "latitude" lab_lat Ww), <- (labels_at st _ _ Wst Dlat) by (rewrite Dw; now left). exact Il.
          -- apply in_map_iff in Ida. destruct Ida as ([k l0] & Ek & Ik). cbn in Ek. subst k. destruct (mf_dims _ _ _ _ Mf _ _ Ik) as [C|C]; [congruence|].
             unfold labels_of. rewrite (In_dget _ _ _ (proj1 (mf_wf _ _ _ _ Mf)) Ik). rewrite <- (labels_at _ _ _ Wst C). exact Il.
  Qed.
End SHAPE.
