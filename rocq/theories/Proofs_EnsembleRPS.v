(** Proofs about the ensemble ranked probability score. *)
From Coq Require Import String ZArith List Bool Reals Lra Lia.
Import ListNotations.
From Verif Require Import Prelude Values Model_XArray Spec_XArray Proofs_XArray Model_MetricsBase Model_Calendar Model_Deterministic Proofs_Deterministic
  Spec_Reduce Spec_Ensemble Model_Ensemble Proofs_Ensemble Proofs_Ensemble2 Spec_Statistic Model_Wrappers Spec_Wrappers Proofs_Transforms Proofs_Transforms2 Props_Transforms Proofs_Seeps Model_EnsembleRPS.
Local Open Scope R_scope.
Local Open Scope string_scope.
Local Open Scope list_scope.

Lemma per_named_spec f p : forall t res out, NoDup (keys p) -> per_named_variable f p t res = Ok out ->
  forall v, dget out v = match dget p v, dget t v with
                         | Some a, Some b => match f v a b with Ok r => Some r | Err _ => None end
                         | _, _ => dget res v end /\
            (forall a b, dget p v = Some a -> dget t v = Some b -> exists r, f v a b = Ok r).
Proof.
  induction p as [|[k a] p IH]; intros t res out N H v; cbn [per_named_variable] in H.
  - injection H as <-. cbn [dget]. split; [reflexivity|intros ? ? [=]].
  - change (keys ((k, a) :: p)) with (k :: keys p) in N. apply NoDup_cons_iff in N. destruct N as [N1 N2]. cbn [dget]. destruct (dget t k) as [b|] eqn:Et.
    + destruct (f k a b) as [r|] eqn:Ef; [|discriminate]. cbn [bind] in H. destruct (IH _ _ _ N2 H v) as [I1 I2]. destruct (eq_dec v k) as [->|Hk].
      * assert (dget p k = None) as E by now apply dget_None. rewrite E in I1. rewrite Et. rewrite I1, Ef, dget_dset. destruct (eq_dec k k); [|contradiction]. split; [reflexivity|].
        intros a0 b0 [= <-] [= <-]. eauto.
      * split; [|exact I2]. rewrite I1, dget_dset. destruct (dget p v), (dget t v); try reflexivity; destruct (eq_dec v k); try contradiction; reflexivity.
    + destruct (IH _ _ _ N2 H v) as [I1 I2]. destruct (eq_dec v k) as [->|Hk]; [|split; [exact I1|exact I2]].
      assert (dget p k = None) as E by now apply dget_None. rewrite E in I1. rewrite Et in *. split; [exact I1|intros ? ? ? [=]].
Qed.

(** The score of one variable. *)
Lemma rps_stat str pth tth bin sfx d sk fair enf ri s p t v pv tv st :
  EnsembleRankedProbabilityScore str pth tth bin sfx d sk fair enf ri = Ok s -> NoDup (keys p) -> dget p v = Some pv -> dget t v = Some tv ->
  statistic_value s p t v st ->
  exists p' t' se r, compute_cdf v (TDataset pth) pv bin enf ri = Ok p' /\ compute_cdf v (TDataset tth) tv bin enf ri = Ok t' /\
    cdf_error d sk fair = Ok se /\ statistic_value se [("tmp", p')] [("tmp", t')] "tmp" r /\ reduce (np_sum sk) [bin] r = Ok st.
Proof.
  intros H N Hp Ht (raw & Hc & Hr). unfold EnsembleRankedProbabilityScore in H.
  destruct (ContinuousToCDF str "predictions" _ _ _ _ _) as [wp|] eqn:Ep; [|discriminate]. cbn [bind] in H.
  destruct (ContinuousToCDF str "targets" _ _ _ _ _) as [wt|] eqn:Et; [|discriminate]. cbn [bind] in H.
  destruct (cdf_error d sk fair) as [se|] eqn:Es; [|discriminate]. cbn [bind] in H. injection H as <-. cbn [compute] in Hc.
  destruct (per_named_spec _ _ _ _ _ N Hc v) as [K1 K2]. rewrite Hp, Ht in K1. destruct (K2 _ _ Hp Ht) as [r0 K3]. rewrite K3 in K1. rewrite Hr in K1. injection K1 as <-.
  unfold ensemble_rps_var in K3. rewrite (cdf_fun _ _ _ _ _ _ _ _ Ep), (cdf_fun _ _ _ _ _ _ _ _ Et) in K3.
  destruct (compute_cdf v (TDataset pth) pv bin enf ri) as [p'|]; [|discriminate]. cbn [bind] in K3.
  destruct (compute_cdf v (TDataset tth) tv bin enf ri) as [t'|]; [|discriminate]. cbn [bind] in K3.
  destruct (compute se [("tmp", p')] [("tmp", t')]) as [raw'|] eqn:Ec; [|discriminate]. cbn [bind] in K3.
  unfold dgetE in K3. destruct (dget raw' "tmp") as [x|] eqn:Ex; [|discriminate]. cbn [bind] in K3.
  exists p', t', se, x. repeat (split; [reflexivity|]). split; [exists raw'; auto|exact K3].
Qed.

Definition below (ri : bool) (x q : R) : bool := if ri then Rleb x q else Rltb x q.
Definition step (ri : bool) (x q : R) : R := if below ri x q then 1 else 0.

Lemma time_point_upd th chunk e d l : ~ In d time_dims -> forall n, n <> d -> time_point th chunk (upd e d l) n = time_point th chunk e n.
Proof.
  intros Hd n Hn. unfold time_dims in Hd. cbn [In] in Hd. unfold time_point.
  rewrite !(upd_other e d l "init_time"), !(upd_other e d l "lead_time"), !(upd_other e d l "valid_time") by intuition congruence.
  assert (forall k x, upd (upd e d l) k x n = upd e k x n) as K.
  { intros k x. destruct (string_dec n k) as [->|Hk]; [now rewrite !upd_same|]. rewrite !(upd_other _ k) by exact Hk. now apply upd_other. }
  repeat match goal with |- context [if ?b then _ else _] => destruct b end; try apply K; now apply upd_other.
Qed.
Lemma threshold_upd ds th chunk e d l : wf th -> ~ In d (dnames th) -> ~ In d time_dims ->
  threshold_used (TDataset ds) th chunk (upd e d l) = threshold_used (TDataset ds) th chunk e.
Proof.
  intros W Hd Ht. cbn [threshold_used]. apply (proj2 (proj2 W)). intros n Hn. apply time_point_upd; auto. congruence.
Qed.

Lemma dget_merge_l p q d : ~ In d (keys q) -> @dget string _ _ (merge_dims inter_labels p q) d = dget p d.
Proof.
  intros H. rewrite dget_merge. assert (dget q d = None) as -> by now apply dget_None. now destruct (dget p d).
Qed.
Lemma dget_merge_r p q d : ~ In d (keys p) -> @dget string _ _ (merge_dims inter_labels p q) d = dget q d.
Proof.
  intros H. rewrite dget_merge. assert (dget p d = None) as -> by now apply dget_None. now destruct (dget q d).
Qed.

Lemma below_step (ri : bool) x q : b2v (if ri then vleb (Fin x) (Fin q) else vltb (Fin x) (Fin q)) = Fin (step ri x q).
Proof. unfold step, below. destruct ri; [rewrite vleb_Fin|]; cbn [vltb b2v]; [destruct (Rleb x q)|destruct (Rltb x q)]; reflexivity. Qed.

Section Cdf.
  Variables (ds : vars da) (v bin : string) (enf ri : bool) (a c th : da).
  Hypothesis (Hc : compute_cdf v (TDataset ds) a bin enf ri = Ok c).
  Hypothesis (Hth : dget ds v = Some th) (Wth : wf th) (Wa : wf a).
  Hypothesis (Hbin : ~ In bin time_dims) (Hba : ~ In bin (dnames a)).

  Lemma cdf_wf : wf c.
  Proof.
    pose proof Hc as H. unfold compute_cdf in H. destruct (chosen_thresholds v (TDataset ds) a bin) as [x|] eqn:E; [|discriminate]. cbn [bind] in H.
    match type of H with bind ?m _ = _ => destruct m as [ok|]; [|discriminate] end. cbn [bind] in H. destruct ok; [|discriminate]. injection H as <-.
    destruct (chosen_spec v (TDataset ds) a bin th x Hth Wth Wa ltac:(discriminate) E) as (Wx & _).
    unfold da_where_nan, notnull. repeat (apply wf_binop || apply wf_map); assumption.
  Qed.
  Lemma cdf_at e : get c e = if isnan (get a e) || isnan (threshold_used (TDataset ds) th a e) then NaN
     else b2v (if ri then vleb (get a e) (threshold_used (TDataset ds) th a e) else vltb (get a e) (threshold_used (TDataset ds) th a e)).
  Proof.
    pose proof Hc as H. apply cdf_Ok in H. destruct H as (x & E & _ & _ & Hg). destruct (chosen_spec v (TDataset ds) a bin th x Hth Wth Wa ltac:(discriminate) E) as (_ & Hv & _).
    rewrite Hg, (Hv e I). reflexivity.
  Qed.
  Lemma cdf_dget_bin : dget (dims c) bin = dget (dims th) bin.
  Proof.
    pose proof Hc as H. apply cdf_Ok in H. destruct H as (x & E & _ & Hd & _). destruct (chosen_spec v (TDataset ds) a bin th x Hth Wth Wa ltac:(discriminate) E) as (_ & _ & Hx).
    rewrite <- (Hx Hbin). rewrite Hd, dget_merge. assert (dget (merge_dims inter_labels (merge_dims inter_labels (dims a) (dims x)) (dims a)) bin = dget (dims x) bin) as ->.
    { rewrite dget_merge_l by exact Hba. now apply dget_merge_r. }
    destruct (dget (dims x) bin); [now rewrite inter_self|reflexivity].
  Qed.
  Lemma cdf_dget_member d : d <> bin -> ~ In d time_dims -> ~ In d (dnames th) -> dget (dims c) d = dget (dims a) d.
  Proof.
    intros Hdb Ht Hd'. pose proof Hc as H. apply cdf_Ok in H. destruct H as (x & E & _ & Hd & _).
    assert (dget (dims x) d = None) as Hx.
    { cbn [chosen_thresholds] in E. unfold dgetE in E. rewrite Hth in E. cbn [bind] in E. destruct (select_spec th a x Wth Wa E) as (_ & _ & K). rewrite K by exact Ht. now apply dget_None. }
    rewrite Hd, !dget_merge, Hx. destruct (dget (dims a) d); [now rewrite inter_self|reflexivity].
  Qed.
  Lemma cdf_dnames d : d <> bin -> ~ In d time_dims -> ~ In d (dnames th) -> In d (dnames c) <-> In d (dnames a).
  Proof.
    intros H1 H2 H3. pose proof (cdf_dget_member d H1 H2 H3) as E. split; intros H.
    - apply keys_dget in H. destruct H as [ls H]. rewrite E in H. now apply dget_Some_keys in H.
    - apply keys_dget in H. destruct H as [ls H]. rewrite <- E in H. now apply dget_Some_keys in H.
  Qed.

  (** the steps of the members at a threshold *)
  Lemma cdf_members d sk e l q xs : d <> bin -> ~ In d time_dims -> ~ In d (dnames th) ->
    members sk (along a d e) xs -> threshold_used (TDataset ds) th a (upd e bin l) = Fin q ->
    members sk (along c d (upd e bin l)) (map (fun x => step ri x q) xs).
  Proof.
    intros H1 H2 H3 Hm Hq.
    assert (along c d (upd e bin l) = map (fun y => if isnan y then NaN else b2v (if ri then vleb y (Fin q) else vltb y (Fin q))) (along a d e)) as E.
    { unfold along, labels_of. rewrite cdf_dget_member by assumption. destruct (dget (dims a) d) as [ls|]; [|reflexivity]. rewrite map_map. apply map_ext. intros m.
      rewrite cdf_at, threshold_upd by assumption. rewrite Hq.
      assert (get a (upd (upd e bin l) d m) = get a (upd e d m)) as ->.
      { apply (proj2 (proj2 Wa)). intros n Hn. destruct (string_dec n d) as [->|]; [now rewrite !upd_same|]. rewrite !(upd_other _ d) by assumption. apply upd_other. congruence. }
      now rewrite orb_false_r. }
    rewrite E. clear E Hc. unfold members in *. destruct sk.
    - revert xs Hm. induction (along a d e) as [|y ys IH]; intros xs Hm; [destruct xs; [reflexivity|discriminate]|].
      unfold valid in *. cbn [map filter] in *. destruct (isnan y) eqn:Ny; cbn [negb isnan] in *.
      + destruct y; try discriminate. cbn [isnan negb]. now apply IH.
      + destruct xs as [|x xs]; [discriminate|]. cbn [map] in Hm. injection Hm as -> Hm. rewrite below_step. cbn [isnan negb map]. f_equal. now apply IH.
    - rewrite Hm, !map_map. apply map_ext. intros x. cbn [isnan]. apply below_step.
  Qed.
  Lemma cdf_single e l q y : get a e = Fin y -> threshold_used (TDataset ds) th a (upd e bin l) = Fin q -> get c (upd e bin l) = Fin (step ri y q).
  Proof.
    intros Hy Hq. rewrite cdf_at, Hq, (wf_upd a e bin l Wa Hba), Hy. cbn [isnan orb]. apply below_step.
  Qed.
End Cdf.
