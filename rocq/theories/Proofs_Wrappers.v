From Coq Require Import String Ascii List Bool.
Import ListNotations.
From Verif Require Import Prelude Values Model_XArray Spec_XArray Proofs_XArray Model_Tree Model_MetricsBase Model_Aggregation
  Spec_Aggregator Spec_Metrics Proofs_Metrics Spec_Means Proofs_Means Model_Wrappers Spec_Wrappers.
Local Open Scope string_scope.
Local Open Scope list_scope.

Lemma apply_transform_iff w vs vs' : apply_transform w vs = Ok vs' <-> each_variable w vs vs'.
Proof.
  unfold apply_transform, each_variable. revert vs'. induction vs as [|[k a] vs IH]; intros vs'; cbn [mapM].
  - split; intros H; [injection H as <-; constructor|]. inversion H; reflexivity.
  - cbn [fst snd]. split.
    + intros H. destruct (transform_fn w k a) as [x|] eqn:E; [|discriminate]. cbn [bind] in H.
      match type of H with bind ?m _ = _ => destruct m as [r|] eqn:Er; [|discriminate] end. cbn [bind] in H. injection H as <-.
      constructor; [split; auto|]. now apply IH.
    + intros H. inversion H as [|? [k' x] ? r [E1 E2] HF]; subst. cbn [fst snd] in *. subst k'. rewrite E2. cbn [bind].
      apply IH in HF. rewrite HF. reflexivity.
Qed.
Lemma side_iff w side vs mid : (if memb (which w) [side; "both"] then apply_transform w vs else Ok vs) = Ok mid <->
  ((which w = side \/ which w = "both") /\ each_variable w vs mid \/ ~ (which w = side \/ which w = "both") /\ mid = vs).
Proof.
  destruct (memb (which w) [side; "both"]) eqn:E.
  - apply memb_In in E. assert (which w = side \/ which w = "both") as E' by (destruct E as [E|[E|[]]]; auto).
    rewrite apply_transform_iff. tauto.
  - apply memb_false in E. assert (~ (which w = side \/ which w = "both")) as E' by (intros [K|K]; apply E; rewrite K; simpl; auto).
    split; [intros [= <-]; right; auto|]. intros [[K _]|[_ ->]]; [tauto|reflexivity].
Qed.
Lemma wrapped_iff s w p t r : compute (WrappedStatistic s w) p t = Ok r <->
  exists p' t', transformed "predictions" [w] p p' /\ transformed "targets" [w] t t' /\ compute s p' t' = Ok r.
Proof.
  cbn [WrappedStatistic compute transformed]. split.
  - intros H. match type of H with bind ?m _ = _ => destruct m as [p'|] eqn:E1; [|discriminate] end. cbn [bind] in H.
    match type of H with bind ?m _ = _ => destruct m as [t'|] eqn:E2; [|discriminate] end. cbn [bind] in H.
    apply side_iff in E1. apply side_iff in E2. exists p', t'. split; [exists p'; auto|]. split; [exists t'; auto|]. exact H.
  - intros (p' & t' & (x & H1 & ->) & (y & H2 & ->) & H). apply side_iff in H1. apply side_iff in H2. rewrite H1. cbn [bind]. rewrite H2. exact H.
Qed.
Lemma transformed_cons side w ts vs vs' : transformed side (w :: ts) vs vs' <-> exists mid, transformed side [w] vs mid /\ transformed side ts mid vs'.
Proof.
  cbn [transformed]. split.
  - intros (mid & H1 & H2). exists mid. split; auto. exists mid. auto.
  - intros (mid & (m & H1 & ->) & H2). exists m. auto.
Qed.
Lemma each_fun w vs a b : each_variable w vs a -> each_variable w vs b -> a = b.
Proof. intros H1 H2. apply apply_transform_iff in H1. apply apply_transform_iff in H2. congruence. Qed.
Lemma transformed_fun side ts : forall vs a b, transformed side ts vs a -> transformed side ts vs b -> a = b.
Proof.
  induction ts as [|w ts IH]; intros vs a b; cbn [transformed]; [congruence|].
  intros (m1 & H1 & K1) (m2 & H2 & K2). assert (m1 = m2) as ->; [|eauto].
  destruct H1 as [[? H1]|[? ->]], H2 as [[? H2]|[? ->]]; try tauto. eapply each_fun; eauto.
Qed.
Lemma wrapped_all_iff ts : forall s p t r, compute (fold_left WrappedStatistic (rev ts) s) p t = Ok r <->
  exists p' t', transformed "predictions" ts p p' /\ transformed "targets" ts t t' /\ compute s p' t' = Ok r.
Proof.
  induction ts as [|w ts IH]; intros s p t r.
  - cbn [rev fold_left transformed]. split; [intros H; exists p, t; auto|]. intros (p' & t' & -> & -> & H). exact H.
  - cbn [rev]. rewrite fold_left_app. cbn [fold_left]. rewrite wrapped_iff. split.
    + intros (p1 & t1 & H1 & H2 & H). apply IH in H. destruct H as (p2 & t2 & K1 & K2 & H). exists p2, t2.
      split; [apply transformed_cons; eauto|]. split; [apply transformed_cons; eauto|exact H].
    + intros (p2 & t2 & H1 & H2 & H). apply transformed_cons in H1. apply transformed_cons in H2.
      destruct H1 as (p1 & H1 & K1). destruct H2 as (t1 & H2 & K2). exists p1, t1. split; auto. split; auto. apply IH. eauto.
Qed.
Lemma wrap_statistic_iff ts sfx s p t r : compute (wrap_statistic ts sfx s) p t = Ok r <->
  exists p' t', transformed "predictions" ts p p' /\ transformed "targets" ts t t' /\ compute s p' t' = Ok r.
Proof. unfold wrap_statistic. destruct sfx; [cbn [RenamedStatistic compute]|]; apply wrapped_all_iff. Qed.
Lemma wrap_statistic_Ok ts sfx s p t p' t' r : transformed "predictions" ts p p' -> transformed "targets" ts t t' ->
  (compute (wrap_statistic ts sfx s) p t = Ok r <-> compute s p' t' = Ok r).
Proof.
  intros H1 H2. rewrite wrap_statistic_iff. split; [|eauto 6]. intros (p1 & t1 & K1 & K2 & H).
  rewrite (transformed_fun _ _ _ _ _ H1 K1), (transformed_fun _ _ _ _ _ H2 K2). exact H.
Qed.

(** Names *)
Lemma append_assoc (a b c : string) : ((a ++ b) ++ c = a ++ (b ++ c))%string.
Proof. induction a as [|x a IH]; simpl; [reflexivity|]. now rewrite IH. Qed.
Lemma length_append (a b : string) : String.length (a ++ b) = (String.length a + String.length b)%nat.
Proof. induction a as [|x a IH]; simpl; [reflexivity|]. now rewrite IH. Qed.
Lemma append_cancel_r (c a b : string) : (a ++ c = b ++ c)%string -> a = b.
Proof.
  revert b. induction a as [|x a IH]; intros [|y b] H; cbn [append] in H.
  - reflexivity.
  - apply (f_equal String.length) in H. cbn [String.length] in H. rewrite length_append in H. exfalso. revert H. generalize (String.length b) (String.length c). clear. intros m n. induction n; simpl; intros H; [discriminate|]. injection H as H. apply IHn. rewrite PeanoNat.Nat.add_succ_r in H. exact H.
  - apply (f_equal String.length) in H. cbn [String.length] in H. rewrite length_append in H. exfalso. revert H. generalize (String.length a) (String.length c). clear. intros m n. induction n; simpl; intros H; [rewrite PeanoNat.Nat.add_0_r in H; discriminate|]. apply IHn. rewrite PeanoNat.Nat.add_succ_r in H. injection H as H. exact H.
  - injection H as -> H. f_equal. now apply IH.
Qed.
Fixpoint wrap_suffix (ts : list transform) : string :=
  match ts with [] => EmptyString | w :: ts' => (wrap_suffix ts' ++ ("_" ++ which w ++ "_" ++ suffix w))%string end.
Lemma append_nil_r (a : string) : (a ++ "")%string = a.
Proof. induction a as [|x a IH]; simpl; [reflexivity|]. now rewrite IH. Qed.
Lemma wrapped_name ts s : unique_name (fold_left WrappedStatistic (rev ts) s) = (unique_name s ++ wrap_suffix ts)%string.
Proof.
  revert s. induction ts as [|w ts IH]; intros s; [cbn; now rewrite append_nil_r|]. cbn [rev wrap_suffix]. rewrite fold_left_app. cbn [fold_left WrappedStatistic unique_name].
  rewrite IH. now rewrite append_assoc.
Qed.
Lemma wrap_statistic_name ts sfx s s' : unique_name (wrap_statistic ts sfx s) = unique_name (wrap_statistic ts sfx s') -> unique_name s = unique_name s'.
Proof.
  unfold wrap_statistic. destruct sfx; cbn [RenamedStatistic unique_name].
  - apply append_cancel_r.
  - rewrite !wrapped_name. apply append_cancel_r.
Qed.

(** The value of a metric in terms of own means *)
Lemma metric_value_iff g p t (m : metric da) v a :
  (forall s raw, In s (map snd (statistics m)) -> compute s p t = Ok raw -> NoDup (keys raw)) ->
  (forall s s', In s (map snd (statistics m)) -> In s' (map snd (statistics m)) -> unique_name s = unique_name s' -> compute s p t = compute s' p t) ->
  (metric_value g p t m v a <->
   exists means vs, items_rel (own_mean g p t) (statistics m) means /\ values_from_mean_statistics m means = Ok vs /\ dget vs v = Some a).
Proof.
  intros Hnd Hid0. set (M := [("metric", m)]).
  assert (registered M = map snd (statistics m)) as HR by (unfold registered, M; simpl; apply app_nil_r).
  assert (forall s' raw, In s' (registered M) -> compute s' p t = Ok raw -> NoDup (keys raw)) as Hout.
  { intros s' raw. rewrite HR. apply Hnd. }
  assert (names_identify M p t) as Hid.
  { intros s1 s2. rewrite HR. apply Hid0. }
  split.
  - intros (vs & H & Hv). destruct (evaluate_each g p t _ _ Hout Hid H) as [_ K]. destruct (K _ _ (or_introl eq_refl)) as (v' & means & [[= <-]|[]] & HF & Hval). eauto 6.
  - intros (means & vs & HF & Hval & Hv).
    destruct (evaluate_conv g p t M Hout Hid) as (mv & H).
    { intros n m' [[= <- <-]|[]]. eauto. }
    destruct (evaluate_each g p t _ _ Hout Hid H) as [Hk K]. destruct (K _ _ (or_introl eq_refl)) as (v' & means' & Hin & HF' & Hval').
    assert (means' = means) as ->.
    { clear - HF HF' Hnd. revert means means' HF HF'. generalize (incl_refl (map snd (statistics m))). generalize (statistics m) at 1 3 4. intros l.
      induction l as [|[k s] l IH]; intros Hi means means' HF HF'; inversion HF as [|? [k1 m1] ? ? [E1 O1]]; inversion HF' as [|? [k2 m2] ? ? [E2 O2]]; subst; [reflexivity|]. cbn [fst snd] in *. subst k1 k2. f_equal; [|eapply IH; eauto; intros z Hz; apply Hi; now right].
      f_equal. assert (forall raw, compute s p t = Ok raw -> NoDup (keys raw)) as N by (intros raw; apply Hnd; apply Hi; now left).
      apply own_mean_iff in O1; auto. apply own_mean_iff in O2; auto. destruct O1 as (r1 & C1 & M1). destruct O2 as (r2 & C2 & M2). rewrite C1 in C2. injection C2 as <-.
      eapply mean1_fun; eauto. }
    rewrite Hval in Hval'. injection Hval' as <-. exists vs. split; [|exact Hv].
    destruct mv as [|[n0 v0] [|]]; try discriminate Hk. destruct Hin as [[= -> ->]|[]]. exact H.
Qed.
Lemma wrap_compute ts : forall sfx s p t p' t', transformed "predictions" ts p p' -> transformed "targets" ts t t' ->
  compute (wrap_statistic ts sfx s) p t = compute s p' t'.
Proof.
  assert (forall s p t p' t', transformed "predictions" ts p p' -> transformed "targets" ts t t' ->
    compute (fold_left WrappedStatistic (rev ts) s) p t = compute s p' t') as G.
  { induction ts as [|w ts IH]; intros s p t p' t'.
    - cbn [transformed rev fold_left]. intros -> ->. reflexivity.
    - intros (p1 & H1 & K1) (t1 & H2 & K2). cbn [rev]. rewrite fold_left_app. cbn [fold_left WrappedStatistic compute].
      apply side_iff in H1. apply side_iff in H2. rewrite H1. cbn [bind]. rewrite H2. cbn [bind]. now apply IH. }
  intros sfx s p t p' t' H1 H2. unfold wrap_statistic. destruct sfx; [cbn [RenamedStatistic compute]|]; now apply G.
Qed.
