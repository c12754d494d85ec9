(** Ensemble reductions of labelled arrays. *)
From Coq Require Import String ZArith List Bool Reals Permutation Lra Lia FunctionalExtensionality.
Import ListNotations.
From Verif Require Import Prelude Values Model_XArray Spec_XArray Proofs_XArray Spec_Aggregator Model_MetricsBase Model_Deterministic Proofs_Deterministic
  Model_Categorical Spec_Reduce Proofs_Reduce Spec_Ensemble Model_Ensemble Proofs_Ensemble Proofs_Aggregator.
Local Open Scope R_scope.
Local Open Scope string_scope.
Local Open Scope list_scope.

Lemma upd_same e d l : upd e d l d = l.
Proof. unfold upd. now destruct (string_dec d d). Qed.
Lemma upd_other e d l n : n <> d -> upd e d l n = e n.
Proof. unfold upd. now destruct (string_dec n d). Qed.
Lemma wf_upd a e d l : wf a -> ~ In d (dnames a) -> get a (upd e d l) = get a e.
Proof. intros (_ & _ & W) H. apply W. intros n Hn. apply upd_other. congruence. Qed.

Lemma reduce_Ok f D a r : reduce f D a = Ok r ->
  dims r = keep (fun d => negb (memb d D)) (dims a) /\ aux r = aux_without D (aux a) /\
  (forall e, get r e = f (map (get a) (sum_points D a e))) /\ (forall d, In d D -> In d (dnames a)).
Proof.
  unfold reduce. destruct (subsetb D (dnames a)) eqn:E; [|discriminate]. intros [= <-]. split; [reflexivity|]. split; [reflexivity|]. split; [reflexivity|].
  unfold subsetb in E. rewrite forallb_forall in E. intros d Hd. apply E in Hd. now apply memb_In.
Qed.
Lemma reduce_along f d a r e : NoDup (dnames a) -> reduce f [d] a = Ok r -> get r e = f (along a d e).
Proof.
  intros N H. apply reduce_Ok in H. destruct H as (_ & _ & Hg & Hin). rewrite Hg, sum_points_one; [|exact N|apply Hin; now left]. now rewrite map_map.
Qed.
Lemma wf_reduce f D a r : wf a -> reduce f D a = Ok r -> wf r.
Proof.
  intros W H. apply reduce_Ok in H. destruct H as (Hd & _ & Hg & _). split; [|split].
  - unfold dnames. rewrite Hd. apply keep_NoDup, W.
  - intros d ls Hin. rewrite Hd in Hin. unfold keep in Hin. apply filter_In in Hin. now apply (proj1 (proj2 W) d).
  - intros e e' He. rewrite !Hg. f_equal. unfold sum_points.
    assert (NoDup (map fst (keep (fun d => memb d D) (dims a)))) as HN by (apply keep_NoDup, W).
    assert (forall n, In n (dnames a) -> ~ In n D -> e n = e' n) as He'.
    { intros n H1 H2. apply He. unfold dnames. rewrite Hd. apply names_keep. split; auto. destruct (memb n D) eqn:Q; auto. apply memb_In in Q. contradiction. }
    clear He. destruct W as (_ & _ & W).
    assert (forall ds, forall e1 e2, (forall n, In n (dnames a) -> ~ In n (map fst ds) -> e1 n = e2 n) -> map (get a) (envs ds e1) = map (get a) (envs ds e2)) as K.
    { induction ds as [|[n ls] ds IH]; intros e1 e2 H12; cbn [envs].
      - cbn [map]. f_equal. apply W. intros n Hn. apply H12; auto.
      - induction ls as [|l ls IHl]; [reflexivity|]. cbn [flat_map]. rewrite !map_app. f_equal; [|exact (IHl H12)]. apply IH. intros m Hm Hnot.
        destruct (string_dec m n) as [->|Hmn]; [now rewrite !upd_same|]. rewrite !upd_other by exact Hmn. apply H12; auto. simpl. intros [?|?]; [congruence|contradiction]. }
    apply K. intros n H1 H2. apply He'; auto. intros H3. apply H2. apply names_keep. split; auto. now apply memb_In.
Qed.

(** [xs] are the ensemble members that count among [vs]. *)
Definition members (skipna : bool) (vs : list val) (xs : list R) : Prop := (if skipna then valid vs else vs) = map Fin xs.

Lemma np_sum_perm s l l' : Permutation l l' -> np_sum s l = np_sum s l'.
Proof.
  intros P. unfold np_sum. apply vsum_perm. destruct s; [|exact P]. unfold valid.
  induction P; simpl; auto; [destruct (isnan x); simpl; auto|destruct (isnan y), (isnan x); simpl; auto; constructor|econstructor; eauto].
Qed.
Lemma valid_perm l l' : Permutation l l' -> Permutation (valid l) (valid l').
Proof.
  intros P. unfold valid. induction P; simpl; auto; [destruct (isnan x); simpl; auto|destruct (isnan y), (isnan x); simpl; auto; constructor|econstructor; eauto].
Qed.
Lemma np_mean_perm s l l' : Permutation l l' -> np_mean s l = np_mean s l'.
Proof.
  intros P. assert (Permutation (if s then valid l else l) (if s then valid l' else l')) as P' by (destruct s; [now apply valid_perm|exact P]).
  unfold np_mean. now rewrite (vsum_perm _ _ P'), (Permutation_length P').
Qed.

Lemma vsum_map_Fin' xs : vsum (map Fin xs) = Fin (rsum xs).
Proof. induction xs as [|x xs IH]; [reflexivity|]. cbn [map]. change (vsum (Fin x :: map Fin xs)) with (vadd (Fin x) (vsum (map Fin xs))). rewrite IH. reflexivity. Qed.
Lemma np_sum_members s vs xs : members s vs xs -> np_sum s vs = Fin (rsum xs).
Proof. unfold members, np_sum. intros ->. apply vsum_map_Fin'. Qed.
Lemma vdiv_fin x y : y <> 0 -> vdiv (Fin x) (Fin y) = Fin (x / y).
Proof. intros H. cbn [vdiv]. destruct (Req_EM_T y 0); [contradiction|reflexivity]. Qed.
Lemma np_mean_members s vs xs : members s vs xs -> xs <> [] -> np_mean s vs = Fin (mean xs).
Proof.
  unfold members, np_mean. intros -> H. rewrite vsum_map_Fin', map_length. apply size_pos in H. unfold size in H. rewrite vdiv_fin by lra. reflexivity.
Qed.
Lemma np_mean_empty s vs : members s vs [] -> np_mean s vs = NaN.
Proof. unfold members, np_mean. intros ->. cbn. unfold rsign. destruct (Req_EM_T 0 0); [|lra]. destruct (Rlt_dec 0 0); [lra|]. reflexivity. Qed.
Lemma np_mean_NaN vs : In NaN vs -> np_mean false vs = NaN.
Proof. intros H. unfold np_mean. rewrite (vsum_NaN _ H). reflexivity. Qed.
Lemma np_var_members s vs xs : members s vs xs -> (2 <= length xs)%nat -> np_var s vs = Fin (variance xs).
Proof.
  intros H L. assert (xs <> []) as N by (intros ->; simpl in L; lia). unfold members in H. unfold np_var. rewrite H.
  rewrite (np_mean_members false (map Fin xs) xs eq_refl N). rewrite map_length, map_map.
  rewrite (map_ext _ (fun x => Fin ((x - mean xs) ^ 2))) by (intros x; unfold vsub; cbn [vneg vadd]; rewrite vsq_Fin; reflexivity).
  rewrite <- (map_map (fun x => (x - mean xs) ^ 2) Fin), vsum_map_Fin'. assert (INR (length xs - 1) = size xs - 1) as -> by (rewrite minus_INR by lia; reflexivity). apply size_ge2 in L. rewrite vdiv_fin by lra. reflexivity.
Qed.
Lemma np_var_missing s vs xs : members s vs xs -> (length xs < 2)%nat -> np_var s vs = NaN.
Proof.
  intros H L. unfold members in H. unfold np_var. rewrite H. destruct xs as [|x [|y xs]]; [| |simpl in L; lia].
  - cbn. unfold rsign. destruct (Req_EM_T 0 0); [|lra]. destruct (Rlt_dec 0 0); [lra|reflexivity].
  - rewrite (np_mean_members false (map Fin [x]) [x] eq_refl) by discriminate. unfold mean, size. cbn [map length Nat.sub INR]. rewrite rsum_cons, rsum_nil.
    unfold vsub. cbn [vneg vadd]. replace (x + - ((x + 0) / 1)) with 0 by field. cbn. unfold rsign.
    replace (0 * 0 + 0) with 0 by ring. destruct (Req_EM_T 0 0); [|lra]. destruct (Rlt_dec 0 0); [lra|reflexivity].
Qed.
Lemma np_count_members vs xs : members true vs xs -> np_count vs = Fin (size xs).
Proof. unfold members, np_count. intros ->. now rewrite map_length. Qed.

(** pairs of values *)
Definition pairs (vs ws : list val) : list val := flat_map (fun x => map (fun y => vabs (vsub x y)) ws) vs.
Lemma rsum_flat_map {A} (f : A -> list R) l : rsum (flat_map f l) = rsum (map (fun a => rsum (f a)) l).
Proof. induction l; cbn [flat_map map]; [reflexivity|]. now rewrite rsum_app, rsum_cons, IHl. Qed.
Lemma members_pairs s vs ws xs ys : members s vs xs -> members s ws ys -> members s (pairs vs ws) (flat_map (fun x => map (dist x) ys) xs).
Proof.
  unfold members. destruct s.
  - revert xs. induction vs as [|v vs IH]; intros xs Hx Hy.
    + destruct xs; [reflexivity|discriminate].
    + assert (forall a b, valid (a ++ b) = valid a ++ valid b) as VA by (intros; apply filter_app).
      unfold pairs. cbn [flat_map]. rewrite VA. fold (pairs vs ws). unfold valid in Hx. cbn [filter] in Hx. destruct (isnan v) eqn:Nv; cbn [negb] in Hx.
      * destruct v; try discriminate. assert (valid (map (fun y => vabs (vsub NaN y)) ws) = []) as ->; [|now apply IH].
        clear. induction ws as [|w ws IH]; [reflexivity|]. unfold valid in *. cbn [map filter]. destruct w; exact IH.
      * destruct xs as [|x xs]; [discriminate|]. cbn [map] in Hx. injection Hx as -> Hx. cbn [flat_map]. rewrite map_app. f_equal; [|now apply IH].
        clear - Hy. revert ys Hy. induction ws as [|w ws IH]; intros ys Hy; [destruct ys; [reflexivity|discriminate]|]. unfold valid in *. cbn [map filter] in *.
        destruct w as [w| | |]; cbn [isnan negb vabs vsub vneg vadd] in *; try (destruct ys; discriminate).
        -- destruct ys as [|y ys]; [discriminate|]. cbn [map] in *. injection Hy as -> Hy. f_equal. now apply IH.
        -- now apply IH.
  - intros -> ->. unfold pairs. induction xs as [|x xs IH]; [reflexivity|]. cbn [map flat_map]. rewrite map_app. f_equal; [|exact IH].
    rewrite !map_map. apply map_ext. intros y. reflexivity.
Qed.
Lemma length_pairs {A} (xs ys : list A) (f : A -> A -> R) : size (flat_map (fun x => map (f x) ys) xs) = size xs * size ys.
Proof.
  unfold size. induction xs as [|x xs IH]; [cbn; ring|]. cbn [flat_map]. rewrite app_length, plus_INR, map_length, IH. cbn [length]. rewrite S_INR. ring.
Qed.
Lemma rsum_pairs xs ys : rsum (flat_map (fun x => map (dist x) ys) xs) = sum2 dist xs ys.
Proof. apply rsum_flat_map. Qed.

(** ** renaming *)
Lemma rename_Ok d d2 a r : rename_dim d d2 a = Ok r -> wf a ->
  In d (dnames a) /\ ~ In d2 (dnames a) /\ wf r /\ In d2 (dnames r) /\ (d <> d2 -> ~ In d (dnames r)) /\
  (forall n, n <> d -> n <> d2 -> (In n (dnames r) <-> In n (dnames a))) /\
  labels_of (dims r) d2 = labels_of (dims a) d /\ (forall e, along r d2 e = along a d e).
Proof.
  unfold rename_dim. destruct (memb d (dnames a)) eqn:E1; [|discriminate]. destruct (memb d2 (dnames a)) eqn:E2; [discriminate|]. destruct (memb d2 (keys (aux a))); [discriminate|].
  cbn [negb orb]. intros [= <-] W. apply memb_In in E1. assert (~ In d2 (dnames a)) as N2 by (intros H; apply memb_In in H; congruence).
  assert (forall n, In n (map fst (map (fun p : string * list label => (if eqb (fst p) d then d2 else fst p, snd p)) (dims a))) <-> (n = d2 /\ In d (dnames a)) \/ (n <> d /\ In n (dnames a))) as K.
  { intros n. rewrite map_map. cbn [fst]. rewrite in_map_iff. unfold dnames. rewrite !in_map_iff. split.
    - intros (q & <- & Hq). unfold eqb. destruct (eq_dec (fst q) d) as [<-|Hne]; [left; split; auto; exists q; auto|right; split; auto; exists q; auto].
    - intros [[-> (q & Hq & Hin)]|[Hne (q & Hq & Hin)]]; exists q; split; auto; unfold eqb; destruct (eq_dec (fst q) d); congruence. }
  assert (labels_of (map (fun p : string * list label => (if eqb (fst p) d then d2 else fst p, snd p)) (dims a)) d2 = labels_of (dims a) d) as KL.
  { unfold labels_of. unfold dnames in N2. clear - N2. induction (dims a) as [|[n ls] ds IH]; [reflexivity|]. cbn [map fst snd dget]. simpl in N2. unfold eqb.
    destruct (eq_dec n d) as [->|Hn].
    - destruct (eq_dec d2 d2) as [_|?]; [|contradiction]. destruct (eq_dec d d) as [_|?]; [reflexivity|contradiction].
    - destruct (eq_dec d2 n) as [->|_]; [tauto|]. destruct (eq_dec d n) as [->|_]; [contradiction|]. unfold eqb in IH. apply IH. tauto. }
  split; [exact E1|]. split; [exact N2|]. split; [split; [|split]|split; [|split; [|split; [|split]]]].
  - unfold dnames. cbn [dims]. rewrite map_map. cbn [fst]. destruct W as (W1 & _ & _). unfold dnames in *. clear - W1 N2.
    induction (dims a) as [|[n ls] ds IH]; [constructor|]. cbn [map fst] in *. apply NoDup_cons_iff in W1. destruct W1 as [Wn W1]. simpl in N2. constructor; [|apply IH; tauto].
    rewrite in_map_iff. intros ([n' ls'] & H1 & H2). apply (in_map fst) in H2. cbn [fst] in *. unfold eqb in H1.
    destruct (eq_dec n' d), (eq_dec n d); subst; try contradiction; tauto.
  - intros n ls H. cbn [dims] in H. apply in_map_iff in H. destruct H as ([n' ls'] & [= _ <-] & H). now apply (proj1 (proj2 W) n').
  - intros e e' H. cbn [get]. apply (proj2 (proj2 W)). intros n Hn. destruct (string_dec n d) as [->|Hne].
    + rewrite !upd_same. apply H. unfold dnames. cbn [dims]. apply K. left. auto.
    + rewrite !upd_other by exact Hne. apply H. unfold dnames. cbn [dims]. apply K. right. auto.
  - unfold dnames. cbn [dims]. apply K. left. auto.
  - intros Hne H. unfold dnames in H. cbn [dims] in H. apply K in H. destruct H as [[? _]|[? _]]; congruence.
  - intros n H1 H2. unfold dnames at 1. cbn [dims]. rewrite K. split; [intros [[? _]|[_ ?]]; [congruence|auto]|intros ?; right; auto].
  - exact KL.
  - intros e. unfold along. cbn [dims]. rewrite KL. cbn [get]. apply map_ext. intros l. rewrite upd_same. apply (proj2 (proj2 W)). intros n Hn.
    destruct (string_dec n d) as [->|Hne]; [now rewrite !upd_same|]. rewrite !upd_other; auto. congruence.
Qed.

(** ** reducing over two dimensions *)
Lemma reduced_perm arrs D e P Q : reduced_points arrs D e P -> reduced_points arrs D e Q -> Permutation P Q.
Proof. intros [N1 H1] [N2 H2]. apply NoDup_Permutation; auto. intros q. now rewrite H1, H2. Qed.
Lemma two_points b d d2 e : wf b -> d <> d2 -> In d (dnames b) -> In d2 (dnames b) ->
  Permutation (sum_points [d; d2] b e) (flat_map (fun l => map (fun l2 => upd (upd e d l) d2 l2) (labels_of (dims b) d2)) (labels_of (dims b) d)).
Proof.
  intros W Hne H1 H2. apply (reduced_perm [b] [d; d2] e); [now apply sum_points_spec|].
  assert (forall n, In n (dnames b) -> NoDup (labels_of (dims b) n)) as HL by (intros n _; now apply wf_labels_NoDup).
  split.
  - assert (forall l l' l2 l2', upd (upd e d l) d2 l2 = upd (upd e d l') d2 l2' -> l = l' /\ l2 = l2') as INJ.
    { intros l l' l2 l2' H. split; [apply (f_equal (fun f => f d)) in H|apply (f_equal (fun f => f d2)) in H]; [|now rewrite !upd_same in H].
      rewrite (upd_other (upd e d l) d2 l2 d), (upd_other (upd e d l') d2 l2' d) in H by exact Hne. now rewrite !upd_same in H. }
    specialize (HL d H1) as L1. specialize (HL d2 H2) as L2. induction (labels_of (dims b) d) as [|l ls IH]; [constructor|]. cbn [flat_map].
    apply NoDup_cons_iff in L1. destruct L1 as [L0 L1]. apply NoDup_app_intro; [| |].
    + apply FinFun.Injective_map_NoDup; [|exact L2]. intros x y H. now apply INJ in H.
    + apply IH. exact L1.
    + intros x Hx Hy. apply in_map_iff in Hx. destruct Hx as (l2 & <- & _). apply in_flat_map in Hy. destruct Hy as (l' & Hl' & Hy). apply in_map_iff in Hy. destruct Hy as (l2' & E & _).
      apply INJ in E. destruct E as [-> _]. contradiction.
  - intros e'. rewrite in_flat_map. split.
    + intros (l & Hl & Hin). apply in_map_iff in Hin. destruct Hin as (l2 & <- & Hl2). split.
      * intros n Hn. rewrite !upd_other; auto; intros ->; apply Hn; (split; [simpl; auto|exists b; simpl; auto]).
      * intros a n [<-|[]] [<-|[<-|[]]] _; [rewrite upd_other, upd_same by exact Hne; exact Hl|rewrite upd_same; exact Hl2].
    + intros [Ho Hi]. exists (e' d). split; [apply (Hi b d); simpl; auto|]. apply in_map_iff. exists (e' d2). split; [|apply (Hi b d2); simpl; auto].
      apply functional_extensionality. intros n. destruct (string_dec n d2) as [->|N2]; [now rewrite upd_same|]. rewrite upd_other by exact N2.
      destruct (string_dec n d) as [->|N1]; [now rewrite upd_same|]. rewrite upd_other by exact N1. symmetry. apply Ho. intros [[?|[?|[]]] _]; congruence.
Qed.
Lemma labels_merge_l p q d : ~ In d (dnames q) -> labels_of (merge_dims inter_labels (dims p) (dims q)) d = labels_of (dims p) d.
Proof.
  intros H. unfold labels_of. rewrite dget_merge. assert (dget (dims q) d = None) as ->; [|now destruct (dget (dims p) d)].
  destruct (dget (dims q) d) eqn:E; auto. apply dget_Some_keys in E. contradiction.
Qed.
Lemma labels_merge_r p q d : ~ In d (dnames p) -> labels_of (merge_dims inter_labels (dims p) (dims q)) d = labels_of (dims q) d.
Proof.
  intros H. unfold labels_of. rewrite dget_merge. assert (dget (dims p) d = None) as ->; [|reflexivity].
  destruct (dget (dims p) d) eqn:E; auto. apply dget_Some_keys in E. contradiction.
Qed.
Lemma pair_values p q d d2 e : wf p -> wf q -> d <> d2 -> In d (dnames p) -> ~ In d (dnames q) -> In d2 (dnames q) -> ~ In d2 (dnames p) ->
  Permutation (map (get (da_map vabs (binop vsub p q))) (sum_points [d; d2] (da_map vabs (binop vsub p q)) e)) (pairs (along p d e) (along q d2 e)).
Proof.
  intros Wp Wq Hne H1 H2 H3 H4. set (b := da_map vabs (binop vsub p q)).
  assert (wf b) as Wb by (apply wf_map, wf_binop; assumption).
  assert (In d (dnames b)) as B1 by (apply names_merge; left; exact H1). assert (In d2 (dnames b)) as B2 by (apply names_merge; right; exact H3).
  rewrite (Permutation_map (get b) (two_points b d d2 e Wb Hne B1 B2)).
  change (dims b) with (merge_dims inter_labels (dims p) (dims q)). rewrite (labels_merge_l p q d H2), (labels_merge_r p q d2 H4).
  unfold pairs, along. generalize (labels_of (dims p) d) as ls. intros ls. induction ls as [|l ls IH]; [reflexivity|].
  cbn [flat_map map]. rewrite map_app. apply Permutation_app; [|exact IH]. rewrite !map_map. erewrite map_ext; [reflexivity|]. intros l2. cbn [b da_map binop get].
  f_equal. f_equal.
  - apply wf_upd; assumption.
  - apply (proj2 (proj2 Wq)). intros n Hn. destruct (string_dec n d2) as [->|N2]; [now rewrite !upd_same|]. rewrite !upd_other; auto. congruence.
Qed.

(** ** CRPSSkill *)
Lemma one_values p t d e : wf p -> wf t -> In d (dnames p) -> ~ In d (dnames t) ->
  map (get (da_map vabs (binop vsub p t))) (sum_points [d] (da_map vabs (binop vsub p t)) e) = map (fun x => vabs (vsub x (get t e))) (along p d e).
Proof.
  intros Wp Wt H1 H2. set (b := da_map vabs (binop vsub p t)). assert (wf b) as Wb by (apply wf_map, wf_binop; assumption).
  assert (In d (dnames b)) as B1 by (apply names_merge; left; exact H1). rewrite sum_points_one; [|apply Wb|exact B1].
  change (dims b) with (merge_dims inter_labels (dims p) (dims t)). rewrite (labels_merge_l p t d H2), map_map. unfold along. rewrite map_map.
  apply map_ext. intros l. cbn [b da_map binop get]. now rewrite (wf_upd t e d l Wt H2).
Qed.
Lemma append_ne d x s : d <> (d ++ String x s)%string.
Proof.
  intros H. apply (f_equal String.length) in H. assert (forall a b, String.length (a ++ b)%string = (String.length a + String.length b)%nat) as K by (induction a; simpl; auto).
  rewrite K in H. simpl in H. lia.
Qed.
(** E|X - Y|, against one target or a target ensemble. *)
Theorem skill_single d s p t r e xs y : wf p -> wf t -> ~ In d (dnames t) -> crps_skill_var d s p t = Ok r ->
  members s (along p d e) xs -> get t e = Fin y -> xs <> [] -> get r e = Fin (mean_dist xs [y]).
Proof.
  intros Wp Wt Ht H Hx Hy N. unfold crps_skill_var in H. destruct (memb d (dnames t)) eqn:E; [apply memb_In in E; contradiction|].
  apply reduce_Ok in H. destruct H as (_ & _ & Hg & Hin). rewrite Hg.
  assert (In d (dnames p)) as Hd.
  { specialize (Hin d (or_introl eq_refl)). apply names_merge in Hin. destruct Hin as [?|?]; [auto|contradiction]. }
  rewrite one_values by assumption. rewrite Hy.
  assert (members s (map (fun x => vabs (vsub x (Fin y))) (along p d e)) (flat_map (fun x => map (dist x) [y]) xs)) as M.
  { assert (forall l0, map (fun x => vabs (vsub x (Fin y))) l0 = pairs l0 [Fin y]) as PE by (induction l0 as [|v l0 IH]; [reflexivity|]; cbn [map]; rewrite IH; reflexivity).
    rewrite PE.
    apply members_pairs; auto. now destruct s. }
  rewrite (np_mean_members _ _ _ M).
  - f_equal. unfold mean, mean_dist. now rewrite rsum_pairs, length_pairs.
  - destruct xs; [contradiction|]. discriminate.
Qed.
Theorem skill_ensemble d s p t r e xs ys : wf p -> wf t -> In d (dnames t) -> ~ In (d ++ "_PSEUDO_FOR_TARGETS")%string (dnames p) -> crps_skill_var d s p t = Ok r ->
  members s (along p d e) xs -> members s (along t d e) ys -> xs <> [] -> ys <> [] -> get r e = Fin (mean_dist xs ys).
Proof.
  intros Wp Wt Ht Hp H Hx Hy Nx Ny. unfold crps_skill_var in H. destruct (memb d (dnames t)) eqn:E; [|apply memb_In in Ht; congruence].
  destruct (rename_dim d _ t) as [t'|] eqn:ER; [|discriminate]. cbn [bind] in H. apply rename_Ok in ER; [|exact Wt].
  destruct ER as (_ & _ & Wt' & R1 & R2 & R3 & _ & R4). specialize (R2 (append_ne d _ _)).
  apply reduce_Ok in H. destruct H as (_ & _ & Hg & Hin). rewrite Hg.
  assert (In d (dnames p)) as Hd.
  { specialize (Hin d (or_introl eq_refl)). apply names_merge in Hin. destruct Hin as [?|?]; [auto|contradiction]. }
  rewrite (np_mean_perm s _ _ (pair_values p t' d _ e Wp Wt' (append_ne d _ _) Hd R2 R1 Hp)). rewrite R4.
  rewrite (np_mean_members _ _ _ (members_pairs s _ _ _ _ Hx Hy)).
  - f_equal. unfold mean, mean_dist. now rewrite rsum_pairs, length_pairs.
  - destruct xs; [contradiction|]. destruct ys; [contradiction|]. discriminate.
Qed.

(** ** CRPSSpread *)
Theorem spread_pairs_value d fair s a n r e xs m : wf a -> spread_pairs d fair s a n = Ok r ->
  members s (along a d e) xs -> get n e = Fin m -> m * (m - fair1 fair) <> 0 -> get r e = Fin (sum2 dist xs xs / (m * (m - fair1 fair))).
Proof.
  intros W H Hx Hn N. unfold spread_pairs in H. destruct (eqb d "ensemble_dim_2") eqn:E; [discriminate|].
  assert (d <> "ensemble_dim_2"%string) as Hne. { unfold eqb in E. destruct (eq_dec d "ensemble_dim_2"); [discriminate|auto]. }
  destruct (rename_dim d "ensemble_dim_2" a) as [a2|] eqn:ER; [|discriminate]. cbn [bind] in H. apply rename_Ok in ER; [|exact W].
  destruct ER as (R0 & R0' & W2 & R1 & R2 & R3 & _ & R4). specialize (R2 Hne).
  destruct (reduce (np_sum s) _ _) as [q|] eqn:EQ; [|discriminate]. cbn [bind] in H. injection H as <-. apply reduce_Ok in EQ. destruct EQ as (_ & _ & Hg & _).
  cbn [binop da_map get]. rewrite Hg, (np_sum_perm s _ _ (pair_values a a2 d _ e W W2 Hne R0 R2 R1 R0')), R4, (np_sum_members _ _ _ (members_pairs s _ _ _ _ Hx Hx)), rsum_pairs, Hn.
  unfold vsub. cbn [vneg vadd vmul]. rewrite vdiv_fin by exact N. reflexivity.
Qed.
Theorem spread_pairs_missing d fair s a n r e xs m : wf a -> spread_pairs d fair s a n = Ok r ->
  members s (along a d e) xs -> (length xs <= 1)%nat -> get n e = Fin m -> m * (m - fair1 fair) = 0 -> get r e = NaN.
Proof.
  intros W H Hx L Hn N. unfold spread_pairs in H. destruct (eqb d "ensemble_dim_2") eqn:E; [discriminate|].
  assert (d <> "ensemble_dim_2"%string) as Hne. { unfold eqb in E. destruct (eq_dec d "ensemble_dim_2"); [discriminate|auto]. }
  destruct (rename_dim d "ensemble_dim_2" a) as [a2|] eqn:ER; [|discriminate]. cbn [bind] in H. apply rename_Ok in ER; [|exact W].
  destruct ER as (R0 & R0' & W2 & R1 & R2 & R3 & _ & R4). specialize (R2 Hne).
  destruct (reduce (np_sum s) _ _) as [q|] eqn:EQ; [|discriminate]. cbn [bind] in H. injection H as <-. apply reduce_Ok in EQ. destruct EQ as (_ & _ & Hg & _).
  cbn [binop da_map get]. rewrite Hg, (np_sum_perm s _ _ (pair_values a a2 d _ e W W2 Hne R0 R2 R1 R0')), R4, (np_sum_members _ _ _ (members_pairs s _ _ _ _ Hx Hx)), rsum_pairs, Hn.
  assert (sum2 dist xs xs = 0) as ->. { destruct xs as [|x [|x' xs]]; [reflexivity| |simpl in L; lia]. unfold sum2. cbn [map]. rewrite !rsum_cons, !rsum_nil, dist_refl. ring. }
  unfold vsub. cbn [vneg vadd vmul]. change (m + - fair1 fair) with (m - fair1 fair). rewrite N. cbn [vdiv]. unfold rsign. destruct (Req_EM_T 0 0); [|lra]. destruct (Rlt_dec 0 0); [lra|reflexivity].
Qed.

Lemma index_of_map_nth (ls : list label) i l : NoDup ls -> nth_error ls i = Some l -> index_of l ls = i.
Proof. apply index_of_nth. Qed.
Theorem spread_sorted_value argsort d fair a r e xs : argsort_ok argsort -> wf a -> spread_sorted argsort d fair a (length xs) = Ok r ->
  along a d e = map Fin xs -> size xs * (size xs - fair1 fair) <> 0 -> get r e = Fin (sum2 dist xs xs / (size xs * (size xs - fair1 fair))).
Proof.
  intros HA W H Hx N. unfold spread_sorted in H. destruct (reduce _ _ _) as [m|] eqn:E; [|discriminate]. cbn [bind] in H. injection H as <-.
  assert (wf (rank_da argsort d a)) as Wr.
  { split; [exact (proj1 W)|]. split; [exact (proj1 (proj2 W))|]. intros e1 e2 He. unfold rank_da. cbn [get]. do 2 f_equal. f_equal.
    - apply map_ext. intros l. apply (proj2 (proj2 W)). intros n Hn. destruct (string_dec n d) as [->|Hnd]; [now rewrite !upd_same|]. rewrite !upd_other by exact Hnd. now apply He.
    - assert (In d (dnames a)) as Hd; [|now rewrite (He d Hd)].
      apply reduce_Ok in E. destruct E as (_ & _ & _ & Hin). specialize (Hin d (or_introl eq_refl)). apply names_merge in Hin. destruct Hin; auto. }
  set (rk := da_map _ (rank_da argsort d a)) in E.
  assert (wf (binop vmul rk a)) as Wb by (apply wf_binop; [now apply wf_map|exact W]).
  pose proof (reduce_along (np_mean false) d _ m e (proj1 Wb) E) as Hg. cbn [da_map get]. rewrite Hg.
  assert (labels_of (dims (binop vmul rk a)) d = labels_of (dims a) d) as HL.
  { change (dims (binop vmul rk a)) with (merge_dims inter_labels (dims a) (dims a)). unfold labels_of. rewrite dget_merge. destruct (dget (dims a) d) as [ls|] eqn:Q; [|reflexivity].
    unfold inter_labels. clear. assert (forall l, incl l ls -> filter (fun x => memb x ls) l = l) as K; [|apply K, incl_refl].
    induction l as [|x l IH]; intros Hl; [reflexivity|]. cbn [filter]. assert (memb x ls = true) as -> by (apply memb_In, Hl; now left). f_equal. apply IH. intros y Hy. apply Hl. now right. }
  set (js := argsort (map Fin xs)). specialize (HA xs). fold js in HA.
  assert (along (binop vmul rk a) d e = map Fin (map (fun i => (2 * INR (S (index_of i js)) - size xs - 1) * nth i xs 0) (seq 0 (length xs)))) as HV.
  { unfold along. rewrite HL. unfold along in Hx.
    assert (forall i l, nth_error (labels_of (dims a) d) i = Some l -> get (binop vmul rk a) (upd e d l) = Fin ((2 * INR (S (index_of i js)) - size xs - 1) * nth i xs 0)) as K.
    { intros i l Hi. unfold rk. cbn [binop da_map get rank_da]. rewrite upd_same.
      assert (map (fun l0 => get a (upd (upd e d l) d l0)) (labels_of (dims a) d) = map Fin xs) as ->.
      { rewrite <- Hx. apply map_ext. intros l0. apply (proj2 (proj2 W)). intros n Hn. destruct (string_dec n d) as [->|Hnd]; [now rewrite !upd_same|]. now rewrite !upd_other. }
      rewrite (index_of_nth _ i l (wf_labels_NoDup a W d) Hi). unfold rank_at. fold js.
      assert (get a (upd e d l) = Fin (nth i xs 0)) as ->.
      { pose proof (f_equal (fun q => nth_error q i) Hx) as Q. cbv beta in Q. rewrite !nth_error_map, Hi in Q. cbn [option_map] in Q. destruct (nth_error xs i) as [x|] eqn:Qx; [|discriminate].
        cbn [option_map] in Q. injection Q as ->. f_equal. symmetry. now apply nth_error_nth. }
      unfold vsub. cbn [vmul vneg vadd]. reflexivity. }
    pose proof (f_equal (@length val) Hx) as Hlen. rewrite !map_length in Hlen. rewrite <- Hlen.
    pose (F := fun i => (2 * INR (S (index_of i js)) - size xs - 1) * nth i xs 0). change (forall i l, nth_error (labels_of (dims a) d) i = Some l -> get (binop vmul rk a) (upd e d l) = Fin (F i)) in K. fold F. revert K. generalize (get (binop vmul rk a)) as G. clearbody F. clear. intros G K.
    assert (forall k ls, (forall i l, nth_error ls i = Some l -> G (upd e d l) = Fin (F (k + i)%nat)) -> map (fun l => G (upd e d l)) ls = map Fin (map F (seq k (length ls)))) as K'.
    { intros k ls. revert k. induction ls as [|l ls IH]; intros k Hk; [reflexivity|]. cbn [map length seq]. f_equal.
      - rewrite (Hk O l eq_refl). now rewrite Nat.add_0_r.
      - apply IH. intros i l' Hi. rewrite (Hk (S i) l' Hi). do 2 f_equal. lia. }
    apply K'. exact K. }
  rewrite HV. assert (size xs <> 0) as Ns by (intros Z; rewrite Z in N; lra).
  assert (xs <> []) as Nx by (intros ->; apply Ns; reflexivity).
  rewrite (np_mean_members false _ _ eq_refl).
  - unfold mean. assert (size (map (fun i => (2 * INR (S (index_of i js)) - size xs - 1) * nth i xs 0) (seq 0 (length xs))) = size xs) as -> by (unfold size; now rewrite map_length, seq_length).
    rewrite <- (rank_formula xs js HA). cbn [vmul]. assert (size xs - fair1 fair <> 0) as Nf by (intros Z; rewrite Z in N; lra).
    fold (size xs). rewrite vdiv_fin by exact Nf. f_equal. field. auto.
  - destruct xs; [contradiction|]. discriminate.
Qed.
