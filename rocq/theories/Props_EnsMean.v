(** C29, C30: ensemble variance, unbiased ensemble-mean error, rank histogram. *)
From Coq Require Import String ZArith List Bool Reals Permutation Lra Lia.
Import ListNotations.
From Verif Require Import Prelude Values Model_XArray Spec_XArray Proofs_XArray Model_Tree Model_MetricsBase Model_Aggregation
  Spec_Aggregator Spec_Metrics Proofs_Metrics Spec_Means Proofs_Means Model_Deterministic Proofs_Deterministic Model_Categorical Proofs_Categorical
  Spec_Reduce Proofs_Reduce Spec_Statistic Spec_Ensemble Model_Ensemble Proofs_Ensemble Proofs_Ensemble2 Props_Ensemble Props_CRPS Props_Deterministic Proofs_Seeps2 Proofs_Ensemble4.
Local Open Scope R_scope.
Local Open Scope string_scope.
Local Open Scope list_scope.

(** The values of an ensemble that count: all of them, or those that are not NaN. *)
Definition ensemble_of (skipna : bool) (vs : list val) (xs : list R) : Prop :=
  (if skipna then filter (fun v => negb (isnan v)) vs else vs) = map Fin xs.

Lemma variance_stat d sk p t v pv tv st : NoDup (keys p) -> dget p v = Some pv -> dget t v = Some tv ->
  statistic_value (EnsembleVariance d sk) p t v st -> reduce (np_var sk) [d] pv = Ok st.
Proof.
  intros Hn Hp Ht H. apply (per_variable_value _ _ _ _ _ pv tv) in H; auto. destruct (reduce _ _ _) as [r|] eqn:E; [|discriminate]. cbn [bind] in H. congruence.
Qed.
Lemma unbiased_stat d sk p t v pv tv st : NoDup (keys p) -> dget p v = Some pv -> dget t v = Some tv ->
  statistic_value (UnbiasedEnsembleMeanSquaredError d sk) p t v st -> unbiased_mse_var d sk pv tv = Ok st.
Proof.
  intros Hn Hp Ht H. apply (per_variable_value _ _ _ _ _ pv tv) in H; auto. destruct (unbiased_mse_var _ _ _ _) as [r|] eqn:E; [|discriminate]. cbn [bind] in H. congruence.
Qed.

(** ** C29 *)
(** The sample variance is half the mean squared difference of two different members; it is
    NaN for fewer than two members and does not depend on their order. *)
Theorem C29_variance : forall d skipna p t v pv tv st e xs, NoDup (keys p) -> dget p v = Some pv -> dget t v = Some tv -> wf pv ->
  statistic_value (EnsembleVariance d skipna) p t v st -> ensemble_of skipna (along pv d e) xs ->
  ((2 <= length xs)%nat ->
     get st e = Fin (rsum (map (fun x => (x - mean xs) ^ 2) xs) / (size xs - 1)) /\
     get st e = Fin (1 / 2 * (sum_distinct (fun x y => (x - y) ^ 2) xs / (size xs * (size xs - 1)))) /\
     forall xs', Permutation xs xs' -> get st e = Fin (variance xs')) /\
  ((length xs < 2)%nat -> get st e = NaN).
Proof.
  intros d sk p t v pv tv st e xs Hn Hp Ht W H Hx. apply (variance_stat _ _ _ _ _ pv tv) in H; auto.
  rewrite (reduce_along _ _ _ _ e (proj1 W) H). split; intros L.
  - rewrite (np_var_members sk _ xs Hx L). split; [reflexivity|]. split; [f_equal; now apply variance_pairs|]. intros xs' P. f_equal. now apply variance_perm.
  - exact (np_var_missing sk _ xs Hx L).
Qed.
Print Assumptions C29_variance.

Lemma size_of_along d a n e xs : size_of d a = Ok n -> along a d e = map Fin xs -> INR n = size xs.
Proof.
  unfold size_of, along, labels_of. destruct (dget (dims a) d) as [ls|]; [|discriminate]. intros [= <-] H. apply (f_equal (@length val)) in H. rewrite !map_length in H. unfold size. now rewrite H.
Qed.
Lemma bias_value d sk a m b e xs : wf a -> ensemble_bias d sk a = Ok (m, b) -> ensemble_of sk (along a d e) xs ->
  ((2 <= length xs)%nat -> get m e = Fin (mean xs) /\ get b e = Fin (variance xs / size xs)) /\
  ((length xs < 2)%nat -> get b e = NaN).
Proof.
  intros W H Hx. unfold ensemble_bias in H. destruct (reduce (np_mean sk) [d] a) as [m'|] eqn:E1; [|discriminate]. cbn [bind] in H.
  destruct (reduce (np_var sk) [d] a) as [v'|] eqn:E2; [|discriminate]. cbn [bind] in H.
  pose proof (reduce_along _ _ _ _ e (proj1 W) E1) as G1. pose proof (reduce_along _ _ _ _ e (proj1 W) E2) as G2.
  destruct sk.
  - destruct (reduce np_count [d] a) as [n|] eqn:E3; [|discriminate]. cbn [bind] in H. injection H as <- <-. pose proof (reduce_along _ _ _ _ e (proj1 W) E3) as G3.
    rewrite (np_count_members _ xs Hx) in G3. split; intros L.
    + assert (xs <> []) as N by (intros ->; simpl in L; lia). rewrite G1, (np_mean_members true _ xs Hx N). split; [reflexivity|].
      cbn [binop get]. rewrite G2, G3, (np_var_members true _ xs Hx L). apply size_ge2 in L. rewrite vdiv_fin by lra. reflexivity.
    + cbn [binop get]. rewrite G2, (np_var_missing true _ xs Hx L). apply vdiv_NaN_l.
  - destruct (size_of d a) as [n|] eqn:E3; [|discriminate]. cbn [bind] in H. injection H as <- <-. split; intros L.
    + assert (xs <> []) as N by (intros ->; simpl in L; lia). rewrite G1, (np_mean_members false _ xs Hx N). split; [reflexivity|].
      cbn [da_map get]. rewrite G2, (np_var_members false _ xs Hx L), (size_of_along d a n e xs E3 Hx). apply size_ge2 in L. rewrite vdiv_fin by lra. reflexivity.
    + cbn [da_map get]. rewrite G2, (np_var_missing false _ xs Hx L). apply vdiv_NaN_l.
Qed.
Lemma vsub_NaN_r x : vsub x NaN = NaN.
Proof. now destruct x. Qed.
Lemma vsub_NaN_l x : vsub NaN x = NaN.
Proof. now destruct x. Qed.

(** Against one observation: the average of (x_i - y)(x_j - y) over ordered pairs of different
    members; NaN for fewer than two members. *)
Theorem C29_unbiased : forall d skipna p t v pv tv st e xs y, NoDup (keys p) -> dget p v = Some pv -> dget t v = Some tv -> wf pv ->
  ~ In d (dnames tv) -> statistic_value (UnbiasedEnsembleMeanSquaredError d skipna) p t v st ->
  ensemble_of skipna (along pv d e) xs -> get tv e = Fin y ->
  ((2 <= length xs)%nat ->
     get st e = Fin (sum_distinct (fun a b => (a - y) * (b - y)) xs / (size xs * (size xs - 1))) /\
     forall xs', Permutation xs xs' -> get st e = Fin ((mean xs' - y) ^ 2 - variance xs' / size xs')) /\
  ((length xs < 2)%nat -> get st e = NaN).
Proof.
  intros d sk p t v pv tv st e xs y Hn Hp Ht W Hd H Hx Hy. apply (unbiased_stat _ _ _ _ _ pv tv) in H; auto.
  unfold unbiased_mse_var in H. destruct (memb d (dnames pv)); [|discriminate]. destruct (memb d (dnames tv)) eqn:M; [apply memb_In in M; contradiction|].
  destruct (ensemble_bias d sk pv) as [[m b]|] eqn:E; [|discriminate]. cbn [bind fst snd] in H. apply Ok_inj in H. subst st. cbn [binop da_map scalar get].
  destruct (bias_value d sk pv m b e xs W E Hx) as [K1 K2]. split; intros L.
  - destruct (K1 L) as [-> ->]. rewrite Hy. unfold vsub. cbn [vneg vadd]. rewrite vsq_Fin. cbn [vneg vadd]. split.
    + f_equal. rewrite <- unbiased_pairs by exact L. ring.
    + intros xs' P. f_equal. assert (size xs = size xs') as E' by (unfold size; f_equal; now apply Permutation_length).
      rewrite (variance_perm _ _ P). unfold mean. rewrite E', (rsum_perm _ _ P). ring.
  - rewrite (K2 L), vsub_NaN_r. apply vsub_NaN_l.
Qed.
Print Assumptions C29_unbiased.

Lemma unbiased_pairs2 xs ys : (2 <= length xs)%nat -> (2 <= length ys)%nat ->
  (mean xs - mean ys) ^ 2 - variance xs / size xs - variance ys / size ys =
  sum_distinct (fun a b => sum_distinct (fun c d => (a - c) * (b - d)) ys) xs / (size xs * (size xs - 1) * (size ys * (size ys - 1))).
Proof.
  intros H H'. apply size_ge2 in H. apply size_ge2 in H'. assert (xs <> []) as N by (intros ->; unfold size in H; simpl in H; lra).
  assert (ys <> []) as N' by (intros ->; unfold size in H'; simpl in H'; lra).
  set (Q := rsum (map (fun y => y ^ 2) ys)). set (S := rsum ys). set (m := size ys) in *.
  assert (forall a b, sum_distinct (fun c d => (a - c) * (b - d)) ys = (m * m - m) * (a * b) + - (m - 1) * S * (a + b) + (S * S - Q)) as G.
  { intros a b. rewrite sum2_diag_index, (sum2_prod (fun c => a - c) (fun d => b - d)).
    rewrite (rsum_map_ext (fun x => (a - x) * (b - x)) (fun x => (a * b + - (a + b) * x) + x ^ 2)) by (intros; ring).
    rewrite !rsum_map_add, (rsum_map_sub (fun _ => a) (fun x => x)), (rsum_map_sub (fun _ => b) (fun x => x)), !rsum_const, (rsum_map_scale (- (a + b)) (fun x => x)), map_id. fold Q S m. ring. }
  unfold variance. rewrite !rsum_sq_dev by assumption.
  assert (sum_distinct (fun a b => sum_distinct (fun c d => (a - c) * (b - d)) ys) xs = sum_distinct (fun a b => (m * m - m) * (a * b) + - (m - 1) * S * (a + b) + (S * S - Q)) xs) as ->.
  { unfold sum_distinct at 1 3. apply sum2_ext. intros i j _ _. destruct (Nat.eqb i j); [reflexivity|apply G]. }
  rewrite sum2_diag_index.
  rewrite (sum2_ext _ (fun a b => (((m * m - m) * (a * b) + - (m - 1) * S * a) + - (m - 1) * S * b) + (S * S - Q))) by (intros; ring).
  rewrite !sum2_add, (sum2_scale (m * m - m) (fun a b => a * b)), (sum2_left (fun a => - (m - 1) * S * a)), (sum2_right (fun b => - (m - 1) * S * b)), (sum2_prod (fun x => x) (fun x => x)).
  rewrite (sum2_left (fun _ => S * S - Q)), rsum_const, map_id, (rsum_map_scale (- (m - 1) * S) (fun x => x)), map_id.
  rewrite (rsum_map_ext (fun x => (m * m - m) * (x * x) + - (m - 1) * S * (x + x) + (S * S - Q)) (fun x => ((m * m - m) * x ^ 2 + - (m - 1) * S * 2 * x) + (S * S - Q))) by (intros; ring).
  rewrite !rsum_map_add, rsum_const, (rsum_map_scale (m * m - m) (fun x => x ^ 2)), (rsum_map_scale (- (m - 1) * S * 2) (fun x => x)), map_id.
  fold Q. unfold mean. fold S m. clearbody Q S m. clear G N N'. set (n := size xs) in *. clearbody n. generalize (rsum (map (fun x => x ^ 2) xs)) (rsum xs). intros Qx Sx. clear xs ys.
  field. repeat split; lra.
Qed.
(** Against an ensemble of observations. *)
Theorem C29_unbiased_ensembles : forall d skipna p t v pv tv st e xs ys, NoDup (keys p) -> dget p v = Some pv -> dget t v = Some tv -> wf pv -> wf tv ->
  In d (dnames tv) -> statistic_value (UnbiasedEnsembleMeanSquaredError d skipna) p t v st ->
  ensemble_of skipna (along pv d e) xs -> ensemble_of skipna (along tv d e) ys ->
  ((2 <= length xs)%nat -> (2 <= length ys)%nat ->
     get st e = Fin (sum_distinct (fun a b => sum_distinct (fun c d => (a - c) * (b - d)) ys) xs / (size xs * (size xs - 1) * (size ys * (size ys - 1))))) /\
  ((length xs < 2 \/ length ys < 2)%nat -> get st e = NaN).
Proof.
  intros d sk p t v pv tv st e xs ys Hn Hp Ht W Wt Hd H Hx Hy. apply (unbiased_stat _ _ _ _ _ pv tv) in H; auto.
  unfold unbiased_mse_var in H. destruct (memb d (dnames pv)); [|discriminate]. destruct (memb d (dnames tv)) eqn:M; [|apply memb_In in Hd; congruence].
  destruct (ensemble_bias d sk pv) as [[m b]|] eqn:E; [|discriminate]. destruct (ensemble_bias d sk tv) as [[m' b']|] eqn:E'; [|discriminate]. cbn [bind fst snd] in H. apply Ok_inj in H. subst st. cbn [binop da_map scalar get].
  destruct (bias_value d sk pv m b e xs W E Hx) as [K1 K2]. destruct (bias_value d sk tv m' b' e ys Wt E' Hy) as [K1' K2']. split.
  - intros L L'. destruct (K1 L) as [-> ->]. destruct (K1' L') as [-> ->]. unfold vsub. cbn [vneg vadd]. rewrite vsq_Fin. cbn [vneg vadd]. f_equal. rewrite <- unbiased_pairs2 by assumption. ring.
  - intros [L|L]; [rewrite (K2 L), vsub_NaN_r; apply vsub_NaN_l|rewrite (K2' L); apply vsub_NaN_r].
Qed.
Print Assumptions C29_unbiased_ensembles.
(** Predictions without the ensemble dimension are an error. *)
Theorem C29_no_ensemble : forall d skipna v pv tv, ~ In d (dnames pv) ->
  compute (EnsembleVariance d skipna) [(v, pv)] [(v, tv)] = Err ValueError /\
  compute (UnbiasedEnsembleMeanSquaredError d skipna) [(v, pv)] [(v, tv)] = Err ValueError.
Proof.
  intros d sk v pv tv H. assert (memb d (dnames pv) = false) as M by (destruct (memb d (dnames pv)) eqn:Q; [apply memb_In in Q; contradiction|reflexivity]).
  split; cbn [compute EnsembleVariance UnbiasedEnsembleMeanSquaredError per_variable_statistic per_variable_compute dget fst snd]; (destruct (eq_dec v v); [|contradiction]); cbn [bind].
  - unfold reduce, subsetb. cbn [forallb]. rewrite M. reflexivity.
  - unfold unbiased_mse_var. rewrite M. reflexivity.
Qed.
Print Assumptions C29_no_ensemble.
Example C29_example : exists st,
  statistic_value (UnbiasedEnsembleMeanSquaredError "number" false) [("t", ens [Fin 1; Fin 3; Fin 8])] [("t", scalar (Fin 2))] "t" st /\
  get st env0 = Fin ((-1 * 1 + -1 * 6 + 1 * 6) / 3).
Proof.
  destruct (unbiased_mse_var "number" false (ens [Fin 1; Fin 3; Fin 8]) (scalar (Fin 2))) as [r|] eqn:E; [|discriminate].
  assert (statistic_value (UnbiasedEnsembleMeanSquaredError "number" false) [("t", ens [Fin 1; Fin 3; Fin 8])] [("t", scalar (Fin 2))] "t" r) as Hs by (apply single_value; rewrite E; reflexivity).
  exists r. split; [exact Hs|].
  destruct (C29_unbiased "number" false [("t", ens [Fin 1; Fin 3; Fin 8])] [("t", scalar (Fin 2))] "t" (ens [Fin 1; Fin 3; Fin 8]) (scalar (Fin 2)) r env0 [1; 3; 8] 2) as [K _];
    [repeat constructor; intros []|reflexivity|reflexivity|apply wf_ens|intros []|exact Hs|apply along_ens|reflexivity|].
  destruct (K ltac:(simpl; lia)) as [-> _]. f_equal. rewrite sum2_diag_index. unfold sum2, size. cbn [map length INR]. rewrite !rsum_cons, !rsum_nil. field.
Qed.

(** ** C30 *)
Lemma vsum_count {A} (f : A -> bool) l : vsum (map (fun x => b2v (f x)) l) = Fin (INR (length (filter f l))).
Proof.
  induction l as [|x l IH]; [reflexivity|]. cbn [map]. change (vsum (?a :: ?b)) with (vadd a (vsum b)). rewrite IH. cbn [filter]. destruct (f x); cbn [b2v vadd].
  - cbn [length]. rewrite S_INR. f_equal. ring.
  - f_equal. ring.
Qed.
(** One entry for each number of members; the entry equal to the number of members below the
    observation is 1 and the others are 0, so that the entries add up to 1. *)
Theorem C30_rank : forall d p t v pv tv st e k, NoDup (keys p) -> dget p v = Some pv -> dget t v = Some tv -> wf pv -> wf tv ->
  ~ In d (dnames tv) -> ~ In "rank" (dnames pv) -> ~ In "rank" (dnames tv) -> d <> "rank" ->
  statistic_value (RankHistogram d) p t v st ->
  let members := along pv d e in
  let below := length (filter (fun x => vltb x (get tv e)) members) in
  labels_of (dims st) "rank" = map (fun i => LZ (Z.of_nat i)) (seq 0 (length members + 1)) /\
  (below <= length members)%nat /\
  get st (upd e "rank" (LZ (Z.of_nat k))) = Fin (if Nat.eqb k below then 1 else 0) /\
  vsum (map (fun l => get st (upd e "rank" l)) (labels_of (dims st) "rank")) = Fin 1.
Proof.
  intros d p t v pv tv st e k Hn Hp Ht W Wt Hd Hr1 Hr2 Hdr H members below. apply (per_variable_value _ _ _ _ _ pv tv) in H; auto.
  destruct (rank_histogram_var d pv tv) as [r|] eqn:E; [|discriminate]. cbn [bind] in H. injection H as <-.
  unfold rank_histogram_var in E. destruct (size_of d pv) as [n|] eqn:En; [|discriminate]. cbn [bind] in E.
  destruct (reduce _ _ _) as [ranks|] eqn:Er; [|discriminate]. cbn [bind] in E. apply Ok_inj in E.
  assert (wf (binop (fun x y => b2v (vltb x y)) pv tv)) as Wb by now apply wf_binop.
  assert (n = length members) as Hlen. { unfold members, along, labels_of. unfold size_of in En. destruct (dget (dims pv) d); [|discriminate]. injection En as <-. now rewrite map_length. }
  assert (forall l, get ranks (upd e "rank" l) = Fin (INR below)) as G.
  { intros l. rewrite (reduce_along _ _ _ _ _ (proj1 Wb) Er). unfold np_sum, along. change (dims (binop _ pv tv)) with (merge_dims inter_labels (dims pv) (dims tv)).
    rewrite (labels_merge_l pv tv d Hd). unfold below, members, along. generalize (labels_of (dims pv) d). intros ls.
    rewrite (map_ext _ (fun l0 => b2v (vltb (get pv (upd e d l0)) (get tv e)))).
    - rewrite (vsum_count (fun l0 => vltb (get pv (upd e d l0)) (get tv e))). f_equal. f_equal. induction ls as [|x ls IH]; [reflexivity|]. cbn [filter map]. destruct (vltb _ _); cbn [length]; now rewrite IH.
    - intros l0. cbn [binop get]. rewrite (wf_upd tv _ d l0 Wt Hd), (wf_upd tv _ "rank" l Wt Hr2). f_equal. f_equal. apply (proj2 (proj2 W)).
      intros m Hm. destruct (string_dec m d) as [->|Nm]; [now rewrite !upd_same|]. rewrite !upd_other; auto. intros ->. contradiction. }
  assert (dims ranks = keep (fun n0 => negb (memb n0 [d])) (dims (binop (fun x y => b2v (vltb x y)) pv tv))) as Dr by (apply reduce_Ok in Er; tauto).
  assert (~ In "rank" (dnames ranks)) as NR.
  { unfold dnames. rewrite Dr. rewrite names_keep. intros [K _]. apply names_merge in K. tauto. }
  assert (below <= length members)%nat as LB by (unfold below; generalize members; intros ms; induction ms as [|x ms IH]; [simpl; lia|]; cbn [filter]; destruct (vltb _ _); cbn [length]; lia).
  assert (labels_of (dims r) "rank" = map (fun i => LZ (Z.of_nat i)) (seq 0 (length members + 1))) as HL.
  { subst r. cbn [binop dims]. match goal with |- labels_of (merge_dims inter_labels _ ?X) _ = _ => change X with (dims (mkDa X (fun _ => NaN) [])) end.
    rewrite labels_merge_r by exact NR. cbn [dims]. unfold labels_of. cbn [dget]. destruct (eq_dec "rank" "rank"); [|contradiction]. rewrite Hlen, Nat.add_1_r. reflexivity. }
  assert (forall j, get r (upd e "rank" (LZ (Z.of_nat j))) = b2v (Nat.eqb j below)) as V.
  { intros j. subst r. cbn [binop get]. rewrite G, upd_same. f_equal. cbn [veqb]. unfold Reqb. rewrite <- INR_IZR_INZ. destruct (Req_EM_T _ _) as [E|E].
    - apply INR_eq in E. subst j. symmetry. apply Nat.eqb_refl.
    - symmetry. apply Nat.eqb_neq. intros ->. contradiction. }
  split; [exact HL|]. split; [exact LB|]. split; [rewrite V; reflexivity|].
  rewrite HL, map_map, (map_ext _ (fun j => b2v (Nat.eqb j below)) V), vsum_count. f_equal.
  assert (forall m s, (s <= below < s + m)%nat -> length (filter (fun j => Nat.eqb j below) (seq s m)) = 1%nat) as C.
  { induction m as [|m IH]; intros s Hs; [lia|]. cbn [seq filter]. destruct (Nat.eqb s below) eqn:Q.
    - apply Nat.eqb_eq in Q. cbn [length]. f_equal. assert (forall m' s', (below < s')%nat -> filter (fun j => Nat.eqb j below) (seq s' m') = []) as K.
      { induction m' as [|m' IH']; intros s' Hs'; [reflexivity|]. cbn [seq filter]. assert (Nat.eqb s' below = false) as -> by (apply Nat.eqb_neq; lia). apply IH'. lia. }
      rewrite K by lia. reflexivity.
    - apply Nat.eqb_neq in Q. apply IH. lia. }
  rewrite C by lia. reflexivity.
Qed.
Print Assumptions C30_rank.
(** For finite values the rank is the number of members strictly below the observation. *)
Theorem C30_finite_rank : forall xs y, length (filter (fun x => vltb x (Fin y)) (map Fin xs)) = length (filter (fun x => if Rlt_dec x y then true else false) xs).
Proof. induction xs as [|x xs IH]; intros y; [reflexivity|]. cbn [map filter vltb]. unfold Rltb. destruct (Rlt_dec x y); cbn [length]; now rewrite IH. Qed.
Print Assumptions C30_finite_rank.
(** A missing observation is counted in the lowest bin instead of being left out. *)
Theorem C30_missing_observation_refuted : exists st,
  statistic_value (RankHistogram "number") [("t", ens [Fin 1; Fin 3])] [("t", scalar NaN)] "t" st /\
  get st (upd env0 "rank" (LZ 0)) = Fin 1.
Proof.
  destruct (rank_histogram_var "number" (ens [Fin 1; Fin 3]) (scalar NaN)) as [r|] eqn:E; [|discriminate].
  assert (statistic_value (RankHistogram "number") [("t", ens [Fin 1; Fin 3])] [("t", scalar NaN)] "t" r) as Hs by (apply single_value; rewrite E; reflexivity).
  exists r. split; [exact Hs|].
  destruct (C30_rank "number" [("t", ens [Fin 1; Fin 3])] [("t", scalar NaN)] "t" (ens [Fin 1; Fin 3]) (scalar NaN) r env0 0) as (_ & _ & K & _);
    [repeat constructor; intros []|reflexivity|reflexivity|apply wf_ens|apply Proofs_Ensemble4.wf_scalar|intros []|simpl; intuition discriminate|intros []|discriminate|exact Hs|].
  change (LZ (Z.of_nat 0)) with (LZ 0) in K. rewrite K, along_ens. reflexivity.
Qed.
Print Assumptions C30_missing_observation_refuted.
Example C30_example : exists st,
  statistic_value (RankHistogram "number") [("t", ens [Fin 5; Fin 1; Fin 3])] [("t", scalar (Fin 4))] "t" st /\
  get st (upd env0 "rank" (LZ 2)) = Fin 1.
Proof.
  destruct (rank_histogram_var "number" (ens [Fin 5; Fin 1; Fin 3]) (scalar (Fin 4))) as [r|] eqn:E; [|discriminate].
  assert (statistic_value (RankHistogram "number") [("t", ens [Fin 5; Fin 1; Fin 3])] [("t", scalar (Fin 4))] "t" r) as Hs by (apply single_value; rewrite E; reflexivity).
  exists r. split; [exact Hs|].
  destruct (C30_rank "number" [("t", ens [Fin 5; Fin 1; Fin 3])] [("t", scalar (Fin 4))] "t" (ens [Fin 5; Fin 1; Fin 3]) (scalar (Fin 4)) r env0 2) as (_ & _ & K & _);
    [repeat constructor; intros []|reflexivity|reflexivity|apply wf_ens|apply Proofs_Ensemble4.wf_scalar|intros []|simpl; intuition discriminate|intros []|discriminate|exact Hs|].
  change (LZ (Z.of_nat 2)) with (LZ 2) in K. rewrite K, along_ens. cbn [scalar get]. f_equal.
  cbn [filter vltb]. unfold Rltb. destruct (Rlt_dec 5 4); [lra|]. destruct (Rlt_dec 1 4); [|lra]. destruct (Rlt_dec 3 4); [|lra]. reflexivity.
Qed.
