(** C58: the ensemble ranked probability score. *)
From Coq Require Import String ZArith List Bool Reals Lra Lia Permutation.
Import ListNotations.
From Verif Require Import Prelude Values Model_XArray Spec_XArray Proofs_XArray Model_MetricsBase Model_Calendar Model_Deterministic Proofs_Deterministic
  Spec_Reduce Spec_Ensemble Model_Ensemble Proofs_Ensemble Proofs_Ensemble2 Spec_Statistic Model_Wrappers Spec_Wrappers Proofs_Transforms Proofs_Transforms2
  Props_Transforms Props_EnsMean Model_EnsembleRPS Proofs_EnsembleRPS.
Local Open Scope R_scope.
Local Open Scope string_scope.
Local Open Scope list_scope.

(** The value of the empirical CDF of [xs] at [q]: the fraction of the members at most (below, if
    not right inclusive) [q]. *)
Definition ecdf (right_inclusive : bool) (xs : list R) (q : R) : R :=
  INR (length (filter (fun x => if right_inclusive then Rleb x q else Rltb x q) xs)) / INR (length xs).

(** A forecast and an observation, with thresholds for each, that the score is defined for: [d] is
    a dimension of the forecast only, the bins are a dimension of the thresholds only. *)
Record binned (bin d v : string) (p t pth tth : vars da) (pv tv th uh : da) (ls : list label) : Prop := {
  b_keys : NoDup (keys p);
  b_p : dget p v = Some pv; b_t : dget t v = Some tv; b_th : dget pth v = Some th; b_uh : dget tth v = Some uh;
  b_wp : wf pv; b_wt : wf tv; b_wth : wf th; b_wuh : wf uh;
  b_d : d <> bin /\ ~ In d time_dims /\ ~ In bin time_dims;
  b_bin : ~ In bin (dnames pv) /\ ~ In bin (dnames tv);
  b_nd : ~ In d (dnames th) /\ ~ In d (dnames uh);
  b_ls : dget (dims th) bin = Some ls /\ dget (dims uh) bin = Some ls }.
(** The thresholds in use at the point [e]. *)
Definition edges (bin : string) (pth tth : vars da) (pv tv th uh : da) (ls : list label) (e : env) (q r : label -> R) : Prop :=
  forall l, In l ls -> threshold_used (TDataset pth) th pv (upd e bin l) = Fin (q l) /\ threshold_used (TDataset tth) uh tv (upd e bin l) = Fin (r l).

Lemma rsum_steps ri xs q : rsum (map (fun x => step ri x q) xs) = INR (length (filter (fun x => below ri x q) xs)).
Proof.
  induction xs as [|x xs IH]; [reflexivity|]. cbn [map filter]. rewrite rsum_cons, IH. unfold step at 1. destruct (below ri x q); [cbn [length]; rewrite S_INR; ring|ring].
Qed.
Lemma mean_steps ri xs q : mean (map (fun x => step ri x q) xs) = ecdf ri xs q.
Proof. unfold mean, size, ecdf. rewrite rsum_steps, map_length. reflexivity. Qed.
Lemma var_steps ri xs q : (2 <= length xs)%nat -> variance (map (fun x => step ri x q) xs) / size (map (fun x => step ri x q) xs) = ecdf ri xs q * (1 - ecdf ri xs q) / (size xs - 1).
Proof.
  intros L. apply size_ge2 in L. assert (size (map (fun x => step ri x q) xs) = size xs) as E by (unfold size; now rewrite map_length).
  assert (map (fun x => step ri x q) xs <> []) as N by (intros K; apply (f_equal (@length R)) in K; rewrite map_length in K; unfold size in L; rewrite K in L; simpl in L; lra).
  unfold variance. rewrite rsum_sq_dev by exact N. rewrite E.
  assert (rsum (map (fun x => x ^ 2) (map (fun x => step ri x q) xs)) = rsum (map (fun x => step ri x q) xs)) as ->.
  { rewrite map_map. apply rsum_map_ext. intros x _. unfold step. destruct (below ri x q); ring. }
  rewrite <- mean_steps. unfold mean. rewrite E. field. lra.
Qed.


Lemma dget_reduce f d a r n : n <> d -> reduce f [d] a = Ok r -> dget (dims r) n = dget (dims a) n.
Proof.
  intros Hn H. apply reduce_Ok in H. destruct H as (-> & _). rewrite dget_keep. cbn [memb existsb]. destruct (eqb n d) eqn:E; [apply eqb_true_iff in E; contradiction|reflexivity].
Qed.
Lemma dget_binop f a b n ls : dget (dims a) n = Some ls -> dget (dims b) n = Some ls \/ dget (dims b) n = None -> dget (dims (binop f a b)) n = Some ls.
Proof. intros H1 H2. cbn [binop dims]. rewrite dget_merge, H1. destruct H2 as [-> | ->]; [now rewrite inter_self|reflexivity]. Qed.
Lemma bias_dims d sk a m b n ls : n <> d -> ensemble_bias d sk a = Ok (m, b) -> wf a -> dget (dims a) n = Some ls ->
  dget (dims m) n = Some ls /\ dget (dims b) n = Some ls /\ wf m /\ wf b.
Proof.
  intros Hn H W Hl. unfold ensemble_bias in H. destruct (reduce (np_mean sk) [d] a) as [m'|] eqn:E1; [|discriminate]. cbn [bind] in H.
  destruct (reduce (np_var sk) [d] a) as [v'|] eqn:E2; [|discriminate]. cbn [bind] in H.
  pose proof (wf_reduce _ _ _ _ W E1) as W1. pose proof (wf_reduce _ _ _ _ W E2) as W2.
  apply (dget_reduce _ _ _ _ n Hn) in E1. apply (dget_reduce _ _ _ _ n Hn) in E2. destruct sk.
  - destruct (reduce np_count [d] a) as [c|] eqn:E3; [|discriminate]. pose proof (wf_reduce _ _ _ _ W E3) as W3. apply (dget_reduce _ _ _ _ n Hn) in E3. cbn [bind] in H. injection H as <- <-.
    split; [congruence|]. split; [apply dget_binop; [congruence|left; congruence]|]. split; [exact W1|now apply wf_binop].
  - destruct (size_of d a); [|discriminate]. cbn [bind] in H. injection H as <- <-. cbn [da_map dims]. split; [congruence|]. split; [congruence|]. split; [exact W1|now apply wf_map].
Qed.
Lemma wf_scalar x : wf (scalar x).
Proof. split; [constructor|]. split; [intros ? ? []|reflexivity]. Qed.

(** The squared error at one bin, and its dimensions. *)
Lemma fair_error p' t' r bin d sk ls : statistic_value (UnbiasedEnsembleMeanSquaredError d sk) [("tmp", p')] [("tmp", t')] "tmp" r -> wf p' -> wf t' -> d <> bin ->
  dget (dims p') bin = Some ls -> dget (dims t') bin = Some ls -> dget (dims r) bin = Some ls /\ wf r.
Proof.
  intros H Wp Wt Hd Hp Ht. apply (unbiased_stat _ _ _ _ _ p' t') in H; try reflexivity; [|repeat constructor; intros []].
  unfold unbiased_mse_var in H. destruct (memb d (dnames p')); [|discriminate]. destruct (ensemble_bias d sk p') as [[m b]|] eqn:E; [|discriminate]. cbn [bind] in H.
  destruct (bias_dims _ _ _ _ _ bin ls (not_eq_sym Hd) E Wp Hp) as (D1 & D2 & W1 & W2).
  match type of H with bind ?x _ = _ => destruct x as [[m' b']|] eqn:E'; [|discriminate] end. cbn [bind fst snd] in H. injection H as <-.
  assert (dget (dims m') bin = Some ls /\ (dget (dims b') bin = Some ls \/ dget (dims b') bin = None) /\ wf m' /\ wf b') as (D1' & D2' & W1' & W2').
  { destruct (memb d (dnames t')).
    - destruct (bias_dims _ _ _ _ _ bin ls (not_eq_sym Hd) E' Wt Ht) as (? & ? & ? & ?). auto.
    - injection E' as <- <-. split; [exact Ht|]. split; [right; reflexivity|]. split; [exact Wt|apply wf_scalar]. }
  split; [|repeat (apply wf_binop || apply wf_map); assumption].
  apply dget_binop; [|exact D2']. apply dget_binop; [|now left]. cbn [da_map dims]. apply dget_binop; [exact D1|now left].
Qed.

(** the ensemble mean of one side *)
Definition emean (d : string) (sk : bool) (a : da) : result da := if memb d (dnames a) then reduce (np_mean sk) [d] a else Ok a.
Lemma unfair_error p' t' se r d sk : cdf_error d sk false = Ok se -> statistic_value se [("tmp", p')] [("tmp", t')] "tmp" r ->
  exists pm tm, emean d sk p' = Ok pm /\ emean d sk t' = Ok tm /\ r = squared_error_var pm tm.
Proof.
  intros Hs H. unfold cdf_error in Hs. cbn [EnsembleMean input_transform memb existsb eqb bind] in Hs. injection Hs as <-. destruct H as (raw & Hc & Hr).
  unfold WrappedStatistic, compute in Hc. cbn [which memb existsb eqb orb] in Hc. unfold apply_transform in Hc. cbn [mapM transform_fn fst snd] in Hc.
  assert (forall a, (if (negb (memb d (dnames a)) && true)%bool then Ok a else reduce (np_mean sk) [d] a) = emean d sk a) as E by (intros a; unfold emean; destruct (memb d (dnames a)); reflexivity).
  rewrite !E in Hc. destruct (emean d sk p') as [pm|]; [|discriminate]. cbn [bind] in Hc. destruct (emean d sk t') as [tm|]; [|discriminate]. cbn [bind] in Hc.
  exists pm, tm. split; [reflexivity|]. split; [reflexivity|]. injection Hc as <-. cbn in Hr. congruence.
Qed.
Lemma emean_dims d sk a m n ls : n <> d -> emean d sk a = Ok m -> wf a -> dget (dims a) n = Some ls -> dget (dims m) n = Some ls /\ wf m.
Proof.
  intros Hn H W Hl. unfold emean in H. destruct (memb d (dnames a)); [|injection H as <-; auto]. pose proof (wf_reduce _ _ _ _ W H) as W1. apply (dget_reduce _ _ _ _ n Hn) in H. split; [congruence|exact W1].
Qed.
Lemma emean_value d sk a m e xs : emean d sk a = Ok m -> wf a -> In d (dnames a) -> members sk (along a d e) xs -> xs <> [] -> get m e = Fin (mean xs).
Proof.
  intros H W Hd Hm N. unfold emean in H. apply memb_In in Hd. rewrite Hd in H. rewrite (reduce_along _ _ _ _ e (proj1 W) H). now apply np_mean_members.
Qed.

Lemma along_Some a d e ls : dget (dims a) d = Some ls -> along a d e = map (fun l => get a (upd e d l)) ls.
Proof. unfold along, labels_of. now intros ->. Qed.
Lemma score_sum sk bin r st ls e f : reduce (np_sum sk) [bin] r = Ok st -> wf r -> dget (dims r) bin = Some ls ->
  (forall l, In l ls -> get r (upd e bin l) = Fin (f l)) -> get st e = Fin (rsum (map f ls)).
Proof.
  intros H W Hl Hv. rewrite (reduce_along _ _ _ _ e (proj1 W) H), (along_Some _ _ _ _ Hl). apply np_sum_members. unfold members.
  assert (map (fun l => get r (upd e bin l)) ls = map Fin (map f ls)) as -> by (rewrite map_map; now apply map_ext_in).
  destruct sk; [|reflexivity]. induction (map f ls) as [|x l IH]; [reflexivity|]. unfold valid in *. cbn [map filter isnan negb]. now rewrite IH.
Qed.

Section Score.
  Variables (str : label -> string) (pth tth : vars da) (bin sfx d : string) (skipna fair enforce right_inclusive : bool) (s : statistic da).
  Variables (p t : vars da) (v : string) (pv tv th uh st : da) (ls : list label) (e : env) (q r : label -> R).
  Hypothesis (Hs : EnsembleRankedProbabilityScore str pth tth bin sfx d skipna fair enforce right_inclusive = Ok s).
  Hypothesis (HB : binned bin d v p t pth tth pv tv th uh ls).
  Hypothesis (Hv : statistic_value s p t v st) (HE : edges bin pth tth pv tv th uh ls e q r).

  Lemma score_parts : exists p' t' se z, compute_cdf v (TDataset pth) pv bin enforce right_inclusive = Ok p' /\ compute_cdf v (TDataset tth) tv bin enforce right_inclusive = Ok t' /\
    wf p' /\ wf t' /\ dget (dims p') bin = Some ls /\ dget (dims t') bin = Some ls /\
    cdf_error d skipna fair = Ok se /\ statistic_value se [("tmp", p')] [("tmp", t')] "tmp" z /\ reduce (np_sum skipna) [bin] z = Ok st.
  Proof.
    destruct HB as [HN Hp Ht Hth Huh Wp Wt Wth Wuh (D1 & D2 & D3) (B1 & B2) (N1 & N2) (L1 & L2)].
    destruct (rps_stat _ _ _ _ _ _ _ _ _ _ _ _ _ _ _ _ _ Hs HN Hp Ht Hv) as (p' & t' & se & z & E1 & E2 & E3 & E4 & E5). exists p', t', se, z.
    split; [exact E1|]. split; [exact E2|]. split; [eapply cdf_wf; eauto|]. split; [eapply cdf_wf; eauto|].
    split; [rewrite (cdf_dget_bin pth v bin enforce right_inclusive pv p' th E1 Hth Wth Wp D3 B1); exact L1|]. split; [rewrite (cdf_dget_bin tth v bin enforce right_inclusive tv t' uh E2 Huh Wuh Wt D3 B2); exact L2|]. auto.
  Qed.
  Let xsteps l := map (fun x => step right_inclusive x (q l)).

  Lemma fair_value xs y : fair = true -> ~ In d (dnames tv) -> members skipna (along pv d e) xs -> get tv e = Fin y -> (2 <= length xs)%nat ->
    get st e = Fin (rsum (map (fun l => (ecdf right_inclusive xs (q l) - step right_inclusive y (r l)) ^ 2 - ecdf right_inclusive xs (q l) * (1 - ecdf right_inclusive xs (q l)) / (size xs - 1)) ls)) /\
    get st e = Fin (rsum (map (fun l => sum_distinct (fun a b => (step right_inclusive a (q l) - step right_inclusive y (r l)) * (step right_inclusive b (q l) - step right_inclusive y (r l))) xs / (size xs * (size xs - 1))) ls)).
  Proof.
    intros Hf Hd Hx Hy L. destruct score_parts as (p' & t' & se & z & E1 & E2 & W1 & W2 & L1 & L2 & E3 & E4 & E5).
    destruct HB as [HN Hp Ht Hth Huh Wp Wt Wth Wuh (D1 & D2 & D3) (B1 & B2) (N1 & N2) _]. rewrite Hf in E3. injection E3 as <-.
    destruct (fair_error _ _ _ _ _ _ _ E4 W1 W2 D1 L1 L2) as [Lz Wz].
    assert (forall l, In l ls -> get z (upd e bin l) = Fin ((mean (xsteps l xs) - step right_inclusive y (r l)) ^ 2 - variance (xsteps l xs) / size (xsteps l xs)) /\
       get z (upd e bin l) = Fin (sum_distinct (fun a b => (a - step right_inclusive y (r l)) * (b - step right_inclusive y (r l))) (xsteps l xs) / (size (xsteps l xs) * (size (xsteps l xs) - 1)))) as K.
    { intros l Hl. destruct (HE l Hl) as [Q1 Q2].
      assert (~ In d (dnames t')) as Hd'.
      { intros K. apply Hd. revert K. eapply (proj1 (cdf_dnames tth v bin enforce right_inclusive tv t' uh E2 Huh Wuh Wt d D1 D2 N2)). }
      pose proof (cdf_members pth v bin enforce right_inclusive pv p' th E1 Hth Wth Wp B1 d skipna e l (q l) xs D1 D2 N1 Hx Q1) as M.
      pose proof (cdf_single tth v bin enforce right_inclusive tv t' uh E2 Huh Wuh Wt B2 e l (r l) y Hy Q2) as S1.
      destruct (C29_unbiased d skipna [("tmp", p')] [("tmp", t')] "tmp" p' t' z (upd e bin l) (xsteps l xs) (step right_inclusive y (r l))) as [U _]; auto; [repeat constructor; intros []|].
      assert (2 <= length (xsteps l xs))%nat as L' by (unfold xsteps; now rewrite map_length). destruct (U L') as [U1 U2]. split; [apply U2; reflexivity|exact U1]. }
    split.
    - rewrite (score_sum _ _ _ _ _ e _ E5 Wz Lz (fun l Hl => proj1 (K l Hl))). f_equal. apply rsum_map_ext. intros l Hl. unfold xsteps. rewrite mean_steps, var_steps by exact L. reflexivity.
    - rewrite (score_sum _ _ _ _ _ e _ E5 Wz Lz (fun l Hl => proj2 (K l Hl))). f_equal. apply rsum_map_ext. intros l Hl.
      assert (size (xsteps l xs) = size xs) as -> by (unfold xsteps, size; now rewrite map_length). f_equal. rewrite !sum2_diag_index. unfold xsteps. rewrite map_map. f_equal.
      unfold sum2. rewrite map_map. apply rsum_map_ext. intros a _. now rewrite map_map.
  Qed.
  Lemma fair_ensembles_value xs ys : fair = true -> In d (dnames tv) -> members skipna (along pv d e) xs -> members skipna (along tv d e) ys -> (2 <= length xs)%nat -> (2 <= length ys)%nat ->
    get st e = Fin (rsum (map (fun l => let F := ecdf right_inclusive xs (q l) in let G := ecdf right_inclusive ys (r l) in
      (F - G) ^ 2 - F * (1 - F) / (size xs - 1) - G * (1 - G) / (size ys - 1)) ls)).
  Proof.
    intros Hf Hd Hx Hy L L'. destruct score_parts as (p' & t' & se & z & E1 & E2 & W1 & W2 & L1 & L2 & E3 & E4 & E5).
    destruct HB as [HN Hp Ht Hth Huh Wp Wt Wth Wuh (D1 & D2 & D3) (B1 & B2) (N1 & N2) _]. rewrite Hf in E3. injection E3 as <-.
    destruct (fair_error _ _ _ _ _ _ _ E4 W1 W2 D1 L1 L2) as [Lz Wz]. cbv zeta. apply (score_sum _ _ _ _ _ e _ E5 Wz Lz). intros l Hl. destruct (HE l Hl) as [Q1 Q2].
    pose proof (cdf_members pth v bin enforce right_inclusive pv p' th E1 Hth Wth Wp B1 d skipna e l (q l) xs D1 D2 N1 Hx Q1) as M.
    pose proof (cdf_members tth v bin enforce right_inclusive tv t' uh E2 Huh Wuh Wt B2 d skipna e l (r l) ys D1 D2 N2 Hy Q2) as M'.
    destruct (C29_unbiased_ensembles d skipna [("tmp", p')] [("tmp", t')] "tmp" p' t' z (upd e bin l) (xsteps l xs) (map (fun x => step right_inclusive x (r l)) ys)) as [U _]; auto; [repeat constructor; intros []| |].
    - apply (cdf_dnames tth v bin enforce right_inclusive tv t' uh E2 Huh Wuh Wt d D1 D2 N2). exact Hd.
    - rewrite U by (unfold xsteps; now rewrite map_length). f_equal. rewrite <- unbiased_pairs2 by (unfold xsteps; now rewrite map_length). unfold xsteps. rewrite !mean_steps, !var_steps by assumption. reflexivity.
  Qed.
  Lemma unfair_value xs y : fair = false -> In d (dnames pv) -> ~ In d (dnames tv) -> members skipna (along pv d e) xs -> get tv e = Fin y -> xs <> [] ->
    get st e = Fin (rsum (map (fun l => (ecdf right_inclusive xs (q l) - step right_inclusive y (r l)) ^ 2) ls)).
  Proof.
    intros Hf Hdp Hd Hx Hy L. destruct score_parts as (p' & t' & se & z & E1 & E2 & W1 & W2 & L1 & L2 & E3 & E4 & E5).
    destruct HB as [HN Hp Ht Hth Huh Wp Wt Wth Wuh (D1 & D2 & D3) (B1 & B2) (N1 & N2) _]. rewrite Hf in E3.
    destruct (unfair_error _ _ _ _ _ _ E3 E4) as (pm & tm & M1 & M2 & ->).
    destruct (emean_dims _ _ _ _ bin ls (not_eq_sym D1) M1 W1 L1) as [Lp Wpm]. destruct (emean_dims _ _ _ _ bin ls (not_eq_sym D1) M2 W2 L2) as [Lt Wtm].
    apply (score_sum _ _ _ _ _ e _ E5); [unfold squared_error_var; apply wf_map; now apply wf_binop|unfold squared_error_var; cbn [da_map dims]; apply dget_binop; auto|].
    intros l Hl. destruct (HE l Hl) as [Q1 Q2].
    assert (~ In d (dnames t')) as Hd'.
    { intros K. apply Hd. revert K. eapply (proj1 (cdf_dnames tth v bin enforce right_inclusive tv t' uh E2 Huh Wuh Wt d D1 D2 N2)). }
    assert (In d (dnames p')) as Hdp' by (apply (cdf_dnames pth v bin enforce right_inclusive pv p' th E1 Hth Wth Wp d D1 D2 N1); exact Hdp).
    pose proof (cdf_members pth v bin enforce right_inclusive pv p' th E1 Hth Wth Wp B1 d skipna e l (q l) xs D1 D2 N1 Hx Q1) as M.
    pose proof (cdf_single tth v bin enforce right_inclusive tv t' uh E2 Huh Wuh Wt B2 e l (r l) y Hy Q2) as S1.
    unfold emean in M2. destruct (memb d (dnames t')) eqn:Q; [apply memb_In in Q; contradiction|]. injection M2 as <-.
    unfold squared_error_var. cbn [da_map binop get]. rewrite S1, (emean_value d skipna p' pm _ _ M1 W1 Hdp' M) by (destruct xs; [contradiction|discriminate]).
    unfold vsub. cbn [vneg vadd]. rewrite vsq_Fin, mean_steps. reflexivity.
  Qed.
End Score.

Lemma ecdf_single ri y q : ecdf ri [y] q = step ri y q.
Proof. unfold ecdf, step, below. cbn [filter]. destruct (if ri then Rleb y q else Rltb y q); cbn [length INR]; field. Qed.
Lemma ecdf_range ri xs q : xs <> [] -> 0 <= ecdf ri xs q <= 1.
Proof.
  intros N. unfold ecdf. assert (0 < INR (length xs)) as H by (destruct xs; [contradiction|apply lt_0_INR; cbn [length]; lia]).
  set (k := length (filter _ xs)). assert (k <= length xs)%nat as K by (unfold k; clear; induction xs as [|x xs IH]; cbn [filter length]; [lia|]; destruct (if ri then _ else _); cbn [length]; lia).
  apply le_INR in K. pose proof (pos_INR k). split; [apply Rmult_le_pos; [lra|left; now apply Rinv_0_lt_compat]|].
  apply (Rmult_le_reg_r (INR (length xs))); [exact H|]. unfold Rdiv. rewrite Rmult_assoc, Rinv_l by lra. lra.
Qed.

(** ** The fair score *)
(** The sum over the bins of the squared difference of the CDFs, less F(1-F)/(n-1); which is the
    average over ordered pairs of different members of the products of their differences from the
    observation: unbiased for members drawn independently. *)
Theorem C58_fair : forall str pth tth bin sfx d skipna enforce right_inclusive s p t v pv tv th uh ls st e q r xs y,
  EnsembleRankedProbabilityScore str pth tth bin sfx d skipna true enforce right_inclusive = Ok s ->
  binned bin d v p t pth tth pv tv th uh ls -> ~ In d (dnames tv) -> statistic_value s p t v st ->
  edges bin pth tth pv tv th uh ls e q r -> ensemble_of skipna (along pv d e) xs -> get tv e = Fin y -> (2 <= length xs)%nat ->
  let F l := ecdf right_inclusive xs (q l) in
  let G l := ecdf right_inclusive [y] (r l) in
  let D x l := ecdf right_inclusive [x] (q l) - G l in
  get st e = Fin (rsum (map (fun l => (F l - G l) ^ 2 - F l * (1 - F l) / (size xs - 1)) ls)) /\
  get st e = Fin (rsum (map (fun l => sum_distinct (fun a b => D a l * D b l) xs / (size xs * (size xs - 1))) ls)).
Proof.
  intros str pth tth bin sfx d sk enf ri s p t v pv tv th uh ls st e q r xs y Hs HB Hd Hv HE Hx Hy L F G D.
  destruct (fair_value _ _ _ _ _ _ _ _ _ _ _ _ _ _ _ _ _ _ _ _ _ _ _ Hs HB Hv HE xs y eq_refl Hd Hx Hy L) as [K1 K2]. split.
  - rewrite K1. f_equal. apply rsum_map_ext. intros l _. unfold F, G. now rewrite ecdf_single.
  - rewrite K2. f_equal. apply rsum_map_ext. intros l _. unfold D, G. f_equal. unfold sum_distinct. apply sum2_ext. intros i j _ _. now rewrite !ecdf_single.
Qed.
Print Assumptions C58_fair.
(** ... and with an ensemble of observations. *)
Theorem C58_fair_ensembles : forall str pth tth bin sfx d skipna enforce right_inclusive s p t v pv tv th uh ls st e q r xs ys,
  EnsembleRankedProbabilityScore str pth tth bin sfx d skipna true enforce right_inclusive = Ok s ->
  binned bin d v p t pth tth pv tv th uh ls -> In d (dnames tv) -> statistic_value s p t v st ->
  edges bin pth tth pv tv th uh ls e q r -> ensemble_of skipna (along pv d e) xs -> ensemble_of skipna (along tv d e) ys -> (2 <= length xs)%nat -> (2 <= length ys)%nat ->
  let F l := ecdf right_inclusive xs (q l) in
  let G l := ecdf right_inclusive ys (r l) in
  get st e = Fin (rsum (map (fun l => (F l - G l) ^ 2 - F l * (1 - F l) / (size xs - 1) - G l * (1 - G l) / (size ys - 1)) ls)).
Proof.
  intros str pth tth bin sfx d sk enf ri s p t v pv tv th uh ls st e q r xs ys Hs HB Hd Hv HE Hx Hy L L' F G.
  exact (fair_ensembles_value _ _ _ _ _ _ _ _ _ _ _ _ _ _ _ _ _ _ _ _ _ _ _ Hs HB Hv HE xs ys eq_refl Hd Hx Hy L L').
Qed.
Print Assumptions C58_fair_ensembles.

(** ** The biased score *)
(** The sum of the squared differences of the CDFs: between 0 and the number of bins, and 0
    exactly when the two CDFs agree at every threshold. *)
Theorem C58_biased : forall str pth tth bin sfx d skipna enforce right_inclusive s p t v pv tv th uh ls st e q r xs y,
  EnsembleRankedProbabilityScore str pth tth bin sfx d skipna false enforce right_inclusive = Ok s ->
  binned bin d v p t pth tth pv tv th uh ls -> In d (dnames pv) -> ~ In d (dnames tv) -> statistic_value s p t v st ->
  edges bin pth tth pv tv th uh ls e q r -> ensemble_of skipna (along pv d e) xs -> get tv e = Fin y -> xs <> [] ->
  let F l := ecdf right_inclusive xs (q l) in
  let G l := ecdf right_inclusive [y] (r l) in
  exists score, get st e = Fin score /\ score = rsum (map (fun l => (F l - G l) ^ 2) ls) /\
    0 <= score <= INR (length ls) /\ (score = 0 <-> forall l, In l ls -> F l = G l).
Proof.
  intros str pth tth bin sfx d sk enf ri s p t v pv tv th uh ls st e q r xs y Hs HB Hdp Hd Hv HE Hx Hy L F G.
  pose proof (unfair_value _ _ _ _ _ _ _ _ _ _ _ _ _ _ _ _ _ _ _ _ _ _ _ Hs HB Hv HE xs y eq_refl Hdp Hd Hx Hy L) as K.
  exists (rsum (map (fun l => (F l - G l) ^ 2) ls)). split; [rewrite K; f_equal; apply rsum_map_ext; intros l _; unfold F, G; now rewrite ecdf_single|]. split; [reflexivity|].
  assert (forall l, 0 <= (F l - G l) ^ 2 <= 1) as R01.
  { intros l. assert (0 <= F l <= 1) as A by now apply ecdf_range. assert (0 <= G l <= 1) as B by (apply ecdf_range; discriminate). split; [apply pow2_ge_0|].
    set (f := F l) in *. set (g := G l) in *. nra. }
  clear K. split.
  - clear - R01. induction ls as [|l ls IH]; [cbn; lra|]. cbn [map length]. rewrite rsum_cons, S_INR. specialize (R01 l). lra.
  - clear - R01. induction ls as [|l ls IH]; cbn [map]; [rewrite rsum_nil; split; [intros _ l []|reflexivity]|]. rewrite rsum_cons.
    assert (0 <= rsum (map (fun l => (F l - G l) ^ 2) ls)) as P by (apply rsum_map_nonneg; intros; apply R01). pose proof (R01 l) as [R _]. split.
    + intros H k [<-|Hk]; [|apply IH; [lra|exact Hk]]. assert ((F l - G l) ^ 2 = 0) as Z by lra. apply Rminus_diag_uniq. cbn [pow] in Z. rewrite Rmult_1_r in Z. apply Rmult_integral in Z. tauto.
    + intros H. rewrite (H l (or_introl eq_refl)), (proj2 IH); [ring|]. intros k Hk. apply H. now right.
Qed.
Print Assumptions C58_biased.

(** ** Missing values, skipna = False *)
Lemma cdf_NaN ds v bin enf ri a c th e l : compute_cdf v (TDataset ds) a bin enf ri = Ok c -> dget ds v = Some th -> wf th -> wf a -> ~ In bin (dnames a) ->
  get a e = NaN -> get c (upd e bin l) = NaN.
Proof. intros H Hth W Wa Hb Hn. rewrite (cdf_at ds v bin enf ri a c th H Hth W Wa), (wf_upd a e bin l Wa Hb), Hn. reflexivity. Qed.
Lemma missing_everywhere str pth tth bin sfx d sk fair enf ri s p t v pv tv th uh ls st e :
  EnsembleRankedProbabilityScore str pth tth bin sfx d sk fair enf ri = Ok s ->
  binned bin d v p t pth tth pv tv th uh ls -> In d (dnames pv) -> ~ In d (dnames tv) -> statistic_value s p t v st ->
  (if sk then ensemble_of true (along pv d e) [] else In NaN (along pv d e)) \/ get tv e = NaN ->
  exists z, reduce (np_sum sk) [bin] z = Ok st /\ wf z /\ dget (dims z) bin = Some ls /\ forall l, get z (upd e bin l) = NaN.
Proof.
  intros Hs HB Hdp Hd Hv HN.
  destruct (score_parts _ _ _ _ _ _ _ _ _ _ _ _ _ _ _ _ _ _ _ _ Hs HB Hv) as (p' & t' & se & z & E1 & E2 & W1 & W2 & L1 & L2 & E3 & E4 & E5).
  destruct HB as [_ Hp Ht Hth Huh Wp Wt Wth Wuh (D1 & D2 & D3) (B1 & B2) (N1 & N2) _].
  assert (~ In d (dnames t')) as Hd'.
  { intros K. apply Hd. revert K. eapply (proj1 (cdf_dnames tth v bin enf ri tv t' uh E2 Huh Wuh Wt d D1 D2 N2)). }
  assert (memb d (dnames t') = false) as Mt by now apply memb_false.
  assert (In d (dnames p')) as Hdp' by (apply (cdf_dnames pth v bin enf ri pv p' th E1 Hth Wth Wp d D1 D2 N1); exact Hdp). apply memb_In in Hdp'.
  assert (forall l m, get pv (upd e d m) = NaN -> get p' (upd (upd e bin l) d m) = NaN) as Kn.
  { intros l m Hm. assert (get p' (upd (upd e bin l) d m) = get p' (upd (upd e d m) bin l)) as ->.
    { apply (proj2 (proj2 W1)). intros n _. destruct (string_dec n d) as [->|]; [rewrite upd_same, (upd_other _ bin) by exact D1; now rewrite upd_same|].
      rewrite (upd_other _ d) by assumption. destruct (string_dec n bin) as [->|]; [now rewrite !upd_same|]. now rewrite !upd_other. }
    eapply cdf_NaN; eauto. }
  assert (forall l, get t' (upd e bin l) = NaN \/ np_mean sk (along p' d (upd e bin l)) = NaN) as K.
  { intros l. destruct HN as [HN|HN]; [right|left; eapply cdf_NaN; eauto].
    unfold along in *. unfold labels_of in *. rewrite (cdf_dget_member pth v bin enf ri pv p' th E1 Hth Wth Wp d D1 D2 N1). destruct (dget (dims pv) d) as [ms|].
    - destruct sk.
      + apply np_mean_empty. unfold members. unfold ensemble_of in HN. cbn [map] in *. unfold valid. clear - HN Kn. induction ms as [|m ms IH]; [reflexivity|]. cbn [map filter] in *.
        destruct (get pv (upd e d m)) eqn:G; cbn [isnan negb] in HN; try discriminate. rewrite (Kn l m G). cbn [isnan negb]. now apply IH.
      + apply np_mean_NaN. apply in_map_iff in HN. destruct HN as (m & Hm & Im). apply in_map_iff. exists m. split; [now apply Kn|exact Im].
    - cbn [map] in *. destruct sk; [now apply np_mean_empty|contradiction]. }
  exists z. split; [exact E5|]. destruct fair.
  - injection E3 as <-. destruct (fair_error _ _ _ _ _ _ _ E4 W1 W2 D1 L1 L2) as [Lz Wz]. split; [exact Wz|]. split; [exact Lz|]. intros l0.
    apply (unbiased_stat _ _ _ _ _ p' t') in E4; try reflexivity; [|repeat constructor; intros []].
    unfold unbiased_mse_var in E4. rewrite Hdp', Mt in E4. destruct (ensemble_bias d sk p') as [[m b]|] eqn:E; [|discriminate]. cbn [bind fst snd] in E4. injection E4 as <-. cbn [binop da_map scalar get].
    assert (vsub (get m (upd e bin l0)) (get t' (upd e bin l0)) = NaN) as ->; [|reflexivity].
    destruct (K l0) as [-> | Kz]; [apply vsub_NaN_r|].
    unfold ensemble_bias in E. destruct (reduce (np_mean sk) [d] p') as [m'|] eqn:Em; [|discriminate]. cbn [bind] in E. destruct (reduce (np_var sk) [d] p'); [|discriminate]. cbn [bind] in E.
    assert (m = m') as -> by (destruct sk; [destruct (reduce np_count [d] p')|destruct (size_of d p')]; [|discriminate| |discriminate]; cbn [bind] in E; congruence).
    rewrite (reduce_along _ _ _ _ (upd e bin l0) (proj1 W1) Em), Kz. reflexivity.
  - destruct (unfair_error _ _ _ _ _ _ E3 E4) as (pm & tm & M1 & M2 & ->).
    destruct (emean_dims _ _ _ _ bin ls (not_eq_sym D1) M1 W1 L1) as [Lp Wpm]. destruct (emean_dims _ _ _ _ bin ls (not_eq_sym D1) M2 W2 L2) as [Lt Wtm].
    unfold squared_error_var. split; [apply wf_map; now apply wf_binop|]. split; [cbn [da_map dims]; apply dget_binop; auto|]. intros l0. cbn [da_map binop get].
    unfold emean in M1, M2. rewrite Hdp' in M1. rewrite Mt in M2. injection M2 as <-.
    assert (vsub (get pm (upd e bin l0)) (get t' (upd e bin l0)) = NaN) as ->; [|reflexivity].
    destruct (K l0) as [-> | Kz]; [apply vsub_NaN_r|]. rewrite (reduce_along _ _ _ _ (upd e bin l0) (proj1 W1) M1), Kz. reflexivity.
Qed.
(** Without skipna_ensemble a missing member or observation makes the score NaN. *)
Theorem C58_missing : forall str pth tth bin sfx d fair enforce right_inclusive s p t v pv tv th uh ls st e,
  EnsembleRankedProbabilityScore str pth tth bin sfx d false fair enforce right_inclusive = Ok s ->
  binned bin d v p t pth tth pv tv th uh ls -> In d (dnames pv) -> ~ In d (dnames tv) -> statistic_value s p t v st -> ls <> [] ->
  In NaN (along pv d e) \/ get tv e = NaN -> get st e = NaN.
Proof.
  intros str pth tth bin sfx d fair enf ri s p t v pv tv th uh ls st e Hs HB Hdp Hd Hv Hl HN.
  destruct (missing_everywhere _ _ _ _ _ _ _ _ _ _ _ _ _ _ _ _ _ _ _ _ e Hs HB Hdp Hd Hv HN) as (z & E & Wz & Lz & Nz).
  rewrite (reduce_along _ _ _ _ e (proj1 Wz) E), (along_Some _ _ _ _ Lz). unfold np_sum. apply vsum_NaN. destruct ls as [|l ls]; [contradiction|]. left. apply Nz.
Qed.
Print Assumptions C58_missing.
(** Finding: with skipna_ensemble a forecast without any member that is not NaN, or a missing
    observation, gets the perfect score 0 (the sum over the bins skips the NaNs, too). *)
Theorem C58_missing_refuted : forall str pth tth bin sfx d fair enforce right_inclusive s p t v pv tv th uh ls st e,
  EnsembleRankedProbabilityScore str pth tth bin sfx d true fair enforce right_inclusive = Ok s ->
  binned bin d v p t pth tth pv tv th uh ls -> In d (dnames pv) -> ~ In d (dnames tv) -> statistic_value s p t v st ->
  ensemble_of true (along pv d e) [] \/ get tv e = NaN -> get st e = Fin 0.
Proof.
  intros str pth tth bin sfx d fair enf ri s p t v pv tv th uh ls st e Hs HB Hdp Hd Hv HN.
  destruct (missing_everywhere _ _ _ _ _ _ _ _ _ _ _ _ _ _ _ _ _ _ _ _ e Hs HB Hdp Hd Hv HN) as (z & E & Wz & Lz & Nz).
  rewrite (reduce_along _ _ _ _ e (proj1 Wz) E), (along_Some _ _ _ _ Lz). unfold np_sum, valid. clear - Nz.
  induction ls as [|l ls IH]; [reflexivity|]. cbn [map filter]. rewrite Nz. exact IH.
Qed.
Print Assumptions C58_missing_refuted.

(** ** Errors *)
(** Thresholds must be given for every variable scored; with enforce_monotonicity, thresholds
    without a time dimension that do not increase strictly along the bins are rejected; the fair
    score of a forecast without members is an error. *)
Lemma static_select th chunk : (forall n, In n time_dims -> ~ In n (dnames th)) -> select_by_time th chunk = Ok th.
Proof.
  intros H. assert (forall n, In n time_dims -> memb n (dnames th) = false) as M by (intros n Hn; apply memb_false; now apply H).
  unfold select_by_time, subsetb. cbn [forallb]. rewrite (M "valid_time"), (M "init_time"), (M "dayofyear") by (cbn; auto). cbn [andb].
  now destruct (memb "init_time" (dnames chunk) && (memb "lead_time" (dnames chunk) && true))%bool, (memb "valid_time" (dnames chunk)).
Qed.
Theorem C58_errors : forall str pth tth bin sfx d skipna fair enforce right_inclusive s v pv tv,
  EnsembleRankedProbabilityScore str pth tth bin sfx d skipna fair enforce right_inclusive = Ok s ->
  (dget pth v = None -> compute s [(v, pv)] [(v, tv)] = Err KeyError) /\
  (forall th, dget pth v = Some th -> wf th -> (forall n, In n time_dims -> ~ In n (dnames th)) -> In bin (dnames th) ->
     enforce = true -> ~ increasing th bin -> compute s [(v, pv)] [(v, tv)] = Err ValueError) /\
  (forall th, dget pth v = Some th -> wf th -> wf pv -> d <> bin -> ~ In d time_dims -> ~ In d (dnames th) ->
     fair = true -> ~ In d (dnames pv) -> forall raw, compute s [(v, pv)] [(v, tv)] <> Ok raw).
Proof.
  intros str pth tth bin sfx d sk fair enf ri s v pv tv H. unfold EnsembleRankedProbabilityScore in H.
  destruct (ContinuousToCDF str "predictions" _ _ _ _ _) as [wp|] eqn:Ep; [|discriminate]. cbn [bind] in H.
  destruct (ContinuousToCDF str "targets" _ _ _ _ _) as [wt|] eqn:Et; [|discriminate]. cbn [bind] in H.
  destruct (cdf_error d sk fair) as [se|] eqn:Es; [|discriminate]. cbn [bind] in H. injection H as <-. cbn [compute per_named_variable dget fst snd].
  destruct (eq_dec v v); [|contradiction]. unfold ensemble_rps_var. rewrite (cdf_fun _ _ _ _ _ _ _ _ Ep), (cdf_fun _ _ _ _ _ _ _ _ Et). split; [|split].
  - intros N. unfold compute_cdf, chosen_thresholds. unfold dgetE. rewrite N. reflexivity.
  - intros th Hth W Hst Hb -> Hi.
    assert (compute_cdf v (TDataset pth) pv bin true ri = Err ValueError) as ->; [|reflexivity].
    unfold compute_cdf. cbn [chosen_thresholds]. unfold dgetE. rewrite Hth. cbn [bind]. rewrite static_select by exact Hst. cbn [bind].
    destruct (da_diff bin th) as [df|er] eqn:E.
    + cbn [bind]. destruct (all_positive df) eqn:A; [|reflexivity]. exfalso. apply Hi. eapply diff_positive; eauto.
    + unfold da_diff in E. apply memb_In in Hb. rewrite Hb in E. discriminate.
  - intros th Hth W Wp D1 D2 N1 -> Hd raw. injection Es as <-.
    destruct (compute_cdf v (TDataset pth) pv bin enf ri) as [p'|] eqn:E1; [|discriminate]. cbn [bind].
    destruct (compute_cdf v (TDataset tth) tv bin enf ri) as [t'|] eqn:E2; [|discriminate]. cbn [bind].
    assert (~ In d (dnames p')) as Hd'.
    { intros K. apply Hd. revert K. eapply (proj1 (cdf_dnames pth v bin enf ri pv p' th E1 Hth W Wp d D1 D2 N1)). }
    destruct (C29_no_ensemble d sk "tmp" p' t' Hd') as [_ ->]. discriminate.
Qed.
Print Assumptions C58_errors.

(** ** Findings *)
Definition ex_th : vars da := [("t", mkDa [("bin", [LZ 0; LZ 1])] (fun e => if eqb (e "bin") (LZ 0) then Fin 0 else Fin 1) [])].
Definition ex_fc (x y : val) : vars da := [("t", mkDa [("number", [LZ 0; LZ 1])] (fun e => if eqb (e "number") (LZ 0) then x else y) [])].
Definition ex_obs (y : val) : vars da := [("t", scalar y)].
Definition ex_label (l : label) : string := "".

Lemma ex_cdf ri e0 : compute_cdf "t" (TDataset ex_th) e0 "bin" true ri = compute_cdf "t" (TDataset ex_th) e0 "bin" false ri.
Proof.
  unfold compute_cdf. cbn [chosen_thresholds]. unfold dgetE, ex_th. cbn [dget]. destruct (eq_dec "t" "t"); [|congruence]. cbn [bind]. rewrite static_select by (intros n Hn; cbn in Hn; intros [<-|[]]; intuition discriminate).
  cbn [bind]. match goal with |- context [da_diff "bin" ?a] => destruct (da_diff "bin" a) as [df|] eqn:E; [|discriminate] end. injection E as <-. cbn [bind].
  match goal with |- context [all_positive ?a] => assert (all_positive a = true) as -> end; [|reflexivity].
  apply forallb_forall. intros e1 He. cbn in He. destruct He as [<-|[]]. cbn -[Rltb]. apply Rltb_true. lra.
Qed.

Definition ex_p x y := mkDa [("number", [LZ 0; LZ 1])] (fun e => if eqb (e "number") (LZ 0) then x else y) [].
Lemma wf_ex_p x y : wf (ex_p x y).
Proof.
  split; [repeat constructor; intros []|]. split; [intros d ls [[= <- <-]|[]]; repeat constructor; cbn; intuition congruence|]. intros e e' H. cbn [ex_p get]. rewrite (H "number") by now left. reflexivity.
Qed.
Example C58_binned : forall x y z, exists th, dget ex_th "t" = Some th /\ binned "bin" "number" "t" (ex_fc x y) (ex_obs z) ex_th ex_th (ex_p x y) (scalar z) th th [LZ 0; LZ 1] /\
  forall e, edges "bin" ex_th ex_th (ex_p x y) (scalar z) th th [LZ 0; LZ 1] e (fun l => if eqb l (LZ 0) then 0 else 1) (fun l => if eqb l (LZ 0) then 0 else 1).
Proof.
  intros x y z. eexists. split; [reflexivity|].
  match goal with |- binned _ _ _ _ _ _ _ _ _ ?a _ _ /\ _ => assert (wf a) as W end.
  { split; [repeat constructor; intros []|]. split; [intros d ls [[= <- <-]|[]]; repeat constructor; cbn; intuition congruence|]. intros e e' H. cbn [get]. rewrite (H "bin") by now left. reflexivity. }
  split.
  - constructor; try reflexivity; try exact W.
    + repeat constructor; intros [].
    + apply wf_ex_p.
    + apply wf_scalar.
    + unfold time_dims. cbn. intuition discriminate.
    + cbn. intuition discriminate.
    + cbn. intuition discriminate.
    + split; reflexivity.
  - intros e l [<-|[<-|[]]]; split; reflexivity.
Qed.
Example C58_example : forall (ri fair : bool) x y z, exists s st, EnsembleRankedProbabilityScore ex_label ex_th ex_th "bin" "x" "number" false fair true ri = Ok s /\
  statistic_value s (ex_fc x y) (ex_obs z) "t" st.
Proof.
  intros ri fair x y z.
  assert (exists se, cdf_error "number" false fair = Ok se /\ exists r, (do p' <- compute_cdf "t" (TDataset ex_th) (ex_p x y) "bin" false ri; do t' <- compute_cdf "t" (TDataset ex_th) (scalar z) "bin" false ri;
     do r <- compute se [("tmp", p')] [("tmp", t')]; do x <- dgetE r "tmp"; reduce (np_sum false) ["bin"] x) = Ok r) as (se & Hs & r & Hr).
  { destruct fair; eexists; (split; [reflexivity|]); eexists; reflexivity. }
  eexists. exists r. split.
  - unfold EnsembleRankedProbabilityScore, ContinuousToCDF. cbn [threshold_suffix bind input_transform memb existsb]. unfold input_transform. cbn [memb existsb eqb]. rewrite Hs. reflexivity.
  - exists [("t", r)]. cbn [compute per_named_variable ex_fc ex_obs dget fst snd]. destruct (eq_dec "t" "t"); [|congruence]. unfold ensemble_rps_var. cbn [transform_fn]. fold (ex_p x y). rewrite !ex_cdf, Hr. split; reflexivity.
Qed.
(** The fair score against one observation is not negative and at most the biased one. *)
Theorem C58_fair_bounds : forall str pth tth bin sfx d skipna enforce right_inclusive s p t v pv tv th uh ls st e q r xs y,
  EnsembleRankedProbabilityScore str pth tth bin sfx d skipna true enforce right_inclusive = Ok s ->
  binned bin d v p t pth tth pv tv th uh ls -> ~ In d (dnames tv) -> statistic_value s p t v st ->
  edges bin pth tth pv tv th uh ls e q r -> ensemble_of skipna (along pv d e) xs -> get tv e = Fin y -> (2 <= length xs)%nat ->
  exists score, get st e = Fin score /\ 0 <= score <= rsum (map (fun l => (ecdf right_inclusive xs (q l) - ecdf right_inclusive [y] (r l)) ^ 2) ls).
Proof.
  intros str pth tth bin sfx d sk enf ri s p t v pv tv th uh ls st e q r xs y Hs HB Hd Hv HE Hx Hy L.
  destruct (C58_fair _ _ _ _ _ _ _ _ _ _ _ _ _ _ _ _ _ _ _ _ _ _ _ _ Hs HB Hd Hv HE Hx Hy L) as [K1 K2]. eexists. split; [exact K1|]. assert (forall a b : R, Fin a = Fin b -> a = b) as FI by (intros; congruence). rewrite K1 in K2. apply FI in K2. clear FI.
  apply size_ge2 in L. assert (xs <> []) as N by (intros ->; unfold size in L; simpl in L; lra). split.
  - rewrite K2. apply rsum_map_nonneg. intros l _. apply Rmult_le_pos; [|left; apply Rinv_0_lt_compat; nra].
    unfold sum_distinct, sum2. apply rsum_map_nonneg. intros i _. apply rsum_map_nonneg. intros j _. destruct (Nat.eqb i j); [lra|].
    rewrite !ecdf_single. unfold step. destruct (below _ y _), (below _ (nth i xs 0) _), (below _ (nth j xs 0) _); lra.
  - assert (forall l, ecdf ri xs (q l) * (1 - ecdf ri xs (q l)) / (size xs - 1) >= 0) as P.
    { intros l. pose proof (ecdf_range ri xs (q l) N) as [A B]. apply Rle_ge, Rmult_le_pos; [nra|left; apply Rinv_0_lt_compat; lra]. }
    clear - P. induction ls as [|l ls IH]; cbn [map]; [lra|]. rewrite !rsum_cons. specialize (P l). lra.
Qed.
Print Assumptions C58_fair_bounds.

(** Finding: the name does not tell left-inclusive from right-inclusive scores. *)
Theorem C58_name_refuted : exists s s' st st', 
  EnsembleRankedProbabilityScore ex_label ex_th ex_th "bin" "x" "number" false false true true = Ok s /\
  EnsembleRankedProbabilityScore ex_label ex_th ex_th "bin" "x" "number" false false true false = Ok s' /\
  unique_name s = unique_name s' /\
  statistic_value s (ex_fc (Fin 1) (Fin 1)) (ex_obs (Fin 5)) "t" st /\ statistic_value s' (ex_fc (Fin 1) (Fin 1)) (ex_obs (Fin 5)) "t" st' /\
  get st env0 = Fin 1 /\ get st' env0 = Fin 0.
Proof.
  destruct (C58_example true false (Fin 1) (Fin 1) (Fin 5)) as (s & st & H1 & H2). destruct (C58_example false false (Fin 1) (Fin 1) (Fin 5)) as (s' & st' & H1' & H2').
  exists s, s', st, st'. split; [exact H1|]. split; [exact H1'|]. split.
  { cbn in H1, H1'. injection H1 as <-. injection H1' as <-. reflexivity. }
  split; [exact H2|]. split; [exact H2'|]. destruct (C58_binned (Fin 1) (Fin 1) (Fin 5)) as (th & _ & B & E).
  assert (In "number" (dnames (ex_p (Fin 1) (Fin 1)))) as I1 by now left. assert (~ In "number" (dnames (scalar (Fin 5)))) as I2 by intros [].
  assert (ensemble_of false (along (ex_p (Fin 1) (Fin 1)) "number" env0) [1; 1]) as M by reflexivity.
  destruct (C58_biased _ _ _ _ _ _ _ _ _ _ _ _ _ _ _ _ _ _ _ env0 _ _ [1; 1] 5 H1 B I1 I2 H2 (E env0) M eq_refl ltac:(discriminate)) as (c & -> & -> & _).
  destruct (C58_biased _ _ _ _ _ _ _ _ _ _ _ _ _ _ _ _ _ _ _ env0 _ _ [1; 1] 5 H1' B I1 I2 H2' (E env0) M eq_refl ltac:(discriminate)) as (c' & -> & -> & _).
  assert (forall a b, a <= b -> Rleb a b = true) as T1 by (intros; now apply Rleb_true). assert (forall a b, b < a -> Rleb a b = false) as T2 by (intros; now apply Rleb_false).
  assert (forall a b, a < b -> Rltb a b = true) as T3 by (intros; now apply Rltb_true). assert (forall a b, b <= a -> Rltb a b = false) as T4 by (intros; now apply Rltb_false).
  assert (eqb (LZ 0) (LZ 0) = true) as Q0 by reflexivity. assert (eqb (LZ 1) (LZ 0) = false) as Q1 by reflexivity.
  split; f_equal; cbn [map]; rewrite !rsum_cons, rsum_nil, Q0, Q1; unfold ecdf; cbn [filter].
  - rewrite (T2 1 0), (T2 5 0), (T1 1 1), (T2 5 1) by lra. cbn [length INR]. field.
  - rewrite (T4 1 0), (T4 5 0), (T4 1 1), (T4 5 1) by lra. cbn [length INR]. field.
Qed.
Print Assumptions C58_name_refuted.
