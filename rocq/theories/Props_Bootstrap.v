(** C50 (bootstrap) and C51: bootstrap.py, base.py. *)
From Coq Require Import String ZArith List Bool Reals Lra Lia Permutation Sorted.
Import ListNotations.
From Verif Require Import Prelude Values Model_XArray Model_Ensemble Model_Bootstrap Spec_Bootstrap Proofs_Bootstrap.
Local Open Scope R_scope.
Local Open Scope list_scope.

(** ** C50: bootstrap intervals and p-values *)

Lemma first_last vs : usable vs ->
  (exists x, In (Fin x) vs /\ x = nth 0 (sort (numbers vs)) 0) /\
  (exists x, In (Fin x) vs /\ x = nth (length (sort (numbers vs)) - 1) (sort (numbers vs)) 0).
Proof.
  intros U. apply usable_numbers in U. destruct U as [U _].
  assert (length (sort (numbers vs)) <> 0)%nat as L by (destruct (sort (numbers vs)); [contradiction|discriminate]).
  assert (forall i, (i < length (sort (numbers vs)))%nat -> In (Fin (nth i (sort (numbers vs)) 0)) vs) as K.
  { intros i Hi. apply numbers_In. eapply Permutation_in; [apply Permutation_sym, sort_perm|]. now apply nth_In. }
  split; eexists; (split; [|reflexivity]); apply K; lia.
Qed.

(** For every level between 0 and 1 the interval exists, its ends are in order and between
    the smallest and the largest replicate. *)
Theorem C50_bootstrap_interval : forall vs alpha, usable vs -> 0 <= alpha <= 1 ->
  exists l u, bootstrap_confidence_interval alpha vs = Ok (Fin l, Fin u) /\ l <= u /\
    exists x y, In (Fin x) vs /\ In (Fin y) vs /\ x <= l /\ u <= y.
Proof.
  intros vs alpha U Ha. unfold bootstrap_confidence_interval. rewrite !nanquantile_Ok by (auto; lra). cbn [bind].
  pose proof (usable_numbers vs U) as [N _]. pose proof (sort_sorted (numbers vs)) as S.
  eexists. eexists. split; [reflexivity|]. split; [apply quantile_mono; auto; lra|].
  destruct (first_last vs U) as [(x & Ix & ->) (y & Iy & ->)]. eexists. eexists. split; [exact Ix|]. split; [exact Iy|].
  split; apply quantile_range; auto; lra.
Qed.
Print Assumptions C50_bootstrap_interval.

(** A smaller alpha gives an interval that contains the other one. *)
Theorem C50_bootstrap_nested : forall vs a a' l u l' u', usable vs -> 0 <= a -> a <= a' -> a' <= 1 ->
  bootstrap_confidence_interval a vs = Ok (Fin l, Fin u) -> bootstrap_confidence_interval a' vs = Ok (Fin l', Fin u') ->
  l <= l' /\ u' <= u.
Proof.
  intros vs a a' l u l' u' U H0 H H1. unfold bootstrap_confidence_interval. rewrite !nanquantile_Ok by (auto; lra). cbn [bind].
  pose proof (usable_numbers vs U) as [N _]. pose proof (sort_sorted (numbers vs)) as S.
  intros [= <- <-] [= <- <-]. split; apply quantile_mono; auto; lra.
Qed.
Print Assumptions C50_bootstrap_nested.

Definition below (x : R) (vs : list val) : nat := length (filter (fun v => vltb v (Fin x)) vs).
Definition at_or_below (x : R) (vs : list val) : nat := length (filter (fun v => vleb v (Fin x)) vs).
Definition valid_replicates (vs : list val) : nat := length (filter (fun v => negb (isnan v)) vs).

Lemma filter_perm_length {A} (f : A -> bool) l l' : Permutation l l' -> length (filter f l) = length (filter f l').
Proof. induction 1; cbn; auto; repeat (destruct (f _); cbn; auto). congruence. Qed.
Lemma below_numbers x vs : (forall v, In v vs -> v = NaN \/ exists y, v = Fin y) ->
  below x vs = length (filter (fun y => Rltb y x) (sort (numbers vs))) /\
  at_or_below x vs = length (filter (fun y => Rleb y x) (sort (numbers vs))) /\
  valid_replicates vs = length (sort (numbers vs)).
Proof.
  intros H. rewrite <- !(filter_perm_length _ _ _ (sort_perm (numbers vs))), <- (Permutation_length (sort_perm (numbers vs))).
  unfold below, at_or_below, valid_replicates. induction vs as [|v vs IH]; [repeat split|].
  destruct IH as (I1 & I2 & I3); [intros w Hw; apply H; now right|]. destruct (H v) as [->|[y ->]]; [now left| |].
  - cbn. repeat split; auto.
  - cbn [numbers flat_map app]. fold (numbers vs). cbn [filter length]. cbn [isnan negb]. cbn [length]. rewrite I3.
    replace (vltb (Fin y) (Fin x)) with (Rltb y x) by reflexivity.
    replace (vleb (Fin y) (Fin x)) with (Rleb y x).
    2:{ unfold vleb. cbn. unfold Rleb, Rltb, Reqb. destruct (Rle_dec y x), (Rlt_dec y x), (Req_EM_T y x); cbn; auto; lra. }
    destruct (Rltb y x), (Rleb y x); cbn [length]; rewrite ?I1, ?I2; auto.
Qed.
Lemma count_prefix (f : R -> bool) xs k : (k <= length xs)%nat -> (forall i, (i < length xs)%nat -> f (nth i xs 0) = true -> (i < k)%nat) ->
  (length (filter f xs) <= k)%nat.
Proof.
  revert k. induction xs as [|x xs IH]; intros k L H; [cbn; lia|]. cbn [filter]. destruct (f x) eqn:E.
  - assert (0 < k)%nat by (apply (H 0%nat); cbn; auto; lia). cbn [length] in *. destruct k as [|k]; [lia|]. apply le_n_S. apply IH; [lia|].
    intros i Hi Hf. specialize (H (S i) ltac:(lia) Hf). lia.
  - cbn [length] in *. destruct k as [|k].
    + apply IH; [lia|]. intros i Hi Hf. specialize (H (S i) ltac:(lia) Hf). lia.
    + apply le_S. apply IH; [lia|]. intros i Hi Hf. specialize (H (S i) ltac:(lia) Hf). lia.
Qed.
Lemma count_at_least (f : R -> bool) xs k : (k <= length xs)%nat -> (forall i, (i < k)%nat -> f (nth i xs 0) = true) ->
  (k <= length (filter f xs))%nat.
Proof.
  revert k. induction xs as [|x xs IH]; intros k L H; [cbn in *; lia|]. destruct k as [|k]; [lia|]. cbn [filter].
  assert (f x = true) as -> by (apply (H 0%nat); lia). cbn [length] in *. apply le_n_S. apply IH; [lia|]. intros i Hi. apply (H (S i)). lia.
Qed.

(** What the ends mean: of the n valid replicates, the share (alpha/2) of n - 1, up to
    rounding to one replicate, lies below the lower end; and as many above the upper end. *)
Theorem C50_bootstrap_percentiles : forall vs alpha l u, usable vs -> 0 <= alpha <= 1 ->
  bootstrap_confidence_interval alpha vs = Ok (Fin l, Fin u) ->
  let n := INR (valid_replicates vs - 1) in
  INR (below l vs) < alpha / 2 * n + 1 /\ alpha / 2 * n < INR (at_or_below l vs) /\
  INR (below u vs) < (1 - alpha / 2) * n + 1 /\ (1 - alpha / 2) * n < INR (at_or_below u vs).
Proof.
  intros vs alpha l u U Ha. unfold bootstrap_confidence_interval. rewrite !nanquantile_Ok by (auto; lra). cbn [bind]. intros [= <- <-].
  pose proof (usable_numbers vs U) as [N _]. pose proof (sort_sorted (numbers vs)) as S. cbv zeta.
  assert (forall q, 0 <= q <= 1 -> let x := sorted_quantile q (sort (numbers vs)) in
     INR (below x vs) < q * INR (valid_replicates vs - 1) + 1 /\ q * INR (valid_replicates vs - 1) < INR (at_or_below x vs)) as K.
  { intros q Hq x. destruct (below_numbers x vs (proj1 U)) as (-> & -> & ->).
    set (xs := sort (numbers vs)) in *. assert (length xs <> 0)%nat as L by (destruct xs; [contradiction|discriminate]).
    set (h := q * INR (length xs - 1)). assert (0 <= h <= INR (length xs - 1)) as Hh.
    { pose proof (pos_INR (length xs - 1)). unfold h. split; [apply Rmult_le_pos; lra|]. rewrite <- (Rmult_1_l (INR (length xs - 1))) at 2. apply Rmult_le_compat_r; lra. }
    destruct (floor_nat h _ Hh) as [Lo E]. set (lo := Z.to_nat (Int_part h)) in *.
    pose proof (at_position_bounds xs h S N Hh) as B. cbv zeta in B. fold lo in B.
    assert (x = at_position xs h) as Ex by reflexivity. rewrite <- Ex in B.
    pose proof (Int_part_spec h) as [I1 I2]. rewrite E in I1, I2. split.
    - destruct (Req_dec h (INR lo)) as [Q|Q].
      + assert (x = nth lo xs 0) as X. { rewrite Ex, Q. apply at_position_nth. lia. }
        assert (length (filter (fun y => Rltb y x) xs) <= lo)%nat as C.
        { apply count_prefix; [lia|]. intros i Hi Hf. apply Rltb_true in Hf. destruct (Nat.lt_ge_cases i lo); auto. exfalso.
          assert (nth lo xs 0 <= nth i xs 0) by (apply sorted_le; auto; lia). lra. }
        apply le_INR in C. lra.
      + assert (Datatypes.S lo <= length xs - 1)%nat as L2.
        { destruct (Nat.eq_dec lo (length xs - 1)) as [W|W]; [|lia]. exfalso. rewrite <- W in Hh. lra. }
        assert (length (filter (fun y => Rltb y x) xs) <= Datatypes.S lo)%nat as C.
        { apply count_prefix; [lia|]. intros i Hi Hf. apply Rltb_true in Hf. destruct (Nat.lt_ge_cases i (Datatypes.S lo)); auto. exfalso.
          replace (Nat.min (Datatypes.S lo) (length xs - 1)) with (Datatypes.S lo) in B by lia.
          assert (nth (Datatypes.S lo) xs 0 <= nth i xs 0) by (apply sorted_le; auto; lia). lra. }
        apply le_INR in C. rewrite S_INR in C. lra.
    - assert (Datatypes.S lo <= length (filter (fun y => Rleb y x) xs))%nat as C.
      { apply count_at_least; [lia|]. intros i Hi. apply Rleb_true. assert (nth i xs 0 <= nth lo xs 0) by (apply sorted_le; auto; lia). lra. }
      apply le_INR in C. rewrite S_INR in C. lra. }
  destruct (K (alpha / 2)) as [K1 K2]; [lra|]. destruct (K (1 - alpha / 2)) as [K3 K4]; [lra|]. auto.
Qed.
Print Assumptions C50_bootstrap_percentiles.

(** p-values are probabilities. *)
Theorem C50_bootstrap_p_range : forall vs null_value, usable vs ->
  exists p, bootstrap_p_value null_value vs = Fin p /\ 0 <= p <= 1.
Proof.
  intros vs x U. rewrite p_value_ecdf by exact U. eexists. split; [reflexivity|].
  pose proof (ecdf_range x (sort (numbers vs)) (proj1 (usable_numbers vs U)) (sort_sorted _)) as R0.
  unfold Rmin. destruct (Rle_dec _ _); lra.
Qed.
Print Assumptions C50_bootstrap_p_range.

(** Tests and intervals agree: a null value strictly outside the interval is rejected, a null
    value strictly inside is not (at an end of the interval ties decide). *)
Theorem C50_bootstrap_duality : forall vs alpha null_value l u, usable vs -> 0 <= alpha <= 1 ->
  bootstrap_confidence_interval alpha vs = Ok (Fin l, Fin u) ->
  (null_value < l \/ u < null_value -> significant alpha (bootstrap_p_value null_value vs) = true) /\
  (l < null_value < u -> significant alpha (bootstrap_p_value null_value vs) = false).
Proof.
  intros vs alpha x l u U Ha. unfold bootstrap_confidence_interval. rewrite !nanquantile_Ok by (auto; lra). cbn [bind]. intros [= <- <-].
  rewrite p_value_ecdf by exact U. pose proof (usable_numbers vs U) as [N _]. pose proof (sort_sorted (numbers vs)) as S.
  set (xs := sort (numbers vs)) in *.
  assert (forall p, significant alpha (Fin p) = true <-> p <= alpha) as K.
  { intros p. unfold significant, vleb. cbn. rewrite orb_true_iff, Rltb_true, Reqb_true. split; [intros [?|?]; lra|intros; lra]. }
  split; intros H.
  - apply K. now apply outside_p.
  - destruct (significant _ _) eqn:E; auto. apply K in E. apply small_p in E; auto. lra.
Qed.
Print Assumptions C50_bootstrap_duality.

(** Without any valid replicate everything is NaN and nothing is significant. *)
Theorem C50_bootstrap_no_data : forall vs alpha null_value, (forall v, In v vs -> v = NaN) -> 0 <= alpha <= 1 ->
  bootstrap_confidence_interval alpha vs = Ok (NaN, NaN) /\ bootstrap_p_value null_value vs = NaN /\
  significant alpha (bootstrap_p_value null_value vs) = false.
Proof.
  intros vs alpha x H Ha. assert (numbers vs = []) as E.
  { induction vs as [|v vs IH]; auto. cbn. rewrite (H v) by (now left). apply IH. intros w Hw. apply H. now right. }
  unfold bootstrap_confidence_interval, nanquantile, bootstrap_p_value. rewrite E. cbn [sort fold_right].
  replace (Rltb (alpha / 2) 0) with false by (symmetry; apply Rltb_false; lra). replace (Rltb 1 (alpha / 2)) with false by (symmetry; apply Rltb_false; lra).
  replace (Rltb (1 - alpha / 2) 0) with false by (symmetry; apply Rltb_false; lra). replace (Rltb 1 (1 - alpha / 2)) with false by (symmetry; apply Rltb_false; lra).
  repeat split.
Qed.
Print Assumptions C50_bootstrap_no_data.

Theorem C50_bootstrap_bad_alpha : forall vs alpha, alpha < 0 \/ 2 < alpha -> bootstrap_confidence_interval alpha vs = Err ValueError.
Proof.
  intros vs alpha H. unfold bootstrap_confidence_interval, nanquantile. destruct H as [H|H].
  - replace (Rltb (alpha / 2) 0) with true by (symmetry; apply Rltb_true; lra). reflexivity.
  - replace (Rltb 1 (alpha / 2)) with true by (symmetry; apply Rltb_true; lra). now rewrite orb_true_r.
Qed.

(** base.py: a finding is significant iff its p-value is a number not above alpha. *)
Theorem C50_significance : forall alpha p, significant alpha p = true <-> (exists x, p = Fin x /\ x <= alpha) \/ p = NInf.
Proof.
  intros alpha p. unfold significant, vleb. destruct p as [x| | |].
  - cbn. rewrite orb_true_iff, Rltb_true, Reqb_true. split.
    + intros H. left. exists x. split; [reflexivity|]. destruct H; lra.
    + intros [(y & [= <-] & H)|E]; [lra|discriminate].
  - cbn. split; [discriminate|]. intros [(y & E & _)|E]; discriminate.
  - cbn. split; [discriminate|]. intros [(y & E & _)|E]; discriminate.
  - cbn. split; auto.
Qed.
Print Assumptions C50_significance.

(** With a single valid replicate every null value is rejected, even that very replicate. *)
Theorem C50_single_replicate_refuted : forall x y alpha, 0 <= alpha -> significant alpha (bootstrap_p_value y [Fin x]) = true.
Proof.
  intros x y alpha H. apply C50_significance. left. eexists. split; [reflexivity|]. cbn. unfold Rdiv. rewrite Rmult_0_l. unfold Rmin. destruct (Rle_dec _ _); lra.
Qed.
Print Assumptions C50_single_replicate_refuted.

Definition ex_replicates : list val := [Fin 3; NaN; Fin 1; Fin 2; Fin 5; Fin 4].
Example C50_example : usable ex_replicates /\
  bootstrap_confidence_interval (1 / 2) ex_replicates = Ok (Fin 2, Fin 4) /\
  bootstrap_p_value 4 ex_replicates = Fin (1 / 2) /\ bootstrap_p_value 0 ex_replicates = Fin 0.
Proof.
  assert (sort (numbers ex_replicates) = [1; 2; 3; 4; 5]) as E.
  { cbn. repeat (match goal with |- context [Rltb ?a ?b] => first [replace (Rltb a b) with true by (symmetry; apply Rltb_true; lra) | replace (Rltb a b) with false by (symmetry; apply Rltb_false; lra)] end; cbn). reflexivity. }
  assert (usable ex_replicates) as U.
  { split; [|exists 3; cbn; auto]. intros v H. cbn in H. repeat destruct H as [<-|H]; try (right; eexists; reflexivity); try tauto; now left. }
  split; [exact U|]. split; [|split].
  - unfold bootstrap_confidence_interval. rewrite !nanquantile_Ok by (auto; lra). cbn [bind]. rewrite E. rewrite !sorted_quantile_at.
    replace (1 / 2 / 2 * INR (length [1; 2; 3; 4; 5] - 1)) with (INR 1) by (cbn; lra).
    replace ((1 - 1 / 2 / 2) * INR (length [1; 2; 3; 4; 5] - 1)) with (INR 3) by (cbn; lra).
    rewrite !at_position_nth by (cbn; lia). reflexivity.
  - rewrite p_value_ecdf, E by exact U. unfold ecdf. cbn.
    repeat match goal with |- context [Rltb ?a ?b] => first [replace (Rltb a b) with true by (symmetry; apply Rltb_true; lra) | replace (Rltb a b) with false by (symmetry; apply Rltb_false; lra)] end.
    f_equal. unfold Rmin. destruct (Rle_dec _ _); lra.
  - rewrite p_value_ecdf, E by exact U. unfold ecdf. cbn.
    repeat match goal with |- context [Rltb ?a ?b] => first [replace (Rltb a b) with true by (symmetry; apply Rltb_true; lra) | replace (Rltb a b) with false by (symmetry; apply Rltb_false; lra)] end.
    f_equal. unfold Rmin. destruct (Rle_dec _ _); lra.
Qed.

(** ** C51 *)
(** [n_data] rows of [n_replicates] indices, all in range; the first is a fresh draw, each
    later one is a fresh draw if that step ends the block (probability 1/mean_block_length)
    and otherwise the successor, modulo [n_data], of the previous one. *)
Theorem C51_indices : forall n r L rand randint, (0 < n)%nat -> L <> 0 ->
  proper_rand r rand -> proper_randint n r randint ->
  exists rows, stationary_bootstrap_indices n L rand randint = Ok rows /\
    length rows = n /\
    (forall row, In row rows -> length row = r /\ forall i, In i row -> (0 <= i < Z.of_nat n)%Z) /\
    (forall k, (k < r)%nat -> index_at rows 0 k = nth k (randint 0%nat) 0%Z) /\
    (forall t k, (S t < n)%nat -> (k < r)%nat ->
       (nth k (rand (S t)) 0 < 1 / L -> index_at rows (S t) k = nth k (randint (S t)) 0%Z) /\
       (1 / L <= nth k (rand (S t)) 0 -> index_at rows (S t) k = ((index_at rows t k + 1) mod Z.of_nat n)%Z)).
Proof.
  intros [|m] r L rand randint Hn HL Hr Hi; [lia|]. unfold stationary_bootstrap_indices.
  replace (Reqb L 0) with false by (symmetry; destruct (Reqb L 0) eqn:E; auto; apply Reqb_true in E; contradiction).
  eexists. split; [reflexivity|]. destruct (indices_spec (S m) (1 / L) r rand randint Hr Hi Hn 1 m (randint 0%nat) (proj1 (Hi 0%nat))) as (L1 & R1 & V1).
  cbv zeta in *. split; [cbn [length]; now rewrite L1|]. split; [|split].
  - intros row [<-|I]; [exact (Hi 0%nat)|exact (R1 row I)].
  - intros k Hk. reflexivity.
  - intros t k Ht Hk. specialize (V1 t k ltac:(lia) Hk). unfold index_at in V1 |- *. cbn [nth] in V1 |- *. cbn [nth plus] in V1.
    rewrite V1. split; intros H.
    + replace (Rltb _ _) with true by (symmetry; now apply Rltb_true). reflexivity.
    + replace (Rltb _ _) with false by (symmetry; now apply Rltb_false). reflexivity.
Qed.
Print Assumptions C51_indices.

(** With mean block length 1 every index is an independent fresh draw: the IID bootstrap. *)
Theorem C51_unit_blocks_are_iid : forall n r rand randint rows, (0 < n)%nat ->
  proper_rand r rand -> proper_randint n r randint ->
  stationary_bootstrap_indices n 1 rand randint = Ok rows ->
  forall t k, (t < n)%nat -> (k < r)%nat -> index_at rows t k = nth k (randint t) 0%Z.
Proof.
  intros n r rand randint rows Hn Hr Hi E t k Ht Hk. destruct (C51_indices n r 1 rand randint Hn ltac:(lra) Hr Hi) as (rows' & E' & _ & _ & V0 & V).
  rewrite E in E'. injection E' as <-. destruct t as [|t]; [auto|]. apply V; auto.
  destruct (Hr (S t)) as [Lr Hu]. specialize (Hu (nth k (rand (S t)) 0)). replace (1 / 1) with 1 by lra. apply Hu. apply nth_In. lia.
Qed.
Print Assumptions C51_unit_blocks_are_iid.

(** While no block ends, indices run on consecutively and wrap around. *)
Theorem C51_blocks_consecutive : forall n r L rand randint rows, (0 < n)%nat -> L <> 0 ->
  proper_rand r rand -> proper_randint n r randint ->
  stationary_bootstrap_indices n L rand randint = Ok rows ->
  forall t d k, (t + d < n)%nat -> (k < r)%nat ->
    (forall j, (1 <= j <= d)%nat -> 1 / L <= nth k (rand (t + j)%nat) 0) ->
    index_at rows (t + d) k = ((index_at rows t k + Z.of_nat d) mod Z.of_nat n)%Z.
Proof.
  intros n r L rand randint rows Hn HL Hr Hi E t d k. destruct (C51_indices n r L rand randint Hn HL Hr Hi) as (rows' & E' & Len & Rng & V0 & V).
  rewrite E in E'. injection E' as <-. induction d as [|d IH]; intros Ht Hk H.
  - rewrite Nat.add_0_r, Z.add_0_r. symmetry. apply Z.mod_small. unfold index_at.
    assert (In (nth t rows []) rows) as I by (apply nth_In; lia). destruct (Rng _ I) as [Lr Hin]. apply Hin. apply nth_In. lia.
  - replace (t + S d)%nat with (S (t + d)) in * by lia. rewrite (proj2 (V (t + d)%nat k Ht Hk)).
    + rewrite IH by (auto; try lia; intros j Hj; apply H; lia). rewrite Zplus_mod_idemp_l. f_equal. lia.
    + replace (S (t + d)) with (t + S d)%nat by lia. apply H. lia.
Qed.
Print Assumptions C51_blocks_consecutive.

Theorem C51_errors : forall n L rand randint, 
  stationary_bootstrap_indices n 0 rand randint = Err ZeroDivisionError /\
  (L <> 0 -> stationary_bootstrap_indices 0 L rand randint = Err ValueError).
Proof.
  intros n L rand randint. unfold stationary_bootstrap_indices. split.
  - replace (Reqb 0 0) with true by (symmetry; now apply Reqb_true). reflexivity.
  - intros H. replace (Reqb L 0) with false by (symmetry; destruct (Reqb L 0) eqn:E; auto; apply Reqb_true in E; contradiction). reflexivity.
Qed.

Example C51_example : let rand := fun t => match t with 2%nat => [1/4] | _ => [3/4] end in
  let randint := fun t => match t with O => [3%Z] | _ => [1%Z] end in
  proper_rand 1 rand /\ proper_randint 4 1 randint /\
  stationary_bootstrap_indices 4 2 rand randint = Ok [[3]; [0]; [1]; [2]]%Z.
Proof.
  split; [|split].
  - intros t. destruct t as [|[|[|t]]]; (split; [reflexivity|]); intros u [<-|[]]; lra.
  - intros [|t]; (split; [reflexivity|]); intros i [<-|[]]; cbn; lia.
  - unfold stationary_bootstrap_indices. replace (Reqb 2 0) with false by (symmetry; destruct (Reqb 2 0) eqn:E; auto; apply Reqb_true in E; lra).
    cbn [indices_from map]. repeat match goal with |- context [Rltb ?a ?b] => first [replace (Rltb a b) with true by (symmetry; apply Rltb_true; lra) | replace (Rltb a b) with false by (symmetry; apply Rltb_false; lra)] end.
    reflexivity.
Qed.
