(** Lemmas about the t-test model. *)
From Coq Require Import String ZArith List Bool Reals Lra Lia.
Import ListNotations.
From Verif Require Import Prelude Values Model_XArray Spec_XArray Proofs_XArray Model_Deterministic Model_Ensemble
  Proofs_Ensemble2 Model_TTest Spec_TTest.
Local Open Scope R_scope.
Local Open Scope list_scope.

Lemma vsq_Fin x : vsq (Fin x) = Fin (x * x). Proof. reflexivity. Qed.
Lemma map_vsq_Fin xs : map vsq (map Fin xs) = map Fin (map (fun x => x * x) xs).
Proof. rewrite !map_map. reflexivity. Qed.

Lemma sum_squares_nonneg xs : 0 <= sum_squares xs.
Proof. unfold sum_squares. induction xs as [|x xs IH]; cbn; [lra|]. fold (rsum (map (fun x => x * x) xs)). nra. Qed.
Lemma sum_squares_zero xs : sum_squares xs = 0 <-> ~ varying xs.
Proof.
  unfold varying. split.
  - intros E (x & I & N). induction xs as [|y xs IH]; [destruct I|].
    change (y * y + sum_squares xs = 0) in E. pose proof (sum_squares_nonneg xs) as P. destruct I as [<-|I]; [nra|].
    apply IH; auto. nra.
  - intros H. induction xs as [|y xs IH]; [reflexivity|]. change (y * y + sum_squares xs = 0).
    assert (y = 0) as -> by (destruct (Req_dec y 0); auto; exfalso; apply H; exists y; split; [now left|auto]).
    rewrite IH; [lra|]. intros (x & I & N). apply H. exists x. split; [now right|auto].
Qed.
Lemma sum_squares_pos xs : varying xs -> 0 < sum_squares xs.
Proof. intros H. destruct (sum_squares_nonneg xs) as [P|P]; auto. symmetry in P. apply sum_squares_zero in P. contradiction. Qed.

Lemma INR_minus1 n : (2 <= n)%nat -> 0 < INR n - 1.
Proof. intros H. apply le_INR in H. cbn in H. lra. Qed.

Lemma variance_Fin xs : (2 <= length xs)%nat -> variance_estimate 1 (map Fin xs) = Fin (sample_variance xs).
Proof.
  intros H. unfold variance_estimate. rewrite map_vsq_Fin, vsum_map_Fin', map_length. apply INR_minus1 in H.
  rewrite vdiv_fin by (cbn; lra). cbn [INR]. reflexivity.
Qed.
Lemma sample_variance_nonneg xs : (2 <= length xs)%nat -> 0 <= sample_variance xs.
Proof. intros H. apply INR_minus1 in H. unfold sample_variance. apply Rmult_le_pos; [apply sum_squares_nonneg|]. left. now apply Rinv_0_lt_compat. Qed.
Lemma sample_variance_pos xs : (2 <= length xs)%nat -> varying xs -> 0 < sample_variance xs.
Proof. intros H V. apply INR_minus1 in H. unfold sample_variance. apply Rmult_lt_0_compat; [now apply sum_squares_pos|]. now apply Rinv_0_lt_compat. Qed.
Lemma sample_variance_zero xs : ~ varying xs -> sample_variance xs = 0.
Proof. intros H. apply sum_squares_zero in H. unfold sample_variance. rewrite H. unfold Rdiv. ring. Qed.

Lemma combine_firstn_r {A B} (l : list A) (m : list B) : combine (firstn (length m) l) m = combine l m.
Proof. revert m. induction l as [|a l IH]; intros [|b m]; cbn; auto. now rewrite IH. Qed.
Lemma lagged_combine {A} lag (l : list A) : combine (firstn (length l - lag) l) (skipn lag l) = combine l (skipn lag l).
Proof. rewrite <- skipn_length. apply combine_firstn_r. Qed.
Lemma combine_map {A B C D} (f : A -> C) (g : B -> D) l m : combine (map f l) (map g m) = map (fun p => (f (fst p), g (snd p))) (combine l m).
Proof. revert m. induction l as [|a l IH]; intros [|b m]; cbn; auto. now rewrite IH. Qed.
Lemma skipn_map' {A B} (f : A -> B) n l : skipn n (map f l) = map f (skipn n l).
Proof. revert l. induction n; intros [|a l]; cbn; auto. Qed.

Lemma autocorrelation_Fin lag xs : (2 <= length xs)%nat -> (lag < length xs)%nat ->
  (varying xs -> autocorrelation_estimate lag (map Fin xs) = Fin (autocorrelation lag xs)) /\
  (~ varying xs -> autocorrelation_estimate lag (map Fin xs) = Fin 0).
Proof.
  intros H Hl. unfold autocorrelation_estimate. rewrite variance_Fin by auto. split; intros V.
  - pose proof (sample_variance_pos xs H V) as P. unfold veqb. replace (Reqb (sample_variance xs) 0) with false by (symmetry; apply Reqb_false; lra).
    cbn [negb]. rewrite lagged_combine, skipn_map', combine_map, map_map.
    rewrite (map_ext _ (fun p => Fin (fst p * snd p))) by reflexivity. rewrite <- (map_map (fun p => fst p * snd p) Fin).
    unfold np_mean. rewrite vsum_map_Fin', !map_length, combine_length, skipn_length.
    replace (Nat.min (length xs) (length xs - lag)) with (length xs - lag)%nat by lia.
    assert (0 < INR (length xs - lag)) as Q by (apply lt_0_INR; lia).
    rewrite vdiv_fin by lra. rewrite vdiv_fin by lra. reflexivity.
  - rewrite sample_variance_zero by auto. unfold veqb. replace (Reqb 0 0) with true by (symmetry; now apply Reqb_true). reflexivity.
Qed.

(** ** |r1| < 1 *)
(** Twice (sum of squares - s * sum of lagged products) is a sum of squares. *)
Lemma lagged_bound s xs : s * s = 1 -> 
  match xs with [] => True | x :: _ => x * x <= 2 * (sum_squares xs - s * sum_lagged 1 xs) end.
Proof.
  intros Hs. destruct xs as [|x xs]; auto. revert x. induction xs as [|y xs IH]; intros x.
  - unfold sum_squares, sum_lagged. cbn. nra.
  - specialize (IH y).
    change (sum_squares (x :: y :: xs)) with (x * x + sum_squares (y :: xs)).
    change (sum_lagged 1 (x :: y :: xs)) with (x * y + sum_lagged 1 (y :: xs)).
    assert (0 <= (x - s * y) * (x - s * y)) as S0 by apply Rle_0_sqr.
    replace (2 * (x * x + sum_squares (y :: xs) - s * (x * y + sum_lagged 1 (y :: xs)))) with
      (2 * (x * x) - 2 * s * (x * y) + 2 * (sum_squares (y :: xs) - s * sum_lagged 1 (y :: xs))) by ring.
    assert ((x - s * y) * (x - s * y) = x * x - 2 * s * (x * y) + (s * s) * (y * y)) as E by ring. rewrite Hs in E. lra.
Qed.
Lemma lagged_strict s xs : s * s = 1 -> varying xs -> s * sum_lagged 1 xs < sum_squares xs.
Proof.
  intros Hs. destruct xs as [|x xs]; [intros (x & [] & _)|]. revert x. induction xs as [|y xs IH]; intros x V.
  - destruct V as (z & [<-|[]] & N). unfold sum_squares, sum_lagged. cbn. nra.
  - pose proof (lagged_bound s (y :: xs) Hs) as B. cbn in B.
    change (sum_squares (x :: y :: xs)) with (x * x + sum_squares (y :: xs)).
    change (sum_lagged 1 (x :: y :: xs)) with (x * y + sum_lagged 1 (y :: xs)).
    change (sum_squares (y :: xs)) with (sum_squares (y :: xs)) in B.
    assert (y * y <= 2 * (sum_squares (y :: xs) - s * sum_lagged 1 (y :: xs))) as B' by exact (lagged_bound s (y :: xs) Hs).
    assert (0 <= (x - s * y) * (x - s * y)) as S0 by apply Rle_0_sqr.
    assert ((x - s * y) * (x - s * y) = x * x - 2 * s * (x * y) + (s * s) * (y * y)) as E by ring. rewrite Hs in E.
    destruct (Req_dec x 0) as [->|Nx].
    + assert (varying (y :: xs)) as V'.
      { destruct V as (z & [<-|I] & N); [now destruct N|]. exists z. auto. }
      specialize (IH y V'). lra.
    + assert (0 < x * x) by nra. replace (s * (x * y + sum_lagged 1 (y :: xs))) with (s * (x * y) + s * sum_lagged 1 (y :: xs)) by ring. lra.
Qed.
Lemma autocorrelation1_eq xs : (2 <= length xs)%nat -> varying xs -> autocorrelation 1 xs = sum_lagged 1 xs / sum_squares xs.
Proof.
  intros H V. pose proof (sum_squares_pos xs V). pose proof (INR_minus1 _ H) as P. unfold autocorrelation, sample_variance.
  rewrite minus_INR by lia. cbn [INR]. field. lra.
Qed.
Lemma autocorrelation1_bound xs : (2 <= length xs)%nat -> varying xs -> -1 < autocorrelation 1 xs < 1.
Proof.
  intros H V. rewrite autocorrelation1_eq by auto. pose proof (sum_squares_pos xs V) as P.
  pose proof (lagged_strict 1 xs ltac:(lra) V) as B1. pose proof (lagged_strict (-1) xs ltac:(lra) V) as B2. split.
  - apply Rmult_lt_reg_r with (sum_squares xs); auto. unfold Rdiv. rewrite Rmult_assoc, Rinv_l by lra. lra.
  - apply Rmult_lt_reg_r with (sum_squares xs); auto. unfold Rdiv. rewrite Rmult_assoc, Rinv_l by lra. lra.
Qed.

(** ** The inflation factor *)
Lemma vsqrt_Fin x : 0 <= x -> vsqrt (Fin x) = Fin (sqrt x).
Proof. intros H. unfold vsqrt. destruct (Rlt_dec x 0); [lra|reflexivity]. Qed.
Lemma vsqrt_neg x : x < 0 -> vsqrt (Fin x) = NaN.
Proof. intros H. unfold vsqrt. destruct (Rlt_dec x 0); [reflexivity|lra]. Qed.
Lemma vsub_Fin x y : vsub (Fin x) (Fin y) = Fin (x - y). Proof. reflexivity. Qed.
Lemma vmul_Fin x y : vmul (Fin x) (Fin y) = Fin (x * y). Proof. reflexivity. Qed.

Lemma one_minus_sq r1 : -1 < r1 < 1 -> 0 < 1 - r1 * r1. Proof. intros H. nra. Qed.

Lemma k_squared_value r1 r2 : -1 < r1 < 1 ->
  let den := 1 - r1 * r1 in
  k_squared (Fin r1) (Fin r2) (Fin (r1 * (1 - r2) / den)) (Fin ((r2 - r1 * r1) / den)) =
  if Req_EM_T r2 1 then NaN else Fin ((1 + r1) * (1 + r2 - 2 * (r1 * r1)) / ((1 - r1) * (1 - r2))).
Proof.
  intros H den. pose proof (one_minus_sq r1 H) as P. fold den in P. unfold k_squared.
  rewrite !vmul_Fin, !vsub_Fin, vsq_Fin.
  assert (1 - r1 * (1 - r2) / den - (r2 - r1 * r1) / den = (1 - r1) * (1 - r2) / den) as E1 by (unfold den in *; field; lra).
  assert (1 - r1 * (r1 * (1 - r2) / den) - r2 * ((r2 - r1 * r1) / den) = (1 - r2) * (1 + r2 - 2 * (r1 * r1)) / den) as E2 by (unfold den in *; field; lra).
  rewrite E1, E2. destruct (Req_EM_T r2 1) as [->|N].
  - replace ((1 - r1) * (1 - 1) / den * ((1 - r1) * (1 - 1) / den)) with 0 by (field; lra).
    replace ((1 - 1) * (1 + 1 - 2 * (r1 * r1)) / den) with 0 by (field; lra).
    cbn. destruct (Req_EM_T 0 0); [|lra]. unfold rsign. destruct (Rlt_dec 0 0); [lra|]. reflexivity.
  - assert ((1 - r1) * (1 - r2) / den <> 0) as N1.
    { unfold Rdiv. apply Rmult_integral_contrapositive_currified; [|apply Rinv_neq_0_compat; lra].
      apply Rmult_integral_contrapositive_currified; lra. }
    rewrite vdiv_fin by (apply Rmult_integral_contrapositive_currified; auto). f_equal. unfold den in *. field. repeat split; lra.
Qed.

Lemma inflation_phis r1 r2 : -1 < r1 < 1 ->
  inflation_factor_from_autocorrelation (Fin r1) (Fin r2) =
  vsqrt (k_squared (Fin r1) (Fin r2) (Fin (r1 * (1 - r2) / (1 - r1 * r1))) (Fin ((r2 - r1 * r1) / (1 - r1 * r1)))).
Proof.
  intros H. pose proof (one_minus_sq r1 H) as P. unfold inflation_factor_from_autocorrelation.
  rewrite !vsq_Fin, !vsub_Fin, vmul_Fin, !vdiv_fin by lra. reflexivity.
Qed.
Lemma inflation_value r1 r2 : -1 < r1 < 1 ->
  (ar2_region r1 r2 -> inflation_factor_from_autocorrelation (Fin r1) (Fin r2) = Fin (ar2_inflation r1 r2)) /\
  (~ ar2_region r1 r2 -> inflation_factor_from_autocorrelation (Fin r1) (Fin r2) = NaN).
Proof.
  intros H. pose proof (one_minus_sq r1 H) as P. rewrite inflation_phis by auto. rewrite k_squared_value by auto. cbv zeta.
  unfold ar2_region, ar2_inflation. split; intros A.
  - destruct (Req_EM_T r2 1); [lra|]. apply vsqrt_Fin. apply Rmult_le_pos; [apply Rmult_le_pos; lra|].
    left. apply Rinv_0_lt_compat. apply Rmult_lt_0_compat; lra.
  - destruct (Req_EM_T r2 1) as [|N]; [reflexivity|]. apply vsqrt_neg.
    assert (r2 < 2 * (r1 * r1) - 1 \/ 1 < r2) as [C|C] by lra.
    + assert (0 < (1 + r1) * / ((1 - r1) * (1 - r2))) as Q.
      { apply Rmult_lt_0_compat; [lra|]. apply Rinv_0_lt_compat. apply Rmult_lt_0_compat; nra. }
      unfold Rdiv. replace ((1 + r1) * (1 + r2 - 2 * (r1 * r1)) * / ((1 - r1) * (1 - r2))) with
        ((1 + r1) * / ((1 - r1) * (1 - r2)) * (1 + r2 - 2 * (r1 * r1))) by ring. nra.
    + assert (0 < (1 + r1) * / ((1 - r1) * (r2 - 1))) as Q.
      { apply Rmult_lt_0_compat; [lra|]. apply Rinv_0_lt_compat. apply Rmult_lt_0_compat; lra. }
      replace ((1 + r1) * (1 + r2 - 2 * (r1 * r1)) / ((1 - r1) * (1 - r2))) with
        (- ((1 + r1) * / ((1 - r1) * (r2 - 1)) * (1 + r2 - 2 * (r1 * r1)))) by (field; lra). nra.
Qed.

(** ** Reductions along the unit dimension *)
Lemma size_of_labels d a n : size_of d a = Ok n -> n = length (labels_of (dims a) d).
Proof. unfold size_of, labels_of. destruct (dget (dims a) d); [now intros [= <-]|discriminate]. Qed.
Lemma length_along a d e : length (Spec_Reduce.along a d e) = length (labels_of (dims a) d).
Proof. unfold Spec_Reduce.along. now rewrite map_length. Qed.

(** ** DCT *)
Lemma rsum_seq_telescope (f : nat -> R) n : rsum (map (fun k => f (S k) - f k) (seq 0 n)) = f n - f 0%nat.
Proof.
  assert (forall m a, rsum (map (fun k => f (S k) - f k) (seq a m)) = f (a + m)%nat - f a) as G.
  { induction m as [|m IH]; intros a; cbn.
    - rewrite Nat.add_0_r. lra.
    - fold (rsum (map (fun k => f (S k) - f k) (seq (S a) m))). rewrite IH. replace (S a + m)%nat with (a + S m)%nat by lia. lra. }
  apply (G n 0%nat).
Qed.

(** Dirichlet kernel: 2 sin(t/2) * (cos t + ... + cos (m t)) = sin ((m + 1/2) t) - sin (t/2) *)
Lemma dirichlet t m : 2 * sin (t / 2) * rsum (map (fun k => cos (INR k * t)) (seq 1 m)) = sin ((INR m + 1 / 2) * t) - sin (t / 2).
Proof.
  induction m as [|m IH].
  - cbn. replace ((0 + 1 / 2) * t) with (t / 2) by field. lra.
  - rewrite seq_S, map_app, rsum_app, Rmult_plus_distr_l, IH. cbn [map]. replace (1 + m)%nat with (S m) by lia.
    unfold rsum at 1. cbn [fold_right]. rewrite S_INR.
    replace ((INR m + 1 + 1 / 2) * t) with ((INR m + 1) * t + t / 2) by field.
    replace ((INR m + 1 / 2) * t) with ((INR m + 1) * t - t / 2) by field.
    rewrite sin_plus, sin_minus. ring.
Qed.

Lemma sin_neq_0 x : 0 < x < PI -> sin x <> 0.
Proof. intros H. pose proof (sin_gt_0 x (proj1 H) (proj2 H)). lra. Qed.

Lemma cos_nat_PI m : cos (INR m * PI) = if Nat.even m then 1 else -1.
Proof.
  induction m as [|m IH].
  - cbn [INR]. rewrite Rmult_0_l, cos_0. reflexivity.
  - rewrite S_INR, Rmult_plus_distr_r, Rmult_1_l, neg_cos, IH, Nat.even_succ, <- Nat.negb_even. destruct (Nat.even m); cbn; lra.
Qed.
Lemma sin_nat_PI m : sin (INR m * PI) = 0.
Proof.
  induction m as [|m IH].
  - cbn [INR]. rewrite Rmult_0_l. apply sin_0.
  - rewrite S_INR, Rmult_plus_distr_r, Rmult_1_l, neg_sin, IH. lra.
Qed.

(** The sum of cos(k m pi / n) over k = 1 .. n-1, for m not a multiple of 2n. *)
Lemma cos_sum n m : (0 < n)%nat -> (0 < m < 2 * n)%nat ->
  rsum (map (fun k => cos (INR k * (PI * INR m / INR n))) (seq 1 (n - 1))) = if Nat.even m then -1 else 0.
Proof.
  intros Hn Hm. set (t := PI * INR m / INR n). assert (0 < INR n) as Pn by (apply lt_0_INR; lia).
  assert (0 < INR m) as Pm by (apply lt_0_INR; lia). pose proof PI_RGT_0 as Pp.
  assert (0 < t / 2 < PI) as B.
  { unfold t. split.
    - apply Rmult_lt_0_compat; [|lra]. apply Rmult_lt_0_compat; [nra|now apply Rinv_0_lt_compat].
    - assert (INR m < 2 * INR n) as Q. { replace (2 * INR n) with (INR (2 * n)) by (rewrite mult_INR; reflexivity). apply lt_INR. lia. }
      replace (PI * INR m / INR n / 2) with (PI * (INR m / (2 * INR n))) by (field; lra).
      assert (INR m / (2 * INR n) < 1) by (apply Rmult_lt_reg_r with (2 * INR n); [lra|]; unfold Rdiv; rewrite Rmult_assoc, Rinv_l; lra). nra. }
  pose proof (dirichlet t (n - 1)) as D. rewrite minus_INR in D by lia. cbn [INR] in D.
  replace ((INR n - 1 + 1 / 2) * t) with (INR m * PI - t / 2) in D by (unfold t; field; lra).
  rewrite sin_minus, sin_nat_PI, cos_nat_PI in D. pose proof (sin_neq_0 _ B) as N.
  apply Rmult_eq_reg_l with (2 * sin (t / 2)); [|nra]. rewrite D. destruct (Nat.even m); ring.
Qed.

Lemma rsum_add {A} (f g : A -> R) l : rsum (map (fun a => f a + g a) l) = rsum (map f l) + rsum (map g l).
Proof. induction l as [|a l IH]; cbn; [lra|]. fold (rsum (map (fun a => f a + g a) l)) (rsum (map f l)) (rsum (map g l)). rewrite IH. lra. Qed.
Lemma rsum_scale {A} (c : R) (f : A -> R) l : rsum (map (fun a => c * f a) l) = c * rsum (map f l).
Proof. induction l as [|a l IH]; cbn; [lra|]. fold (rsum (map (fun a => c * f a) l)) (rsum (map f l)). rewrite IH. lra. Qed.
Lemma rsum_eq {A} (f g : A -> R) l : (forall a, In a l -> f a = g a) -> rsum (map f l) = rsum (map g l).
Proof. intros H. f_equal. now apply map_ext_in. Qed.
Lemma rsum_zeros {A} (f : A -> R) l : (forall a, In a l -> f a = 0) -> rsum (map f l) = 0.
Proof. intros H. induction l as [|a l IH]; [reflexivity|]. cbn. fold (rsum (map f l)). rewrite IH, H by (cbn; auto; intros; apply H; now right). lra. Qed.
Lemma rsum_exchange {A B} (f : A -> B -> R) la lb :
  rsum (map (fun a => rsum (map (f a) lb)) la) = rsum (map (fun b => rsum (map (fun a => f a b) la)) lb).
Proof.
  induction la as [|a la IH]; cbn.
  - symmetry. apply rsum_zeros. reflexivity.
  - fold (rsum (map (fun a => rsum (map (f a) lb)) la)). rewrite IH. symmetry. rewrite <- rsum_add. reflexivity.
Qed.
Lemma rsum_square {A} (f : A -> R) l : rsum (map f l) * rsum (map f l) = rsum (map (fun a => rsum (map (fun b => f a * f b) l)) l).
Proof.
  rewrite (rsum_eq (fun a => rsum (map (fun b => f a * f b) l)) (fun a => rsum (map f l) * f a)).
  - rewrite rsum_scale. reflexivity.
  - intros a _. rewrite rsum_scale. ring.
Qed.
Lemma rsum_const_seq (c : R) a n : rsum (map (fun _ => c) (seq a n)) = INR n * c.
Proof. revert a. induction n as [|n IH]; intros a; [cbn; lra|]. rewrite S_INR. cbn. fold (rsum (map (fun _ => c) (seq (S a) n))). rewrite IH. lra. Qed.
Lemma rsum_delta (f : nat -> R) i n : (i < n)%nat -> rsum (map (fun j => if Nat.eqb i j then f j else 0) (seq 0 n)) = f i.
Proof.
  intros H. assert (forall m a, (a <= i < a + m)%nat -> rsum (map (fun j => if Nat.eqb i j then f j else 0) (seq a m)) = f i) as G.
  { induction m as [|m IH]; intros a Ha; [lia|]. cbn. fold (rsum (map (fun j => if Nat.eqb i j then f j else 0) (seq (S a) m))).
    destruct (Nat.eqb_spec i a) as [->|N].
    - rewrite rsum_zeros; [lra|]. intros j Hj. apply in_seq in Hj. destruct (Nat.eqb_spec a j); [lia|reflexivity].
    - rewrite IH by lia. lra. }
  apply G. lia.
Qed.

Lemma two_cos A B : 2 * (cos A * cos B) = cos (A + B) + cos (A - B).
Proof. rewrite cos_plus, cos_minus. ring. Qed.

Lemma basis_orth_le n i j : (j <= i < n)%nat ->
  rsum (map (fun k => dct_basis n k i * dct_basis n k j) (seq 1 (n - 1))) = if Nat.eqb i j then (INR n - 1) / 2 else - (1 / 2).
Proof.
  intros H. assert (0 < INR n) as Pn by (apply lt_0_INR; lia).
  assert (2 * rsum (map (fun k => dct_basis n k i * dct_basis n k j) (seq 1 (n - 1))) =
          rsum (map (fun k => cos (INR k * (PI * INR (i + j + 1) / INR n))) (seq 1 (n - 1))) +
          rsum (map (fun k => cos (INR k * (PI * INR (i - j) / INR n))) (seq 1 (n - 1)))) as E.
  { rewrite <- rsum_scale, <- rsum_add. apply rsum_eq. intros k _. unfold dct_basis. rewrite two_cos. f_equal; f_equal.
    - rewrite !plus_INR. cbn [INR]. field. lra.
    - rewrite minus_INR by lia. field. lra. }
  rewrite (cos_sum n (i + j + 1)) in E by lia. destruct (Nat.eqb_spec i j) as [->|N].
  - replace (j - j)%nat with 0%nat in E by lia.
    rewrite (rsum_eq (fun k => cos (INR k * (PI * INR 0 / INR n))) (fun _ => 1)) in E.
    + rewrite rsum_const_seq, minus_INR in E by lia. cbn [INR] in E.
      replace (Nat.even (j + j + 1)) with false in E by (symmetry; rewrite Nat.even_add; replace (j + j)%nat with (2 * j)%nat by lia; rewrite Nat.even_mul; reflexivity).
      lra.
    + intros k _. cbn [INR]. replace (INR k * (PI * 0 / INR n)) with 0 by (field; lra). apply cos_0.
  - rewrite (cos_sum n (i - j)) in E by lia.
    assert (Nat.even (i + j + 1) = negb (Nat.even (i - j))) as P.
    { replace (i + j + 1)%nat with ((i - j) + (2 * j + 1))%nat by lia. rewrite Nat.even_add, Nat.even_add, Nat.even_mul. cbn.
      destruct (Nat.even (i - j)); reflexivity. }
    rewrite P in E. destruct (Nat.even (i - j)); cbn in E; lra.
Qed.
Lemma basis_orth n i j : (i < n)%nat -> (j < n)%nat ->
  rsum (map (fun k => dct_basis n k i * dct_basis n k j) (seq 1 (n - 1))) = (if Nat.eqb i j then INR n / 2 else 0) - 1 / 2.
Proof.
  intros Hi Hj. destruct (Nat.le_ge_cases j i) as [L|L].
  - rewrite basis_orth_le by lia. destruct (Nat.eqb i j); lra.
  - rewrite (rsum_eq _ (fun k => dct_basis n k j * dct_basis n k i)) by (intros; ring). rewrite basis_orth_le by lia.
    rewrite Nat.eqb_sym. destruct (Nat.eqb i j); lra.
Qed.

Definition projection (xs : list R) (k : nat) : R :=
  rsum (map (fun j => dct_basis (length xs) k j * nth j xs 0) (seq 0 (length xs))).

Lemma combine_seq_nth (xs : list R) a : combine (seq a (length xs)) xs = map (fun j => (j, nth (j - a) xs 0)) (seq a (length xs)).
Proof.
  revert a. induction xs as [|x xs IH]; intros a; [reflexivity|]. cbn [length seq combine map]. rewrite Nat.sub_diag. cbn [nth]. f_equal.
  rewrite IH. apply map_ext_in. intros j Hj. apply in_seq in Hj. replace (j - a)%nat with (S (j - S a)) by lia. reflexivity.
Qed.
Lemma nth_seq_map (xs : list R) (f : R -> R) : map f xs = map (fun j => f (nth j xs 0)) (seq 0 (length xs)).
Proof.
  assert (forall a, map f xs = map (fun j => f (nth (j - a) xs 0)) (seq a (length xs))) as G.
  { induction xs as [|x xs IH]; intros a; [reflexivity|]. cbn [length seq map]. rewrite Nat.sub_diag. cbn [nth]. f_equal.
    rewrite (IH (S a)). apply map_ext_in. intros j Hj. apply in_seq in Hj. replace (j - a)%nat with (S (j - S a)) by lia. reflexivity. }
  rewrite (G 0%nat). apply map_ext. intros j. now rewrite Nat.sub_0_r.
Qed.

Lemma dct_Fin xs k : (1 <= k)%nat -> dct (map Fin xs) k = Fin (sqrt (2 / INR (length xs)) * projection xs k).
Proof.
  intros Hk. unfold dct. rewrite map_length. replace (combine (seq 0 (length xs)) (map Fin xs)) with
    (map (fun p : nat * R => (fst p, Fin (snd p))) (combine (seq 0 (length xs)) xs)).
  2: { rewrite <- (map_id (seq 0 (length xs))) at 2. now rewrite combine_map. }
  rewrite map_map. cbn [fst snd]. rewrite (map_ext _ (fun p : nat * R => Fin (dct_basis (length xs) k (fst p) * snd p))) by reflexivity.
  rewrite <- (map_map (fun p : nat * R => dct_basis (length xs) k (fst p) * snd p) Fin), vsum_map_Fin'.
  rewrite combine_seq_nth, map_map. cbn [fst snd]. destruct k as [|k]; [lia|]. cbn [dct_scale]. rewrite vmul_Fin. f_equal. f_equal.
  unfold projection. apply rsum_eq. intros j _. now rewrite Nat.sub_0_r.
Qed.

(** All the energy of the series except that of its mean. *)
Lemma parseval xs : (0 < length xs)%nat ->
  rsum (map (fun k => 2 / INR (length xs) * (projection xs k * projection xs k)) (seq 1 (length xs - 1))) =
  sum_squares xs - rsum xs * rsum xs / INR (length xs).
Proof.
  intros H. set (n := length xs) in *. assert (0 < INR n) as Pn by (apply lt_0_INR; lia). rewrite rsum_scale.
  set (x := fun j => nth j xs 0).
  assert (rsum (map (fun k => projection xs k * projection xs k) (seq 1 (n - 1))) =
          rsum (map (fun i => rsum (map (fun j => x i * x j * ((if Nat.eqb i j then INR n / 2 else 0) - 1 / 2)) (seq 0 n))) (seq 0 n))) as E.
  { transitivity (rsum (map (fun k => rsum (map (fun i => rsum (map (fun j => dct_basis n k i * x i * (dct_basis n k j * x j)) (seq 0 n))) (seq 0 n))) (seq 1 (n - 1)))).
    - apply rsum_eq. intros k _. unfold projection. fold n. rewrite rsum_square. reflexivity.
    - rewrite rsum_exchange. apply rsum_eq. intros i Hi. apply in_seq in Hi. rewrite rsum_exchange. apply rsum_eq. intros j Hj. apply in_seq in Hj.
      rewrite <- basis_orth by lia. rewrite <- rsum_scale. apply rsum_eq. intros k _. ring. }
  rewrite E.
  assert (rsum (map (fun i => rsum (map (fun j => x i * x j * ((if Nat.eqb i j then INR n / 2 else 0) - 1 / 2)) (seq 0 n))) (seq 0 n)) =
          INR n / 2 * sum_squares xs - 1 / 2 * (rsum xs * rsum xs)) as E2.
  { transitivity (rsum (map (fun i => INR n / 2 * (x i * x i) + (- (1 / 2)) * (rsum xs * x i)) (seq 0 n))).
    - apply rsum_eq. intros i Hi. apply in_seq in Hi.
      transitivity (rsum (map (fun j => (if Nat.eqb i j then INR n / 2 * (x i * x j) else 0) + (- (1 / 2) * x i) * x j) (seq 0 n))).
      + apply rsum_eq. intros j _. destruct (Nat.eqb i j); ring.
      + rewrite rsum_add, rsum_scale. rewrite (rsum_delta (fun j => INR n / 2 * (x i * x j))) by lia.
        assert (rsum (map x (seq 0 n)) = rsum xs) as -> by (unfold x, n; rewrite <- (nth_seq_map xs (fun r => r)); now rewrite map_id). ring.
    - rewrite rsum_add, !rsum_scale.
      assert (rsum (map x (seq 0 n)) = rsum xs) as -> by (unfold x, n; rewrite <- (nth_seq_map xs (fun r => r)); now rewrite map_id).
      assert (rsum (map (fun i => x i * x i) (seq 0 n)) = sum_squares xs) as -> by (unfold x, n, sum_squares; now rewrite <- (nth_seq_map xs (fun r => r * r))). ring. }
  rewrite E2. field. lra.
Qed.

Lemma skipn_seq k a n : skipn k (seq a n) = seq (a + k) (n - k).
Proof. revert a n. induction k as [|k IH]; intros a n; [now rewrite Nat.add_0_r, Nat.sub_0_r|]. destruct n as [|n]; [reflexivity|]. cbn [seq skipn]. rewrite IH. now replace (S a + k)%nat with (a + S k)%nat by lia. Qed.
Lemma firstn_seq k a n : firstn k (seq a n) = seq a (Nat.min k n).
Proof. revert a n. induction k as [|k IH]; intros a n; [reflexivity|]. destruct n as [|n]; [reflexivity|]. cbn. now rewrite IH. Qed.
Lemma firstn_map' {A B} (f : A -> B) n l : firstn n (map f l) = map f (firstn n l).
Proof. revert l. induction n; intros [|a l]; cbn; auto. now rewrite IHn. Qed.

(** The long-run variance: the mean of the squared projections 1 .. v. *)
Lemma long_run_variance_Fin (v : nat) xs : (1 <= v <= length xs - 1)%nat ->
  long_run_variance (Z.of_nat v) (map Fin xs) =
  Fin (rsum (map (fun k => 2 / INR (length xs) * (projection xs k * projection xs k)) (seq 1 v)) / INR v).
Proof.
  intros H. unfold long_run_variance. rewrite map_length, Nat2Z.id, skipn_map', firstn_map', skipn_seq, firstn_seq.
  replace (0 + 1)%nat with 1%nat by lia. replace (Nat.min v (length xs - 1)) with v by lia. rewrite map_map.
  assert (0 < INR (length xs)) as Pn by (apply lt_0_INR; lia). assert (0 < INR v) as Pv by (apply lt_0_INR; lia).
  assert (map (fun k => vsq (dct (map Fin xs) k)) (seq 1 v) = map Fin (map (fun k => 2 / INR (length xs) * (projection xs k * projection xs k)) (seq 1 v))) as ->.
  { rewrite map_map. apply map_ext_in. intros k Hk. apply in_seq in Hk. rewrite dct_Fin by lia. rewrite vsq_Fin. f_equal.
    assert (sqrt (2 / INR (length xs)) * sqrt (2 / INR (length xs)) = 2 / INR (length xs)) as Es.
    { apply sqrt_sqrt. apply Rmult_le_pos; [lra|]. left. now apply Rinv_0_lt_compat. }
    replace (sqrt (2 / INR (length xs)) * projection xs k * (sqrt (2 / INR (length xs)) * projection xs k)) with
      (sqrt (2 / INR (length xs)) * sqrt (2 / INR (length xs)) * (projection xs k * projection xs k)) by ring. now rewrite Es. }
  unfold np_mean. rewrite vsum_map_Fin', !map_length, seq_length. now rewrite vdiv_fin by lra.
Qed.
Lemma rsum_nonneg {A} (f : A -> R) l : (forall a, 0 <= f a) -> 0 <= rsum (map f l).
Proof. intros H. induction l as [|a l IH]; cbn; [lra|]. fold (rsum (map f l)). specialize (H a). lra. Qed.
Lemma energy_split v xs : (v <= length xs - 1)%nat -> (0 < length xs)%nat ->
  0 <= rsum (map (fun k => 2 / INR (length xs) * (projection xs k * projection xs k)) (seq 1 v)) <= sum_squares xs.
Proof.
  intros H Hn. assert (0 < INR (length xs)) as Pn by (apply lt_0_INR; lia).
  assert (forall k, 0 <= 2 / INR (length xs) * (projection xs k * projection xs k)) as P.
  { intros k. apply Rmult_le_pos; [apply Rmult_le_pos; [lra|left; now apply Rinv_0_lt_compat]|apply Rle_0_sqr]. }
  split; [now apply rsum_nonneg|]. pose proof (parseval xs Hn) as E.
  replace (length xs - 1)%nat with (v + (length xs - 1 - v))%nat in E at 1 by lia. rewrite seq_app, map_app, rsum_app in E.
  pose proof (rsum_nonneg (fun k => 2 / INR (length xs) * (projection xs k * projection xs k)) (seq (1 + v) (length xs - 1 - v)) P) as Q.
  assert (0 <= rsum xs * rsum xs / INR (length xs)) as Q2 by (apply Rmult_le_pos; [apply Rle_0_sqr|left; now apply Rinv_0_lt_compat]). lra.
Qed.
