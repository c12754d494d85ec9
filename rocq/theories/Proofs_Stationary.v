(** Lemmas about logarithmic rounding and the cache of bootstrap indices. *)
From Coq Require Import String ZArith List Bool Reals Lia Lra.
Import ListNotations.
From Verif Require Import Prelude Values Model_XArray Model_Bootstrap Model_Resample Model_Stationary.
Local Open Scope R_scope.
Local Open Scope list_scope.

(** ** Rounding *)
Lemma Int_part_bounds x : IZR (Int_part x) <= x < IZR (Int_part x) + 1.
Proof. destruct (base_Int_part x). lra. Qed.
Lemma Int_part_unique x z : IZR z <= x < IZR z + 1 -> Int_part x = z.
Proof. intros H. pose proof (Int_part_bounds x). assert (z < Int_part x + 1)%Z by (apply lt_IZR; rewrite plus_IZR; lra). assert (Int_part x < z + 1)%Z by (apply lt_IZR; rewrite plus_IZR; lra). lia. Qed.
Lemma round_near x : Rabs (IZR (round_half_even x) - x) <= 1 / 2.
Proof.
  unfold round_half_even. pose proof (Int_part_bounds x). set (f := Int_part x) in *.
  destruct (Rltb (x - IZR f) (1 / 2)) eqn:E1; [apply Rltb_true in E1; apply Rabs_le; lra|]. apply Rltb_false in E1.
  destruct (Rltb (1 / 2) (x - IZR f)) eqn:E2; [apply Rltb_true in E2; rewrite plus_IZR; apply Rabs_le; lra|]. apply Rltb_false in E2.
  destruct (Z.even f); [|rewrite plus_IZR]; apply Rabs_le; lra.
Qed.
Lemma round_integer z : round_half_even (IZR z) = z.
Proof.
  unfold round_half_even. rewrite (Int_part_unique (IZR z) z) by lra.
  replace (Rltb (IZR z - IZR z) (1 / 2)) with true; [reflexivity|]. symmetry. apply Rltb_true. lra.
Qed.
Lemma round_half z : round_half_even (IZR z + 1 / 2) = if Z.even z then z else (z + 1)%Z.
Proof.
  unfold round_half_even. rewrite (Int_part_unique (IZR z + 1 / 2) z) by lra.
  replace (Rltb (IZR z + 1 / 2 - IZR z) (1 / 2)) with false by (symmetry; apply Rltb_false; lra).
  replace (Rltb (1 / 2) (IZR z + 1 / 2 - IZR z)) with false by (symmetry; apply Rltb_false; lra). reflexivity.
Qed.
Lemma round_mono x y : x <= y -> (round_half_even x <= round_half_even y)%Z.
Proof.
  intros H. destruct (Z_le_gt_dec (round_half_even x) (round_half_even y)) as [L|L]; [exact L|exfalso].
  pose proof (round_near x) as Nx. pose proof (round_near y) as Ny. apply Rcomplements_le in Nx || idtac.
  assert (IZR (round_half_even y) + 1 <= IZR (round_half_even x)) as G by (rewrite <- plus_IZR; apply IZR_le; lia).
  assert (IZR (round_half_even x) - x <= 1 / 2) as Ax by (eapply Rle_trans; [apply Rle_abs|exact Nx]).
  assert (y - IZR (round_half_even y) <= 1 / 2) as Ay by (rewrite Rabs_minus_sym in Ny; eapply Rle_trans; [apply Rle_abs|exact Ny]).
  assert (x = y) as E by lra. subst y. lia.
Qed.
Lemma ln10 : 0 < ln 10. Proof. rewrite <- ln_1. apply ln_increasing; lra. Qed.
Lemma Rpower10_pos y : 0 < Rpower 10 y. Proof. apply exp_pos. Qed.
Lemma log10_power y : log10 (Rpower 10 y) = y.
Proof. unfold log10, Rpower. rewrite ln_exp. field. pose proof ln10. lra. Qed.
Lemma power_log10 x : 0 < x -> Rpower 10 (log10 x) = x.
Proof. intros H. unfold log10, Rpower. replace (ln x / ln 10 * ln 10) with (ln x) by (field; pose proof ln10; lra). now apply exp_ln. Qed.
Lemma Rpower10_le a b : a <= b -> Rpower 10 a <= Rpower 10 b.
Proof. intros H. apply Rle_Rpower; lra. Qed.
Lemma log10_le x y : 0 < x -> x <= y -> log10 x <= log10 y.
Proof.
  intros H L. unfold log10, Rdiv. apply Rmult_le_compat_r; [left; apply Rinv_0_lt_compat, ln10|]. destruct L as [L| ->]; [left; now apply ln_increasing|lra].
Qed.

(** ** The cache *)
Lemma key_eqb_true a b : key_eqb a b = true <-> a = b.
Proof.
  unfold key_eqb. rewrite andb_true_iff, Nat.eqb_eq, Reqb_true. destruct a, b. cbn. split; [intros [-> ->]; auto|intros [= -> ->]; auto].
Qed.
Lemma key_eqb_false a b : key_eqb a b = false <-> a <> b.
Proof. rewrite <- key_eqb_true. destruct (key_eqb a b); split; congruence. Qed.
Lemma cache_find_In k c rows : cache_find k c = Some rows -> In (k, rows) c.
Proof.
  induction c as [|[k' v] c IH]; [discriminate|]. cbn [cache_find]. destruct (key_eqb k k') eqn:E; [|right; auto].
  intros [= ->]. apply key_eqb_true in E. subst. now left.
Qed.
Lemma cache_find_None k c : cache_find k c = None <-> ~ In k (map fst c).
Proof.
  induction c as [|[k' v] c IH]; cbn [cache_find map fst]; [split; [intros _ []|auto]|]. destruct (key_eqb k k') eqn:E.
  - apply key_eqb_true in E. subst. split; [discriminate|]. intros H. destruct H. now left.
  - apply key_eqb_false in E. rewrite IH. cbn. intuition congruence.
Qed.
Lemma firstn_In {A} n (l : list A) x : In x (firstn n l) -> In x l.
Proof. revert l. induction n as [|n IH]; intros [|a l]; cbn; auto; try easy. intros [->|H]; auto. Qed.
Lemma NoDup_firstn {A} n (l : list A) : NoDup l -> NoDup (firstn n l).
Proof. revert l. induction n as [|n IH]; intros [|a l] H; cbn; try constructor. - inversion H; subst. intros I. apply firstn_In in I. contradiction. - inversion H; auto. Qed.
