(** Proofs about bootstrap.py: quantiles, interpolation, index sampling. *)
From Coq Require Import String ZArith List Bool Reals Lra Lia Permutation Sorted.
Import ListNotations.
From Verif Require Import Prelude Values Model_XArray Model_Ensemble Model_Bootstrap Spec_Bootstrap.
Local Open Scope R_scope.
Local Open Scope list_scope.

(** ** Sorting *)
Lemma insert_perm x l : Permutation (x :: l) (insert x l).
Proof.
  induction l as [|y l IH]; [reflexivity|]. cbn. destruct (Rltb y x); [|reflexivity].
  rewrite perm_swap. now constructor.
Qed.
Lemma sort_perm l : Permutation l (sort l).
Proof.
  induction l as [|x l IH]; [reflexivity|]. cbn. rewrite <- insert_perm. now constructor.
Qed.
Lemma insert_sorted x l : StronglySorted Rle l -> StronglySorted Rle (insert x l).
Proof.
  induction 1 as [|y l S IH F]; cbn; [repeat constructor|]. destruct (Rltb y x) eqn:E.
  - constructor; auto. rewrite Forall_forall in F |- *. intros z Hz. apply (Permutation_in _ (Permutation_sym (insert_perm x l))) in Hz.
    apply Rltb_true in E. destruct Hz as [<-|Hz]; [lra|auto].
  - apply Rltb_false in E. constructor; [constructor; auto|]. constructor; [lra|].
    rewrite Forall_forall in F |- *. intros z Hz. specialize (F z Hz). lra.
Qed.
Lemma sort_sorted l : StronglySorted Rle (sort l).
Proof. induction l; cbn; [constructor|now apply insert_sorted]. Qed.

Lemma sorted_le l i j : StronglySorted Rle l -> (i <= j < length l)%nat -> nth i l 0 <= nth j l 0.
Proof.
  intros S. revert i j. induction S as [|x l S IH F]; intros i j H; [cbn in H; lia|].
  destruct i as [|i], j as [|j]; cbn [nth length] in *; try lra; try lia.
  - rewrite Forall_forall in F. apply F. apply nth_In. lia.
  - apply IH. lia.
Qed.

(** ** The quantile function *)
(** Position [h] in the sorted list. *)
Definition at_position (xs : list R) (h : R) : R :=
  let lo := Z.to_nat (Int_part h) in
  nth lo xs 0 + (nth (Nat.min (S lo) (length xs - 1)) xs 0 - nth lo xs 0) * frac_part h.
Lemma sorted_quantile_at q xs : sorted_quantile q xs = at_position xs (q * INR (length xs - 1)).
Proof. reflexivity. Qed.

Lemma Int_part_spec h : IZR (Int_part h) <= h < IZR (Int_part h) + 1.
Proof. destruct (base_Int_part h). split; lra. Qed.
Lemma frac_spec h : frac_part h = h - IZR (Int_part h).
Proof. reflexivity. Qed.
Lemma Int_part_unique h z : IZR z <= h < IZR z + 1 -> Int_part h = z.
Proof.
  intros [H1 H2]. pose proof (Int_part_spec h) as [H3 H4].
  assert (IZR z < IZR (Int_part h) + 1) as A by lra. assert (IZR (Int_part h) < IZR z + 1) as B by lra.
  rewrite <- plus_IZR in A, B. apply lt_IZR in A. apply lt_IZR in B. lia.
Qed.
Lemma floor_nat h n : 0 <= h <= INR n -> (Z.to_nat (Int_part h) <= n)%nat /\ IZR (Int_part h) = INR (Z.to_nat (Int_part h)).
Proof.
  intros [H1 H2]. pose proof (Int_part_spec h) as [H3 H4].
  assert (0 <= Int_part h)%Z as P. { assert (IZR (-1) < IZR (Int_part h)) as A by (cbn; lra). apply lt_IZR in A. lia. }
  assert (Int_part h <= Z.of_nat n)%Z as Q. { apply le_IZR. rewrite <- INR_IZR_INZ. lra. }
  split; [lia|]. rewrite INR_IZR_INZ. f_equal. lia.
Qed.

Lemma at_position_bounds xs h : StronglySorted Rle xs -> xs <> [] -> 0 <= h <= INR (length xs - 1) ->
  let lo := Z.to_nat (Int_part h) in
  nth lo xs 0 <= at_position xs h <= nth (Nat.min (S lo) (length xs - 1)) xs 0.
Proof.
  intros S N H lo. unfold at_position. fold lo. destruct (floor_nat h _ H) as [L E]. fold lo in L.
  assert (length xs <> 0)%nat by (destruct xs; [contradiction|discriminate]).
  assert (nth lo xs 0 <= nth (Nat.min (Datatypes.S lo) (length xs - 1)) xs 0) as M by (apply sorted_le; auto; lia).
  pose proof (Int_part_spec h) as [H3 H4]. rewrite frac_spec. set (f := h - IZR (Int_part h)). assert (0 <= f < 1) by (unfold f; lra).
  set (a := nth lo xs 0) in *. set (b := nth (Nat.min (Datatypes.S lo) (length xs - 1)) xs 0) in *. split; nra.
Qed.
Lemma at_position_mono xs h h' : StronglySorted Rle xs -> xs <> [] -> 0 <= h -> h <= h' -> h' <= INR (length xs - 1) ->
  at_position xs h <= at_position xs h'.
Proof.
  intros S N H0 H H1.
  assert (length xs <> 0)%nat by (destruct xs; [contradiction|discriminate]).
  destruct (floor_nat h (length xs - 1)) as [L E]; [lra|]. destruct (floor_nat h' (length xs - 1)) as [L' E']; [lra|].
  pose proof (Int_part_spec h) as [A B]. pose proof (Int_part_spec h') as [A' B'].
  assert (Int_part h <= Int_part h')%Z as M. { assert (IZR (Int_part h) < IZR (Int_part h') + 1) as Q by lra. rewrite <- plus_IZR in Q. apply lt_IZR in Q. lia. }
  destruct (Z.eq_dec (Int_part h) (Int_part h')) as [Q|Q].
  - unfold at_position. rewrite <- Q. rewrite !frac_spec. rewrite <- Q.
    assert (nth (Z.to_nat (Int_part h)) xs 0 <= nth (Nat.min (Datatypes.S (Z.to_nat (Int_part h))) (length xs - 1)) xs 0) by (apply sorted_le; auto; lia).
    nra.
  - pose proof (at_position_bounds xs h S N ltac:(lra)) as [_ U]. pose proof (at_position_bounds xs h' S N ltac:(lra)) as [U' _].
    cbv zeta in U, U'. eapply Rle_trans; [exact U|]. eapply Rle_trans; [|exact U']. apply sorted_le; auto.
    assert (0 <= Int_part h)%Z. { assert (IZR (-1) < IZR (Int_part h)) as P by (cbn; lra). apply lt_IZR in P. lia. }
    split; lia.
Qed.
Lemma at_position_nth xs i : (i < length xs)%nat -> at_position xs (INR i) = nth i xs 0.
Proof.
  intros L. unfold at_position. rewrite frac_spec. rewrite (Int_part_unique (INR i) (Z.of_nat i)) by (rewrite <- INR_IZR_INZ; lra).
  rewrite Nat2Z.id, <- INR_IZR_INZ. lra.
Qed.

(** ** The interpolated distribution function *)
(** The points (value, rank from [j]) of a list. *)
Definition ranked (n j : nat) (xs : list R) : list (R * R) := combine xs (map (fun i => INR i / INR (n - 1)) (seq j (length xs))).
Lemma ranked_cons n j x xs : ranked n j (x :: xs) = (x, INR j / INR (n - 1)) :: ranked n (S j) xs.
Proof. reflexivity. Qed.

Lemma interp_cons2 x a fa b fb r : interp x ((a, fa) :: (b, fb) :: r) =
  if Rltb x a then fa else if Rltb x b then fa + (fb - fa) / (b - a) * (x - a) else interp x ((b, fb) :: r).
Proof. reflexivity. Qed.
(** Where the null value falls. *)
Lemma interp_cases n x xs j : xs <> [] -> StronglySorted Rle xs ->
  let F := interp x (ranked n j xs) in
  (x < nth 0 xs 0 /\ F = INR j / INR (n - 1)) \/
  (nth (length xs - 1) xs 0 <= x /\ F = INR (j + (length xs - 1)) / INR (n - 1)) \/
  (exists i, (S i < length xs)%nat /\ nth i xs 0 <= x < nth (S i) xs 0 /\
     F = (INR (j + i) + (x - nth i xs 0) / (nth (S i) xs 0 - nth i xs 0)) / INR (n - 1)).
Proof.
  revert j. induction xs as [|a [|b xs] IH]; intros j N S; [contradiction| |].
  - cbn. destruct (Rlt_le_dec x a); [left; auto|right; left]. rewrite Nat.add_0_r. auto.
  - cbv zeta. rewrite (ranked_cons n j a), (ranked_cons n (Datatypes.S j) b xs), interp_cons2, <- (ranked_cons n (Datatypes.S j) b xs).
    destruct (Rltb x a) eqn:Ea; [apply Rltb_true in Ea; left; auto|]. apply Rltb_false in Ea.
    destruct (Rltb x b) eqn:Eb.
    + apply Rltb_true in Eb. right. right. exists 0%nat. cbn [nth length]. split; [lia|]. split; [lra|].
      rewrite Nat.add_0_r, S_INR. unfold Rdiv. ring.
    + apply Rltb_false in Eb. inversion S; subst. destruct (IH (Datatypes.S j)) as [[H _]|[[H F]|(i & L & H & F)]]; [discriminate|auto|cbn in H; lra| |].
      * right. left. cbn [length] in *. replace (Datatypes.S (Datatypes.S (length xs)) - 1)%nat with (Datatypes.S (Datatypes.S (length xs) - 1)) by lia.
        cbn [nth]. split; [exact H|]. rewrite F. do 2 f_equal. lia.
      * right. right. exists (Datatypes.S i). cbn [length nth] in *. split; [lia|]. split; [exact H|]. rewrite F. do 3 f_equal. lia.
Qed.

Definition ecdf (x : R) (xs : list R) : R := interp x (combine xs (linspace (length xs))).
Lemma ecdf_ranked x xs : ecdf x xs = interp x (ranked (length xs) 0 xs).
Proof. reflexivity. Qed.

Lemma ecdf_range x xs : xs <> [] -> StronglySorted Rle xs -> 0 <= ecdf x xs <= 1.
Proof.
  intros N S. rewrite ecdf_ranked. assert (length xs <> 0)%nat as L by (destruct xs; [contradiction|discriminate]).
  destruct (interp_cases (length xs) x xs 0 N S) as [[_ ->]|[[_ ->]|(i & Li & H & ->)]].
  - cbn. unfold Rdiv. rewrite Rmult_0_l. lra.
  - cbn [plus]. destruct (Nat.eq_dec (length xs) 1) as [E|E]; [rewrite E; cbn; unfold Rdiv; rewrite Rmult_0_l; lra|].
    unfold Rdiv. rewrite Rinv_r; [lra|]. apply not_0_INR. lia.
  - cbn [plus]. assert (0 < INR (length xs - 1)) by (apply lt_0_INR; lia).
    set (f := (x - nth i xs 0) / (nth (Datatypes.S i) xs 0 - nth i xs 0)).
    assert (0 <= f <= 1). { unfold f. split; [apply Rmult_le_pos; [lra|left; apply Rinv_0_lt_compat; lra]|]. apply Rmult_le_reg_r with (nth (Datatypes.S i) xs 0 - nth i xs 0); [lra|].
      unfold Rdiv. rewrite Rmult_assoc, Rinv_l by lra. lra. }
    assert (INR i + 1 <= INR (length xs - 1)). { rewrite <- S_INR. apply le_INR. lia. }
    pose proof (pos_INR i). split.
    + apply Rmult_le_pos; [lra|left; now apply Rinv_0_lt_compat].
    + apply Rmult_le_reg_r with (INR (length xs - 1)); auto. unfold Rdiv. rewrite Rmult_assoc, Rinv_l by lra. lra.
Qed.

(** The quantile at the ecdf of a value in the range is that value. *)
Lemma quantile_ecdf x xs : xs <> [] -> StronglySorted Rle xs ->
  (x < nth 0 xs 0 /\ ecdf x xs = 0) \/
  (nth (length xs - 1) xs 0 < x /\ (ecdf x xs = 1 \/ length xs = 1%nat /\ ecdf x xs = 0)) \/
  (nth 0 xs 0 <= x <= nth (length xs - 1) xs 0 /\ sorted_quantile (ecdf x xs) xs = x).
Proof.
  intros N S. rewrite sorted_quantile_at, ecdf_ranked. assert (length xs <> 0)%nat as L by (destruct xs; [contradiction|discriminate]).
  destruct (interp_cases (length xs) x xs 0 N S) as [[H ->]|[[H ->]|(i & Li & H & ->)]].
  - left. split; auto. cbn. unfold Rdiv. apply Rmult_0_l.
  - destruct (Nat.eq_dec (length xs) 1) as [E|E].
    + cbn [plus]. rewrite E in *. cbn [Nat.sub] in *. change (INR 0) with 0. unfold Rdiv. rewrite !Rmult_0_l.
      destruct (Req_dec x (nth 0 xs 0)) as [->|Q].
      * right. right. split; [lra|]. change 0 with (INR 0). rewrite at_position_nth by lia. reflexivity.
      * right. left. split; [lra|]. right. auto.
    + cbn [plus]. assert (INR (length xs - 1) <> 0) by (apply not_0_INR; lia). unfold Rdiv. rewrite Rinv_r, Rmult_1_l by auto.
      rewrite at_position_nth by lia. destruct (Req_dec x (nth (length xs - 1) xs 0)) as [->|Q].
      * right. right. split; [|reflexivity]. split; [apply sorted_le; auto; lia|lra].
      * right. left. split; [lra|auto].
  - right. right. assert (nth 0 xs 0 <= nth i xs 0) by (apply sorted_le; auto; lia). assert (nth (Datatypes.S i) xs 0 <= nth (length xs - 1) xs 0) by (apply sorted_le; auto; lia).
    split; [lra|]. cbn [plus]. assert (0 < INR (length xs - 1)) by (apply lt_0_INR; lia).
    unfold Rdiv. rewrite Rmult_assoc, Rinv_l, Rmult_1_r by lra. fold (Rdiv (x - nth i xs 0) (nth (Datatypes.S i) xs 0 - nth i xs 0)).
    set (f := (x - nth i xs 0) / (nth (Datatypes.S i) xs 0 - nth i xs 0)).
    assert (0 <= f < 1). { unfold f. split; [apply Rmult_le_pos; [lra|left; apply Rinv_0_lt_compat; lra]|]. apply Rmult_lt_reg_r with (nth (Datatypes.S i) xs 0 - nth i xs 0); [lra|].
      unfold Rdiv. rewrite Rmult_assoc, Rinv_l by lra. lra. }
    unfold at_position. rewrite frac_spec. rewrite (Int_part_unique (INR i + f) (Z.of_nat i)) by (rewrite <- INR_IZR_INZ; lra).
    rewrite Nat2Z.id, <- INR_IZR_INZ. replace (Nat.min (Datatypes.S i) (length xs - 1)) with (Datatypes.S i) by lia.
    replace (INR i + f - INR i) with f by lra. unfold f. field. lra.
Qed.

Lemma quantile_mono xs q q' : xs <> [] -> StronglySorted Rle xs -> 0 <= q -> q <= q' -> q' <= 1 -> sorted_quantile q xs <= sorted_quantile q' xs.
Proof.
  intros N S H0 H H1. rewrite !sorted_quantile_at. pose proof (pos_INR (length xs - 1)). apply at_position_mono; auto.
  - now apply Rmult_le_pos.
  - now apply Rmult_le_compat_r.
  - rewrite <- (Rmult_1_l (INR (length xs - 1))) at 2. now apply Rmult_le_compat_r.
Qed.
Lemma quantile_range xs q : xs <> [] -> StronglySorted Rle xs -> 0 <= q <= 1 -> nth 0 xs 0 <= sorted_quantile q xs <= nth (length xs - 1) xs 0.
Proof.
  intros N S H. assert (length xs <> 0)%nat as L by (destruct xs; [contradiction|discriminate]).
  assert (sorted_quantile 0 xs = nth 0 xs 0) as E0. { rewrite sorted_quantile_at, Rmult_0_l. change 0 with (INR 0) at 1. apply at_position_nth. lia. }
  assert (sorted_quantile 1 xs = nth (length xs - 1) xs 0) as E1. { rewrite sorted_quantile_at, Rmult_1_l. apply at_position_nth. lia. }
  rewrite <- E0, <- E1. split; apply quantile_mono; auto; lra.
Qed.


(** Duality of the quantile and the ecdf. *)
Lemma small_p x a xs : xs <> [] -> StronglySorted Rle xs -> 0 <= a <= 1 ->
  2 * Rmin (ecdf x xs) (1 - ecdf x xs) <= a -> x <= sorted_quantile (a / 2) xs \/ sorted_quantile (1 - a / 2) xs <= x.
Proof.
  intros N S Ha P. pose proof (quantile_range xs (a / 2) N S ltac:(lra)) as [A B]. pose proof (quantile_range xs (1 - a / 2) N S ltac:(lra)) as [A' B'].
  pose proof (ecdf_range x xs N S) as R0.
  destruct (quantile_ecdf x xs N S) as [[H1 _]|[[H1 _]|[H1 E]]]; [left; lra|right; lra|].
  unfold Rmin in P. destruct (Rle_dec _ _) in P.
  - left. rewrite <- E. apply quantile_mono; auto; lra.
  - right. rewrite <- E. apply quantile_mono; auto; lra.
Qed.
Lemma outside_p x a xs : xs <> [] -> StronglySorted Rle xs -> 0 <= a <= 1 ->
  x < sorted_quantile (a / 2) xs \/ sorted_quantile (1 - a / 2) xs < x -> 2 * Rmin (ecdf x xs) (1 - ecdf x xs) <= a.
Proof.
  intros N S Ha P. pose proof (quantile_range xs (a / 2) N S ltac:(lra)) as [A B]. pose proof (quantile_range xs (1 - a / 2) N S ltac:(lra)) as [A' B'].
  pose proof (ecdf_range x xs N S) as R0. pose proof (Rmin_l (ecdf x xs) (1 - ecdf x xs)) as M1. pose proof (Rmin_r (ecdf x xs) (1 - ecdf x xs)) as M2.
  destruct (quantile_ecdf x xs N S) as [[H1 E]|[[H1 [E|[_ E]]]|[H1 E]]]; [lra|lra|lra|].
  destruct P as [P|P].
  - destruct (Rle_lt_dec (ecdf x xs) (a / 2)) as [Q|Q]; [lra|]. exfalso.
    pose proof (quantile_mono xs (a / 2) (ecdf x xs) N S ltac:(lra) ltac:(lra) ltac:(lra)). lra.
  - destruct (Rle_lt_dec (1 - a / 2) (ecdf x xs)) as [Q|Q]; [lra|]. exfalso.
    pose proof (quantile_mono xs (ecdf x xs) (1 - a / 2) N S ltac:(lra) ltac:(lra) ltac:(lra)). lra.
Qed.

(** ** Replicates *)
Lemma numbers_In x vs : In x (numbers vs) <-> In (Fin x) vs.
Proof.
  unfold numbers. rewrite in_flat_map. split.
  - intros (v & I & H). destruct v; cbn in H; try tauto. destruct H as [->|[]]. exact I.
  - intros I. exists (Fin x). split; auto. now left.
Qed.
Lemma usable_numbers vs : usable vs -> sort (numbers vs) <> [] /\ numbers vs <> [].
Proof.
  intros [_ [x H]]. apply numbers_In in H.
  assert (numbers vs <> []) as N by (intros E; now rewrite E in H). split; auto. intros E.
  pose proof (sort_perm (numbers vs)) as P. rewrite E in P. apply Permutation_sym, Permutation_nil in P. contradiction.
Qed.
Lemma nanquantile_Ok q vs : usable vs -> 0 <= q <= 1 -> nanquantile q vs = Ok (Fin (sorted_quantile q (sort (numbers vs)))).
Proof.
  intros U H. unfold nanquantile. replace (Rltb q 0) with false by (symmetry; apply Rltb_false; lra). replace (Rltb 1 q) with false by (symmetry; apply Rltb_false; lra).
  cbn [orb]. destruct (sort (numbers vs)) eqn:E; [|reflexivity]. now apply usable_numbers in U.
Qed.
Lemma p_value_ecdf x vs : usable vs ->
  bootstrap_p_value x vs = Fin (2 * Rmin (ecdf x (sort (numbers vs))) (1 - ecdf x (sort (numbers vs)))).
Proof.
  intros U. apply usable_numbers in U. unfold bootstrap_p_value. destruct (numbers vs) as [|y l] eqn:E; [tauto|]. reflexivity.
Qed.

(** ** Stationary indices *)
Lemma next_length n flags new cur r : length flags = r -> length new = r -> length cur = r -> length (next_indices n flags new cur) = r.
Proof. intros H1 H2 H3. unfold next_indices. rewrite map_length, !combine_length. lia. Qed.
Lemma next_nth n flags new cur r k : length flags = r -> length new = r -> length cur = r -> (k < r)%nat ->
  nth k (next_indices n flags new cur) 0%Z = if nth k flags false then nth k new 0%Z else ((nth k cur 0 + 1) mod n)%Z.
Proof.
  intros H1 H2 H3 L. unfold next_indices.
  set (g := fun p : bool * Z * Z => if fst (fst p) then snd (fst p) else ((snd p + 1) mod n)%Z).
  rewrite (nth_indep _ 0%Z (g (false, 0%Z, 0%Z))) by (rewrite map_length, !combine_length; lia).
  rewrite (map_nth g). rewrite combine_nth by (rewrite combine_length; lia). rewrite combine_nth by lia. reflexivity.
Qed.

Section Indices.
  Variables (n : nat) (p : R) (r : nat) (rand : nat -> list R) (randint : nat -> list Z).
  Hypothesis Hr : proper_rand r rand.
  Hypothesis Hi : proper_randint n r randint.
  Hypothesis Hn : (0 < n)%nat.
  Definition in_range (l : list Z) : Prop := forall i, In i l -> (0 <= i < Z.of_nat n)%Z.

  Lemma next_range flags new cur : length flags = r -> length new = r -> length cur = r ->
    in_range new -> in_range (next_indices (Z.of_nat n) flags new cur).
  Proof.
    intros H1 H2 H3 Hin i I. unfold next_indices in I. apply in_map_iff in I. destruct I as ([[f m] c] & <- & I). cbn [fst snd].
    destruct f.
    - apply Hin. apply in_combine_l in I. now apply in_combine_r in I.
    - apply Z.mod_pos_bound. lia.
  Qed.
  Lemma indices_spec t steps cur : length cur = r ->
    let rows := indices_from (Z.of_nat n) p rand randint t steps cur in
    length rows = steps /\ (forall row, In row rows -> length row = r /\ in_range row) /\
    (forall i k, (i < steps)%nat -> (k < r)%nat ->
       index_at rows i k = if Rltb (nth k (rand (t + i)%nat) 0) p then nth k (randint (t + i)%nat) 0%Z
                           else ((index_at (cur :: rows) i k + 1) mod Z.of_nat n)%Z).
  Proof.
    revert t cur. induction steps as [|m IH]; intros t cur Hc; [cbn; repeat split; intros; try contradiction; lia|].
    cbn [indices_from]. set (flags := map (fun u => Rltb u p) (rand t)). set (new := next_indices (Z.of_nat n) flags (randint t) cur).
    assert (length flags = r) as Lf by (unfold flags; rewrite map_length; apply Hr).
    assert (length new = r) as Ln by (apply next_length; [exact Lf|exact (proj1 (Hi t))|exact Hc]).
    destruct (IH (S t) new Ln) as (L1 & R1 & V1). cbv zeta in *. split; [cbn; now rewrite L1|]. split.
    - intros row [<-|I]; [|auto]. split; auto. apply next_range; [exact Lf|exact (proj1 (Hi t))|exact Hc|exact (proj2 (Hi t))].
    - intros [|i] k Li Lk.
      + unfold index_at. cbn [nth]. unfold new at 1. rewrite (next_nth _ _ _ _ r k Lf (proj1 (Hi t)) Hc Lk). rewrite Nat.add_0_r.
        unfold flags. rewrite (nth_indep _ false (Rltb 0 p)) by (rewrite map_length; rewrite (proj1 (Hr t)); exact Lk). now rewrite (map_nth (fun u => Rltb u p)).
      + specialize (V1 i k ltac:(lia) Lk). unfold index_at in *. cbn [nth] in *. replace (t + S i)%nat with (S t + i)%nat by lia. exact V1.
  Qed.
End Indices.
