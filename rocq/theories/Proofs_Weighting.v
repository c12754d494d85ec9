From Coq Require Import String ZArith QArith Qreals Qcanon Bool List Lia Sorting.Sorted Permutation.
Import ListNotations.
From Verif Require Import Prelude Values Model_XArray Spec_XArray Proofs_XArray Model_Aggregation Model_Binning Spec_Binning Proofs_Binning Proofs_Binning3
  Model_Weighting Spec_Weighting.
From Coq Require Import Reals Rtrigo Lra.
Local Open Scope R_scope.
Local Open Scope list_scope.

(** ** Lists *)
Lemma pairs_cons {A} (a b : A) l : pairs (a :: b :: l) = (a, b) :: pairs (b :: l).
Proof. reflexivity. Qed.
Lemma pairs_nth_iff {A} (l : list A) i a b : nth_error (pairs l) i = Some (a, b) <-> nth_error l i = Some a /\ nth_error l (S i) = Some b.
Proof.
  revert i. induction l as [|x [|y l] IH]; intros i.
  - destruct i; cbn; split; try intros [? ?]; intros; try discriminate.
  - split; [destruct i; discriminate|]. intros [_ H]. destruct i; discriminate.
  - rewrite pairs_cons. destruct i as [|i].
    + cbn [nth_error]. split; [intros [= <- <-]; auto|intros [[= <-] [= <-]]; auto].
    + cbn [nth_error]. rewrite IH. reflexivity.
Qed.
Lemma pairs_length {A} (l : list A) : length (pairs l) = pred (length l).
Proof. induction l as [|x [|y l] IH]; auto. rewrite pairs_cons. cbn [length]. rewrite IH. reflexivity. Qed.
Lemma pairs_map {A B} (f : A -> B) (l : list A) : pairs (map f l) = map (fun p => (f (fst p), f (snd p))) (pairs l).
Proof. induction l as [|x [|y l] IH]; auto. cbn [map]. rewrite !pairs_cons. cbn [map fst snd]. f_equal. exact IH. Qed.
Lemma telescope (f : R -> R) b0 mid bn : rsum (map (fun p => f (snd p) - f (fst p)) (pairs (b0 :: mid ++ [bn]))) = f bn - f b0.
Proof.
  revert b0. induction mid as [|x l IH]; intros b0.
  - cbn. lra.
  - cbn [app]. rewrite pairs_cons. cbn [map fst snd]. match goal with |- rsum (?a :: ?t) = _ => change (rsum (a :: t)) with (a + rsum t) end. rewrite IH. lra.
Qed.
Lemma combine_rev {A B} (a : list A) (b : list B) : length a = length b -> combine (rev a) (rev b) = rev (combine a b).
Proof.
  revert b. induction a as [|x a IH]; intros [|y b] H; try discriminate; auto. injection H as H. cbn [rev combine].
  rewrite <- IH by auto. assert (length (rev a) = length (rev b)) as L by (rewrite !rev_length; auto). revert L. generalize (rev a) (rev b). clear.
  intros a. induction a as [|u a IH]; intros [|v b] L; try discriminate; auto. cbn. f_equal. apply IH. injection L; auto.
Qed.
Lemma combine_fst {A B} (a : list A) (b : list B) : length a = length b -> map fst (combine a b) = a.
Proof. revert b. induction a as [|x a IH]; intros [|y b] H; try discriminate; auto. cbn. f_equal. apply IH. injection H; auto. Qed.
Lemma combine_map_r {A B C} (f : B -> C) (a : list A) (b : list B) : combine a (map f b) = map (fun p => (fst p, f (snd p))) (combine a b).
Proof. revert b. induction a as [|x a IH]; intros [|y b]; auto. cbn. f_equal. apply IH. Qed.
Lemma combine_map_l {A B C} (f : A -> C) (a : list A) (b : list B) : combine (map f a) b = map (fun p => (f (fst p), snd p)) (combine a b).
Proof. revert b. induction a as [|x a IH]; intros [|y b]; auto. cbn. f_equal. apply IH. Qed.
Lemma combine_nth_In {A B} (a : list A) (b : list B) x y : In (x, y) (combine a b) <-> exists i, nth_error a i = Some x /\ nth_error b i = Some y.
Proof.
  revert b. induction a as [|u a IH]; intros b.
  - cbn. split; [tauto|]. intros (i & H & _). destruct i; discriminate.
  - destruct b as [|v b]; [cbn; split; [tauto|]; intros (i & _ & H); destruct i; discriminate|]. cbn [combine In]. rewrite IH. split.
    + intros [[= <- <-]|(i & H)]; [exists 0%nat; auto|exists (S i); auto].
    + intros ([|i] & H1 & H2); [left; injection H1 as <-; injection H2 as <-; auto|right; exists i; auto].
Qed.

(** ** Cells *)
Definition bounds_deg (y0 y1 : R) (Y : list R) (ym yn : R) : list R :=
  Rmax (y0 - (y1 - y0) / 2) (-90) :: map (fun p => (fst p + snd p) / 2) (pairs Y) ++ [Rmin (yn + (yn - ym) / 2) 90].

Lemma deg_pos : 0 < PI / 180. Proof. pose proof PI_RGT_0. lra. Qed.
Lemma increasing_iff l : is_increasing l = true <-> chain Rlt l.
Proof.
  unfold is_increasing, diff. induction l as [|x [|y l] IH].
  - split; [constructor|auto].
  - split; [constructor|auto].
  - rewrite pairs_cons. cbn [map forallb fst snd]. rewrite andb_true_iff, IH, Rltb_true. split.
    + intros [A B]. constructor; auto. lra.
    + intros C. inversion C; subst. split; auto. lra.
Qed.
Lemma decreasing_iff l : forallb (fun d => Rltb d 0) (diff l) = true <-> chain Rgt l.
Proof.
  unfold diff. induction l as [|x [|y l] IH].
  - split; [constructor|auto].
  - split; [constructor|auto].
  - rewrite pairs_cons. cbn [map forallb fst snd]. rewrite andb_true_iff, IH, Rltb_true. split.
    + intros [A B]. constructor; auto. lra.
    + intros C. inversion C; subst. split; auto. lra.
Qed.
Lemma monotonic_iff l : is_strictly_monotonic l = true <-> monotonic l.
Proof. unfold is_strictly_monotonic, monotonic. rewrite orb_true_iff, <- increasing_iff, <- decreasing_iff. reflexivity. Qed.
Lemma chain_map (f : R -> R) l : (forall a b, a < b <-> f a < f b) -> chain Rlt l -> chain Rlt (map f l).
Proof. intros F C. induction C as [|a|a b l H C IH]; [constructor|constructor|]. apply chain_cons; [apply (proj1 (F a b)); exact H|exact IH]. Qed.
Lemma chain_sorted l : chain Rlt l <-> StronglySorted Rlt l.
Proof.
  split.
  - intros C. apply Sorted_StronglySorted; [intros a b c; lra|]. induction C as [|a|a b l H C IH]; [constructor|repeat constructor|]. constructor; [exact IH|constructor; exact H].
  - intros S. apply StronglySorted_Sorted in S. induction l as [|a [|b l] IH]; try constructor; inversion S as [|? ? S' H]; subst; [inversion H; subst; auto|apply IH; auto].
Qed.
Lemma chain_rev l : chain Rgt l -> chain Rlt (rev l).
Proof.
  intros C. induction C as [|a|a b l H C IH]; [constructor|constructor|]. change (rev (a :: b :: l)) with (rev (b :: l) ++ [a]).
  assert (exists l', rev (b :: l) = l' ++ [b]) as [l' E] by (exists (rev l); reflexivity). rewrite E in *. clear E C. revert IH. induction l' as [|x [|y l'] IH]; cbn [app]; intros C.
  - constructor; [apply H|constructor].
  - inversion C as [| |? ? ? H0 C0]; subst. apply chain_cons; [exact H0|]. apply chain_cons; [apply H|constructor].
  - inversion C as [| |? ? ? H0 C0]; subst. apply chain_cons; [exact H0|]. apply IH, C0.
Qed.
Lemma sorted_nth l i j a b : StronglySorted Rlt l -> nth_error l i = Some a -> nth_error l j = Some b -> (i < j)%nat -> a < b.
Proof.
  intros S. revert i j. induction S as [|x l S IH F]; intros i j Hi Hj L; [destruct i; discriminate|].
  destruct j as [|j]; [lia|]. cbn in Hj. destruct i as [|i].
  - injection Hi as <-. rewrite Forall_forall in F. apply F. eapply nth_error_In; eauto.
  - apply (IH i j); auto. lia.
Qed.
Lemma sorted_next l i a b : StronglySorted Rlt l -> nth_error l i = Some a -> nth_error l (S i) = Some b -> next_north l a b /\ next_south l b a.
Proof.
  intros So Ha Hb. assert (a < b) as AB by (apply (sorted_nth l i (S i)); auto).
  split; (split; [eapply nth_error_In; eauto|split; [auto|]]); intros z Hz Hlt; apply In_nth_error in Hz; destruct Hz as [j Hj].
  - destruct (Nat.lt_trichotomy j (S i)) as [C|[->|C]]; [|rewrite Hj in Hb; injection Hb as ->; lra|left; apply (sorted_nth l (S i) j); auto].
    destruct (Nat.eq_dec j i) as [->|]; [rewrite Ha in Hj; injection Hj as ->; lra|]. assert (z < a) by (apply (sorted_nth l j i); auto; lia). lra.
  - destruct (Nat.lt_trichotomy j i) as [C|[->|C]]; [left; apply (sorted_nth l j i); auto|rewrite Ha in Hj; injection Hj as ->; lra|].
    destruct (Nat.eq_dec j (S i)) as [->|]; [rewrite Hb in Hj; injection Hj as ->; lra|]. assert (b < z) by (apply (sorted_nth l (S i) j); auto; lia). lra.
Qed.
Lemma sorted_first l a z : StronglySorted Rlt l -> nth_error l 0 = Some a -> In z l -> a <= z.
Proof. intros So Ha Hz. apply In_nth_error in Hz. destruct Hz as [[|j] Hj]; [rewrite Ha in Hj; injection Hj as ->; lra|left; apply (sorted_nth l 0 (Datatypes.S j)); auto; lia]. Qed.
Lemma sorted_last l a z n : StronglySorted Rlt l -> length l = S n -> nth_error l n = Some a -> In z l -> z <= a.
Proof.
  intros So Hl Ha Hz. apply In_nth_error in Hz. destruct Hz as [j Hj]. assert (j < length l)%nat by (apply nth_error_Some; congruence).
  destruct (Nat.eq_dec j n) as [->|]; [rewrite Ha in Hj; injection Hj as ->; lra|left; apply (sorted_nth l j n); auto; lia].
Qed.

Lemma rad_max a b : deg2rad (Rmax a b) = Rmax (deg2rad a) (deg2rad b).
Proof. unfold deg2rad. rewrite <- !(Rmult_comm (PI / 180)). symmetry. apply RmaxRmult. left. apply deg_pos. Qed.
Lemma rad_min a b : deg2rad (Rmin a b) = Rmin (deg2rad a) (deg2rad b).
Proof.
  unfold deg2rad. pose proof deg_pos. unfold Rmin. destruct (Rle_dec a b), (Rle_dec (a * (PI / 180)) (b * (PI / 180))); auto; exfalso; nra.
Qed.
Lemma bounds_ok Y y0 y1 r ym yn q : chain Rlt Y -> Y = y0 :: y1 :: r -> rev Y = yn :: ym :: q ->
  latitude_cell_bounds (map deg2rad Y) = Ok (map deg2rad (bounds_deg y0 y1 Y ym yn)).
Proof.
  intros C E0 En. unfold latitude_cell_bounds. replace (is_increasing (map deg2rad Y)) with true.
  - assert (map deg2rad Y = deg2rad y0 :: deg2rad y1 :: map deg2rad r) as M0 by (rewrite E0; reflexivity).
    assert (rev (map deg2rad Y) = deg2rad yn :: deg2rad ym :: map deg2rad q) as M1 by (rewrite <- map_rev, En; reflexivity).
    rewrite M0 in M1 |- * at 1. rewrite M1. clear M0 M1. f_equal. unfold bounds_deg. cbn [app map]. f_equal; [|rewrite map_app; f_equal].
    + rewrite rad_max. f_equal; unfold deg2rad; field.
    + rewrite pairs_map, !map_map. apply map_ext. intros [a b]. cbn [fst snd]. unfold deg2rad. field.
    + cbn [map]. f_equal. rewrite rad_min. f_equal; unfold deg2rad; field.
  - symmetry. apply increasing_iff, chain_map; auto. intros a b. unfold deg2rad. pose proof deg_pos. split; nra.
Qed.

Definition areas_deg (y0 y1 : R) (Y : list R) (ym yn : R) : list R := map (fun p => zone_area (fst p) (snd p)) (pairs (bounds_deg y0 y1 Y ym yn)).
Lemma areas_ok Y y0 y1 r ym yn q : chain Rlt Y -> Y = y0 :: y1 :: r -> rev Y = yn :: ym :: q ->
  cell_area_from_latitude (map deg2rad Y) = Ok (areas_deg y0 y1 Y ym yn).
Proof.
  intros C E0 En. unfold cell_area_from_latitude. rewrite (bounds_ok Y y0 y1 r ym yn q) by auto. cbn [bind]. f_equal.
  unfold areas_deg. rewrite pairs_map, map_map. apply map_ext. intros [a b]. cbn [fst snd]. unfold zone_area, deg2rad. f_equal; f_equal; field.
Qed.
Lemma areas_length y0 y1 Y ym yn : Y <> [] -> length (areas_deg y0 y1 Y ym yn) = length Y.
Proof.
  intros H. unfold areas_deg, bounds_deg. rewrite map_length, pairs_length. cbn [length]. rewrite app_length, map_length, pairs_length. cbn [length].
  destruct Y; [congruence|]. cbn [length]. lia.
Qed.
Lemma areas_cell Y y0 y1 r ym yn q i x w : chain Rlt Y -> Y = y0 :: y1 :: r -> rev Y = yn :: ym :: q ->
  nth_error Y i = Some x -> nth_error (areas_deg y0 y1 Y ym yn) i = Some w -> cell_area Y x w.
Proof.
  intros C E0 En Hx Hw. apply chain_sorted in C. unfold areas_deg in Hw.
  assert (i < length Y)%nat as Hi by (apply nth_error_Some; congruence).
  assert (length Y = S (S (length r))) as Hl by (rewrite E0; reflexivity).
  assert (Y = rev q ++ [ym; yn]) as Er. { rewrite <- (rev_involutive Y), En. cbn [rev]. rewrite <- app_assoc. reflexivity. }
  assert (length q = length r) as Hq. { assert (length (rev Y) = S (S (length q))) as L2 by (rewrite En; reflexivity). rewrite rev_length in L2. lia. }
  assert (nth_error Y (length r) = Some ym) as Hym. { rewrite Er, nth_error_app2; rewrite rev_length, Hq; [rewrite Nat.sub_diag; reflexivity|lia]. }
  assert (nth_error Y (S (length r)) = Some yn) as Hyn. { rewrite Er, nth_error_app2; rewrite rev_length, Hq; [|lia]. replace (S (length r) - length r)%nat with 1%nat by lia. reflexivity. }
  assert (nth_error Y 0 = Some y0) as Hy0 by (rewrite E0; reflexivity). assert (nth_error Y 1 = Some y1) as Hy1 by (rewrite E0; reflexivity).
  rewrite nth_error_map in Hw. destruct (nth_error (pairs (bounds_deg y0 y1 Y ym yn)) i) as [[s n]|] eqn:Ep; [|discriminate].
  injection Hw as <-. apply pairs_nth_iff in Ep. destruct Ep as [Es Ee]. exists s, n. cbn [fst snd]. split; [|split; auto].
  - destruct i as [|i].
    + cbn in Es. injection Es as <-. rewrite Hy0 in Hx. injection Hx as <-. apply south_outer.
      * intros z Hz. apply (sorted_first Y); auto.
      * apply (sorted_next Y 0); auto.
    + unfold bounds_deg in Es. cbn [nth_error] in Es. rewrite nth_error_app1 in Es by (rewrite map_length, pairs_length; lia).
      rewrite nth_error_map in Es. destruct (nth_error (pairs Y) i) as [[a b]|] eqn:Ea; [|discriminate]. injection Es as <-. apply pairs_nth_iff in Ea. destruct Ea as [Ea Eb].
      rewrite Hx in Eb. injection Eb as <-. cbn [fst snd]. apply south_inner. apply (sorted_next Y i); auto.
  - unfold bounds_deg in Ee. cbn [nth_error] in Ee. destruct (Nat.eq_dec i (S (length r))) as [->|Hne].
    + rewrite nth_error_app2 in Ee by (rewrite map_length, pairs_length; lia). rewrite map_length, pairs_length, Hl in Ee. cbn [pred] in Ee. rewrite Nat.sub_diag in Ee.
      cbn in Ee. injection Ee as <-. rewrite Hyn in Hx. injection Hx as <-. apply north_outer.
      * intros z Hz. apply (sorted_last Y yn z (S (length r))); auto.
      * apply (sorted_next Y (length r)); auto.
    + rewrite nth_error_app1 in Ee by (rewrite map_length, pairs_length; lia).
      rewrite nth_error_map in Ee. destruct (nth_error (pairs Y) i) as [[a b]|] eqn:Ea; [|discriminate]. injection Ee as <-. apply pairs_nth_iff in Ea. destruct Ea as [Ea Eb].
      rewrite Hx in Ea. injection Ea as <-. cbn [fst snd]. apply north_inner. apply (sorted_next Y i); auto.
Qed.
Lemma areas_sum y0 y1 Y ym yn : rsum (areas_deg y0 y1 Y ym yn) = zone_area (Rmax (y0 - (y1 - y0) / 2) (-90)) (Rmin (yn + (yn - ym) / 2) 90).
Proof.
  unfold areas_deg, bounds_deg. rewrite (map_ext _ (fun p => sin (snd p * PI / 180) - sin (fst p * PI / 180))) by reflexivity.
  rewrite (telescope (fun x => sin (x * PI / 180))). reflexivity.
Qed.

(** ** Properties of cells *)
Lemma next_north_fun l x y y' : next_north l x y -> next_north l x y' -> y = y'.
Proof. intros (A & B & C) (A' & B' & C'). apply Rle_antisym; auto. Qed.
Lemma next_south_fun l x y y' : next_south l x y -> next_south l x y' -> y = y'.
Proof. intros (A & B & C) (A' & B' & C'). apply Rle_antisym; auto. Qed.
Lemma north_fun l x n n' : north_edge l x n -> north_edge l x n' -> n = n'.
Proof.
  intros [y H|y H K] [y' H'|y' H' K'].
  - rewrite (next_north_fun _ _ _ _ H H'). auto.
  - destruct H as (A & B & _). apply H' in A. lra.
  - destruct H' as (A & B & _). apply H in A. lra.
  - rewrite (next_south_fun _ _ _ _ K K'). auto.
Qed.
Lemma south_fun l x n n' : south_edge l x n -> south_edge l x n' -> n = n'.
Proof.
  intros [y H|y H K] [y' H'|y' H' K'].
  - rewrite (next_south_fun _ _ _ _ H H'). auto.
  - destruct H as (A & B & _). apply H' in A. lra.
  - destruct H' as (A & B & _). apply H in A. lra.
  - rewrite (next_north_fun _ _ _ _ K K'). auto.
Qed.
Lemma cell_area_fun l x a a' : cell_area l x a -> cell_area l x a' -> a = a'.
Proof. intros (s & n & S & N & ->) (s' & n' & S' & N' & ->). rewrite (south_fun _ _ _ _ S S'), (north_fun _ _ _ _ N N'). auto. Qed.
Lemma edge_perm l l' x : (forall z, In z l <-> In z l') ->
  (forall s, south_edge l x s -> south_edge l' x s) /\ (forall n, north_edge l x n -> north_edge l' x n).
Proof.
  intros H. assert (forall a b, next_north l a b -> next_north l' a b) as NN. { intros a b (A & B & C). split; [apply H; auto|split; auto]. intros z Hz. apply C, H, Hz. }
  assert (forall a b, next_south l a b -> next_south l' a b) as NS. { intros a b (A & B & C). split; [apply H; auto|split; auto]. intros z Hz. apply C, H, Hz. }
  split; intros s [y A|y A B].
  - apply south_inner; auto.
  - apply south_outer; auto. intros z Hz. apply A, H, Hz.
  - apply north_inner; auto.
  - apply north_outer; auto. intros z Hz. apply A, H, Hz.
Qed.
Lemma cell_area_perm l l' x a : (forall z, In z l <-> In z l') -> cell_area l x a -> cell_area l' x a.
Proof. intros H (s & n & A & B & C). destruct (edge_perm l l' x H) as [P Q]. exists s, n. auto. Qed.

Lemma zone_pos s n : -90 <= s -> s < n -> n <= 90 -> 0 < zone_area s n.
Proof.
  intros A B C. unfold zone_area. pose proof PI_RGT_0. assert (sin (s * PI / 180) < sin (n * PI / 180)); [|lra].
  apply sin_increasing_1; nra.
Qed.
Lemma cell_edges l x s n : in_range l -> In x l -> south_edge l x s -> north_edge l x n -> -90 <= s /\ s <= x /\ x <= n /\ n <= 90 /\ s < n.
Proof.
  intros R Ix S N. pose proof (R x Ix) as Rx.
  assert (-90 <= s <= x /\ ((exists y, next_south l x y) -> s < x)) as [S1 S2].
  { destruct S as [y (A & B & _)|y A (B & C & _)].
    - pose proof (R y A). split; [lra|intros _; lra].
    - split; [unfold Rmax; destruct (Rle_dec _ _); lra|]. intros (z & Z1 & Z2 & _). apply A in Z1. lra. }
  assert (x <= n <= 90 /\ ((exists y, next_north l x y) -> x < n)) as [N1 N2].
  { destruct N as [y (A & B & _)|y A (B & C & _)].
    - pose proof (R y A). split; [lra|intros _; lra].
    - split; [unfold Rmin; destruct (Rle_dec _ _); lra|]. intros (z & Z1 & Z2 & _). apply A in Z1. lra. }
  repeat split; try lra. destruct S as [y A|y A B]; [specialize (S2 (ex_intro _ y A)); lra|specialize (N2 (ex_intro _ y B)); lra].
Qed.
Lemma cell_area_pos l x a : in_range l -> In x l -> cell_area l x a -> 0 < a.
Proof. intros R Ix (s & n & S & N & ->). destruct (cell_edges l x s n R Ix S N) as (A & B & C & D & E). apply zone_pos; lra. Qed.
