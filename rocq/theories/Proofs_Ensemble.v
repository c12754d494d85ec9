(** Facts about lists of reals used by the ensemble statistics. *)
From Coq Require Import String ZArith List Bool Reals Permutation Lra Lia Sorted.
Import ListNotations.
From Verif Require Import Prelude Values Model_XArray Spec_Ensemble Model_Ensemble.
Local Open Scope R_scope.
Local Open Scope list_scope.

Lemma rsum_cons x l : rsum (x :: l) = x + rsum l. Proof. reflexivity. Qed.
Lemma rsum_nil : rsum [] = 0. Proof. reflexivity. Qed.
Lemma rsum_const {A} c (l : list A) : rsum (map (fun _ => c) l) = c * size l.
Proof. unfold size. induction l; cbn [map length]; rewrite ?rsum_cons, ?rsum_nil; [cbn [INR]; ring|]. rewrite IHl, S_INR. ring. Qed.
Lemma rsum_zero_inv {A} (f : A -> R) l : (forall x, In x l -> 0 <= f x) -> rsum (map f l) = 0 -> forall x, In x l -> f x = 0.
Proof.
  induction l; intros H E x Hx; [destruct Hx|]. cbn [map] in E. rewrite rsum_cons in E.
  pose proof (H a (or_introl eq_refl)). assert (0 <= rsum (map f l)) by (apply rsum_map_nonneg; intros; apply H; now right).
  destruct Hx as [<-|Hx]; [lra|]. apply IHl; auto; [intros; apply H; now right|lra].
Qed.
Lemma size_nonneg {A} (l : list A) : 0 <= size l. Proof. apply pos_INR. Qed.
Lemma size_pos {A} (l : list A) : l <> [] -> 0 < size l.
Proof. destruct l; [contradiction|]. intros _. apply lt_0_INR. simpl. lia. Qed.
Lemma size_cons {A} (x : A) l : size (x :: l) = size l + 1. Proof. unfold size. cbn [length]. now rewrite S_INR. Qed.
Lemma size_ge2 {A} (l : list A) : (2 <= length l)%nat -> 2 <= size l.
Proof. intros H. unfold size. change 2 with (INR 2). now apply le_INR. Qed.

(** ** double sums *)
Lemma sum2_perm {A B} (f : A -> B -> R) xs xs' ys ys' : Permutation xs xs' -> Permutation ys ys' -> sum2 f xs ys = sum2 f xs' ys'.
Proof.
  intros Hx Hy. unfold sum2. rewrite (rsum_perm _ _ (Permutation_map _ Hx)). apply rsum_map_ext. intros x _.
  apply rsum_perm. now apply Permutation_map.
Qed.
Lemma sum2_cons_l {A B} (f : A -> B -> R) x xs ys : sum2 f (x :: xs) ys = rsum (map (f x) ys) + sum2 f xs ys.
Proof. reflexivity. Qed.
Lemma sum2_cons_r {A B} (f : A -> B -> R) xs y ys : sum2 f xs (y :: ys) = rsum (map (fun x => f x y) xs) + sum2 f xs ys.
Proof. unfold sum2. rewrite <- rsum_map_add. apply rsum_map_ext. intros x _. reflexivity. Qed.
Lemma sum2_swap {A B} (f : A -> B -> R) xs ys : sum2 f xs ys = sum2 (fun y x => f x y) ys xs.
Proof.
  induction xs; [|now rewrite sum2_cons_l, sum2_cons_r, IHxs].
  unfold sum2 at 1. cbn [map]. symmetry. unfold sum2. rewrite (rsum_map_ext _ (fun _ => 0)); [rewrite rsum_const, rsum_nil; ring|reflexivity].
Qed.
Lemma sum2_add {A B} (f g : A -> B -> R) xs ys : sum2 (fun x y => f x y + g x y) xs ys = sum2 f xs ys + sum2 g xs ys.
Proof. unfold sum2. rewrite <- rsum_map_add. apply rsum_map_ext. intros x _. apply rsum_map_add. Qed.
Lemma sum2_scale {A B} c (f : A -> B -> R) xs ys : sum2 (fun x y => c * f x y) xs ys = c * sum2 f xs ys.
Proof. unfold sum2. rewrite <- rsum_map_scale. apply rsum_map_ext. intros x _. apply rsum_map_scale. Qed.
Lemma sum2_ext {A B} (f g : A -> B -> R) xs ys : (forall x y, In x xs -> In y ys -> f x y = g x y) -> sum2 f xs ys = sum2 g xs ys.
Proof. intros H. apply rsum_map_ext. intros x Hx. apply rsum_map_ext. intros y Hy. now apply H. Qed.
Lemma sum2_le {A B} (f g : A -> B -> R) xs ys : (forall x y, In x xs -> In y ys -> f x y <= g x y) -> sum2 f xs ys <= sum2 g xs ys.
Proof. intros H. apply rsum_map_le. intros x Hx. apply rsum_map_le. intros y Hy. now apply H. Qed.
Lemma sum2_prod {A B} (f : A -> R) (g : B -> R) xs ys : sum2 (fun x y => f x * g y) xs ys = rsum (map f xs) * rsum (map g ys).
Proof.
  unfold sum2. rewrite (rsum_map_ext _ (fun x => rsum (map g ys) * f x)); [rewrite rsum_map_scale; ring|].
  intros x _. rewrite rsum_map_scale. ring.
Qed.
Lemma sum2_left {A B} (f : A -> R) (xs : list A) (ys : list B) : sum2 (fun x _ => f x) xs ys = size ys * rsum (map f xs).
Proof. unfold sum2. rewrite <- rsum_map_scale. apply rsum_map_ext. intros x _. rewrite rsum_const. ring. Qed.
Lemma sum2_right {A B} (f : B -> R) (xs : list A) (ys : list B) : sum2 (fun _ y => f y) xs ys = size xs * rsum (map f ys).
Proof. rewrite sum2_swap. apply sum2_left. Qed.
Lemma sum2_app_l {A B} (f : A -> B -> R) xs xs' ys : sum2 f (xs ++ xs') ys = sum2 f xs ys + sum2 f xs' ys.
Proof. unfold sum2. now rewrite map_app, rsum_app. Qed.
Lemma sum2_app_r {A B} (f : A -> B -> R) xs ys ys' : sum2 f xs (ys ++ ys') = sum2 f xs ys + sum2 f xs ys'.
Proof. unfold sum2. rewrite <- rsum_map_add. apply rsum_map_ext. intros x _. now rewrite map_app, rsum_app. Qed.
Lemma sum2_map {A A' B B'} (f : A' -> B' -> R) (g : A -> A') (h : B -> B') xs ys : sum2 f (map g xs) (map h ys) = sum2 (fun x y => f (g x) (h y)) xs ys.
Proof. unfold sum2. rewrite map_map. apply rsum_map_ext. intros x _. now rewrite map_map. Qed.
Lemma dist_sym x y : dist x y = dist y x. Proof. apply Rabs_minus_sym. Qed.
Lemma dist_nonneg x y : 0 <= dist x y. Proof. apply Rabs_pos. Qed.
Lemma dist_tri x y z : dist x z <= dist x y + dist y z.
Proof. unfold dist. replace (x - z) with ((x - y) + (y - z)) by ring. apply Rabs_triang. Qed.
Lemma dist_refl x : dist x x = 0. Proof. unfold dist. replace (x - x) with 0 by ring. apply Rabs_R0. Qed.

(** ** the rank formula *)
Fixpoint ranksum (k : nat) (n : R) (y : list R) : R :=
  match y with [] => 0 | a :: y' => (2 * INR k - n - 1) * a + ranksum (S k) n y' end.
Lemma ranksum_shift k n y : ranksum (S k) (n + 1) y = ranksum k n y + rsum y.
Proof.
  revert k. induction y as [|a y IH]; intros k; cbn [ranksum]; rewrite ?rsum_nil, ?rsum_cons; [ring|]. rewrite IH, S_INR. ring.
Qed.
Lemma ranksum_sorted y : StronglySorted Rle y -> sum2 dist y y = 2 * ranksum 1 (size y) y.
Proof.
  induction 1 as [|a l S IH F]; [unfold sum2; simpl; ring|].
  rewrite sum2_cons_l, sum2_cons_r, IH. cbn [map ranksum]. rewrite rsum_cons, dist_refl, size_cons, ranksum_shift.
  rewrite (rsum_map_ext (fun x => dist x a) (fun x => x - a)), (rsum_map_ext (dist a) (fun x => x - a)).
  - rewrite (rsum_map_sub (fun x => x) (fun _ => a)), map_id, rsum_const. cbn [INR]. ring.
  - intros x Hx. rewrite Forall_forall in F. apply F in Hx. rewrite dist_sym. unfold dist. apply Rabs_right. lra.
  - intros x Hx. rewrite Forall_forall in F. apply F in Hx. unfold dist. apply Rabs_right. lra.
Qed.

Lemma index_of_cons {A} `{EqDec A} (x y : A) l : index_of x (y :: l) = if eq_dec x y then O else S (index_of x l).
Proof. reflexivity. Qed.
Lemma index_of_nth {A} `{EqDec A} (l : list A) k x : NoDup l -> nth_error l k = Some x -> index_of x l = k.
Proof.
  revert k. induction l as [|y l IH]; intros k N E; [now destruct k|]. apply NoDup_cons_iff in N. destruct N as [N1 N2]. rewrite index_of_cons. destruct k as [|k].
  - injection E as ->. destruct (eq_dec x x); [reflexivity|contradiction].
  - cbn [nth_error] in E. destruct (eq_dec x y) as [->|]; [apply nth_error_In in E; contradiction|]. f_equal. now apply IH.
Qed.
Lemma ranksum_index (xs : list R) n js k : 
  forall pre, NoDup (pre ++ js) -> length pre = k ->
  rsum (map (fun i => (2 * INR (S (index_of i (pre ++ js))) - n - 1) * nth i xs 0) js) = ranksum (S k) n (map (fun j => nth j xs 0) js).
Proof.
  revert k. induction js as [|j js IH]; intros k pre N L; [reflexivity|]. cbn [map ranksum]. rewrite rsum_cons. f_equal.
  - rewrite (index_of_nth (pre ++ j :: js) k j N); [reflexivity|]. rewrite nth_error_app2 by lia. rewrite L. now rewrite Nat.sub_diag.
  - specialize (IH (S k) (pre ++ [j])). rewrite <- app_assoc in IH. cbn [app] in IH. rewrite <- IH; [reflexivity|exact N|].
    rewrite app_length. simpl. lia.
Qed.
Lemma map_nth_seq (xs : list R) : map (fun j => nth j xs 0) (seq 0 (length xs)) = xs.
Proof.
  induction xs as [|x xs IH]; [reflexivity|]. cbn [length seq map nth]. f_equal. rewrite <- seq_shift, map_map. exact IH.
Qed.
Lemma sorting_perm xs js : sorting_indices xs js -> Permutation (map (fun j => nth j xs 0) js) xs.
Proof. intros [P _]. pose proof (Permutation_map (fun j => nth j xs 0) P) as K. rewrite map_nth_seq in K. exact K. Qed.
Lemma sorting_sorted xs js : sorting_indices xs js -> StronglySorted Rle (map (fun j => nth j xs 0) js).
Proof.
  intros [_ S]. revert S. induction js as [|j js IH]; intros S; [constructor|].
  constructor.
  - apply IH. intros k k' a b H Ha Hb. apply (S (Datatypes.S k) (Datatypes.S k')); auto. lia.
  - apply Forall_forall. intros y Hy. apply in_map_iff in Hy. destruct Hy as (a & <- & Ha). apply In_nth_error in Ha. destruct Ha as [k Hk].
    apply (S O (Datatypes.S k)); auto. lia.
Qed.
(** The rank formula, for any admissible argsort. *)
Theorem rank_formula xs js : sorting_indices xs js ->
  2 * rsum (map (fun i => (2 * INR (S (index_of i js)) - size xs - 1) * nth i xs 0) (seq 0 (length xs))) = sum2 dist xs xs.
Proof.
  intros S. pose proof (sorting_perm xs js S) as P. rewrite (sum2_perm dist _ _ _ _ (Permutation_sym P) (Permutation_sym P)).
  rewrite (ranksum_sorted _ (sorting_sorted xs js S)). f_equal.
  assert (size (map (fun j => nth j xs 0) js) = size xs) as -> by (unfold size; f_equal; now apply Permutation_length).
  destruct S as [P2 _]. rewrite (rsum_perm _ _ (Permutation_map _ (Permutation_sym P2))).
  apply (ranksum_index xs (size xs) js 0 []); [|reflexivity]. cbn [app]. apply (Permutation_NoDup (Permutation_sym P2)), seq_NoDup.
Qed.

(** ** CRPS inequalities *)
Lemma cross_bound (xs : list R) y : sum2 dist xs xs + 2 * rsum (map (fun x => dist x y) xs) <= 2 * size xs * rsum (map (fun x => dist x y) xs).
Proof.
  induction xs as [|a l IH]; [unfold sum2, size; simpl; lra|].
  rewrite sum2_cons_l, sum2_cons_r, size_cons. cbn [map]. rewrite !rsum_cons, dist_refl.
  assert (rsum (map (fun x => dist x a) l) <= rsum (map (fun x => dist x y) l) + dist a y * size l) as K.
  { rewrite <- (rsum_const (dist a y) l), <- rsum_map_add. apply rsum_map_le. intros x _. rewrite (dist_sym a y). apply dist_tri. }
  rewrite (rsum_map_ext (dist a) (fun x => dist x a)) by (intros; apply dist_sym).
  pose proof (dist_nonneg a y). nra.
Qed.

(** sum_ij c_i c_j |z_i - z_j| is minus twice an integral of squares when the coefficients add up to 0 *)
Definition quad (l : list (R * R)) : R := sum2 (fun p q => fst p * fst q * dist (snd p) (snd q)) l l.
Definition csum (l : list (R * R)) : R := rsum (map fst l).
Definition ind (x z : R) : R := if Rle_dec x z then 1 else 0.
Lemma step_cons z z' zs f : step_integral (z :: z' :: zs) f = (z' - z) * f z + step_integral (z' :: zs) f.
Proof. reflexivity. Qed.
Lemma step_ext zs f g : (forall z, In z zs -> f z = g z) -> step_integral zs f = step_integral zs g.
Proof.
  induction zs as [|z zs IH]; intros H; [reflexivity|]. destruct zs as [|z' zs]; [reflexivity|]. rewrite !step_cons.
  rewrite (H z) by now left. rewrite IH; [reflexivity|]. intros w Hw. apply H. now right.
Qed.
Lemma step_zero zs f : (forall z, In z zs -> f z = 0) -> step_integral zs f = 0.
Proof.
  induction zs as [|z zs IH]; intros H; [reflexivity|]. destruct zs as [|z' zs]; [reflexivity|]. rewrite step_cons.
  rewrite (H z) by now left. rewrite IH; [ring|]. intros w Hw. apply H. now right.
Qed.
Lemma step_nonneg zs f : StronglySorted Rle zs -> (forall z, 0 <= f z) -> 0 <= step_integral zs f.
Proof.
  intros S H. induction S as [|z zs S IH F]; [simpl; lra|]. destruct zs as [|z' zs]; [simpl; lra|]. rewrite step_cons.
  inversion F; subst. specialize (H z). nra.
Qed.
Lemma step_add zs f g : step_integral zs (fun z => f z + g z) = step_integral zs f + step_integral zs g.
Proof. induction zs as [|z zs IH]; [simpl; ring|]. destruct zs as [|z' zs]; [simpl; ring|]. rewrite !step_cons, IH. ring. Qed.
Lemma step_scale zs c f : step_integral zs (fun z => c * f z) = c * step_integral zs f.
Proof. induction zs as [|z zs IH]; [simpl; ring|]. destruct zs as [|z' zs]; [simpl; ring|]. rewrite !step_cons, IH. ring. Qed.
Lemma step_rsum {A} zs (f : A -> R -> R) l : rsum (map (fun a => step_integral zs (f a)) l) = step_integral zs (fun z => rsum (map (fun a => f a z) l)).
Proof.
  induction l as [|a l IH]; cbn [map].
  - rewrite rsum_nil. symmetry. now apply step_zero.
  - rewrite rsum_cons, IH, <- step_add. apply step_ext. intros z _. now rewrite rsum_cons.
Qed.
Lemma grid_lt zs : StronglySorted Rle zs -> forall x y, In x zs -> In y zs -> x < y ->
  y - x = step_integral zs (fun z => (ind x z - ind y z) ^ 2).
Proof.
  induction 1 as [|z zs S IH F]; intros x y Hx Hy L; [destruct Hx|]. rewrite Forall_forall in F.
  assert (In y zs) as Hy'. { destruct Hy as [<-|?]; auto. destruct Hx as [<-|Hx]; [lra|]. apply F in Hx. lra. }
  destruct zs as [|z' zs]; [destruct Hy'|]. rewrite step_cons.
  assert (forall w, In w (z' :: zs) -> z' <= w) as G.
  { inversion S as [|? ? _ F']; subst. intros w [<-|Hw]; [lra|]. rewrite Forall_forall in F'. now apply F'. }
  destruct Hx as [<-|Hx].
  - assert (step_integral (z' :: zs) (fun w => (ind z w - ind y w) ^ 2) = y - z') as ->.
    { destruct (Rlt_dec z' y) as [L'|L'].
      - rewrite (IH z' y); auto; [|now left]. apply step_ext. intros w Hw. unfold ind at 1 3.
        destruct (Rle_dec z w) as [_|N]; [|apply F in Hw; lra]. destruct (Rle_dec z' w) as [_|N]; [reflexivity|apply G in Hw; lra].
      - assert (y = z') as -> by (apply G in Hy'; lra). rewrite step_zero; [ring|]. intros w Hw. unfold ind.
        destruct (Rle_dec z w) as [_|N]; [|apply F in Hw; lra]. destruct (Rle_dec z' w) as [_|N]; [ring|apply G in Hw; lra]. }
    unfold ind. destruct (Rle_dec z z) as [_|N]; [|lra]. destruct (Rle_dec y z) as [N|_]; [lra|]. ring.
  - rewrite <- (IH x y Hx Hy' L). assert ((z' - z) * (ind x z - ind y z) ^ 2 = 0) as ->; [|ring].
    unfold ind. pose proof (F x Hx). pose proof (G x Hx). pose proof (F z' (or_introl eq_refl)). destruct (Rle_dec x z), (Rle_dec y z); try ring; try lra.
    all: assert (z' = z) as -> by lra; ring.
Qed.
Lemma grid_dist zs x y : StronglySorted Rle zs -> In x zs -> In y zs -> dist x y = step_integral zs (fun z => (ind x z - ind y z) ^ 2).
Proof.
  intros S Hx Hy. destruct (Rtotal_order x y) as [L|[->|L]].
  - rewrite <- (grid_lt zs S x y Hx Hy L). rewrite dist_sym. unfold dist. apply Rabs_right. lra.
  - rewrite dist_refl. symmetry. apply step_zero. intros z _. ring.
  - rewrite (step_ext _ _ (fun z => (ind y z - ind x z) ^ 2)) by (intros; ring). rewrite <- (grid_lt zs S y x Hy Hx L). unfold dist. apply Rabs_right. lra.
Qed.
Lemma quad_form (l : list (R * R)) (a : R -> R) : csum l = 0 ->
  sum2 (fun p q => fst p * fst q * (a (snd p) - a (snd q)) ^ 2) l l = - (2 * rsum (map (fun p => fst p * a (snd p)) l) ^ 2).
Proof.
  intros H.
  rewrite (sum2_ext _ (fun p q => (fst p * a (snd p) ^ 2 * fst q + fst p * (fst q * a (snd q) ^ 2)) + -2 * ((fst p * a (snd p)) * (fst q * a (snd q))))) by (intros; ring).
  rewrite !sum2_add, sum2_scale. rewrite (sum2_prod (fun p => fst p * a (snd p) ^ 2) fst), (sum2_prod fst (fun q => fst q * a (snd q) ^ 2)), (sum2_prod (fun p => fst p * a (snd p)) (fun p => fst p * a (snd p))).
  unfold csum in H. rewrite H. ring.
Qed.
Theorem quad_step zs l : StronglySorted Rle zs -> (forall p, In p l -> In (snd p) zs) -> csum l = 0 ->
  quad l = - (2 * step_integral zs (fun z => rsum (map (fun p => fst p * ind (snd p) z) l) ^ 2)).
Proof.
  intros S Hin H. unfold quad.
  rewrite (sum2_ext _ (fun p q => step_integral zs (fun z => fst p * fst q * (ind (snd p) z - ind (snd q) z) ^ 2))).
  2:{ intros p q Hp Hq. rewrite step_scale, <- grid_dist; auto. }
  unfold sum2. rewrite (rsum_map_ext _ (fun p => step_integral zs (fun z => rsum (map (fun q => fst p * fst q * (ind (snd p) z - ind (snd q) z) ^ 2) l)))) by (intros; apply step_rsum).
  rewrite step_rsum. rewrite (step_ext _ _ (fun z => -2 * rsum (map (fun p => fst p * ind (snd p) z) l) ^ 2)).
  - rewrite step_scale. ring.
  - intros z _. pose proof (quad_form l (fun x => ind x z) H) as K. unfold sum2 in K. rewrite K. ring.
Qed.

Definition weighted_points (xs ys : list R) : list (R * R) := map (fun x => (1 / size xs, x)) xs ++ map (fun y => (- (1 / size ys), y)) ys.
Lemma csum_weighted xs ys : xs <> [] -> ys <> [] -> csum (weighted_points xs ys) = 0.
Proof.
  intros Hx Hy. unfold csum, weighted_points. rewrite map_app, rsum_app, !map_map. cbn [fst]. rewrite !rsum_const.
  apply size_pos in Hx. apply size_pos in Hy. field. lra.
Qed.
Lemma quad_weighted xs ys : xs <> [] -> ys <> [] ->
  quad (weighted_points xs ys) = spread false xs + spread false ys - 2 * mean_dist xs ys.
Proof.
  intros Hx Hy. unfold quad, weighted_points. rewrite sum2_app_l, !sum2_app_r, !sum2_map. cbn [fst snd].
  rewrite !(sum2_scale _ (fun x y => dist x y)). rewrite (sum2_swap (fun x y => dist x y) ys xs), (sum2_ext (fun y x => dist x y) (fun y x => dist y x) xs ys) by (intros; apply dist_sym).
  change (fun x y : R => dist x y) with dist. unfold spread, mean_dist. apply size_pos in Hx. apply size_pos in Hy. field. lra.
Qed.
Lemma ind_count xs z : rsum (map (fun x => ind x z) xs) = size (filter (fun x => Rleb x z) xs).
Proof.
  induction xs as [|x xs IH]; [unfold size; simpl; reflexivity|]. cbn [map filter]. rewrite rsum_cons, IH. unfold ind, Rleb.
  destruct (Rle_dec x z); [rewrite size_cons; ring|ring].
Qed.
Lemma weighted_cdf xs ys z : xs <> [] -> ys <> [] -> rsum (map (fun p => fst p * ind (snd p) z) (weighted_points xs ys)) = ecdf xs z - ecdf ys z.
Proof.
  intros Hx Hy. apply size_pos in Hx. apply size_pos in Hy. unfold weighted_points. rewrite map_app, rsum_app, !map_map. cbn [fst snd]. rewrite !rsum_map_scale, !ind_count.
  unfold ecdf. field. lra.
Qed.
(** The energy distance of two ensembles is the integral of the squared difference of their
    distribution functions. *)
Theorem energy_cdf zs xs ys : xs <> [] -> ys <> [] -> StronglySorted Rle zs -> incl xs zs -> incl ys zs ->
  mean_dist xs ys - 1 / 2 * spread false xs - 1 / 2 * spread false ys = step_integral zs (fun z => (ecdf xs z - ecdf ys z) ^ 2).
Proof.
  intros Hx Hy S Ix Iy. assert (quad (weighted_points xs ys) = - (2 * step_integral zs (fun z => (ecdf xs z - ecdf ys z) ^ 2))) as K.
  { rewrite (quad_step zs); [|exact S| |now apply csum_weighted].
    - do 2 f_equal. apply step_ext. intros z _. now rewrite weighted_cdf.
    - intros p Hp. unfold weighted_points in Hp. apply in_app_iff in Hp. destruct Hp as [Hp|Hp]; apply in_map_iff in Hp; destruct Hp as (x & <- & Hp); auto. }
  rewrite quad_weighted in K by assumption. lra.
Qed.
(** Every finite set of points has a sorted grid. *)
Fixpoint rins (x : R) (l : list R) : list R := match l with [] => [x] | y :: l' => if Rle_dec x y then x :: l else y :: rins x l' end.
Definition rsort (l : list R) : list R := fold_right rins [] l.
Lemma rins_perm x l : Permutation (rins x l) (x :: l).
Proof. induction l as [|q l IH]; simpl; [reflexivity|]. destruct (Rle_dec _ _); [reflexivity|]. rewrite IH. apply perm_swap. Qed.
Lemma rsort_perm l : Permutation (rsort l) l.
Proof. induction l; simpl; [reflexivity|]. rewrite rins_perm. now constructor. Qed.
Lemma rins_sorted x l : StronglySorted Rle l -> StronglySorted Rle (rins x l).
Proof.
  induction 1 as [|q l S IH F]; simpl; [repeat constructor|]. destruct (Rle_dec x q).
  - constructor; [constructor; auto|]. constructor; [exact r|]. rewrite Forall_forall in *. intros y Hy. apply F in Hy. lra.
  - constructor; auto. rewrite Forall_forall in *. intros y Hy. apply (Permutation_in _ (rins_perm x l)) in Hy. destruct Hy as [<-|Hy]; [lra|now apply F].
Qed.
Lemma rsort_sorted l : StronglySorted Rle (rsort l).
Proof. induction l; simpl; [constructor|]. now apply rins_sorted. Qed.
Theorem energy_nonneg xs ys : xs <> [] -> ys <> [] -> 0 <= mean_dist xs ys - 1 / 2 * spread false xs - 1 / 2 * spread false ys.
Proof.
  intros Hx Hy. rewrite (energy_cdf (rsort (xs ++ ys)) xs ys Hx Hy (rsort_sorted _)).
  - apply step_nonneg; [apply rsort_sorted|]. intros z. apply pow2_ge_0.
  - intros x Hin. apply (Permutation_in _ (Permutation_sym (rsort_perm _))). apply in_or_app. now left.
  - intros x Hin. apply (Permutation_in _ (Permutation_sym (rsort_perm _))). apply in_or_app. now right.
Qed.

(** ** moments *)
Lemma sum2_diag_index (f : R -> R -> R) xs : sum_distinct f xs = sum2 f xs xs - rsum (map (fun x => f x x) xs).
Proof.
  unfold sum_distinct. set (I := seq 0 (length xs)). set (g := fun i => nth i xs 0).
  assert (map g I = xs) as E by apply map_nth_seq.
  transitivity (sum2 f (map g I) (map g I) - rsum (map (fun x => f x x) (map g I))); [|now rewrite E]. rewrite sum2_map, map_map.
  rewrite (sum2_ext _ (fun i j => f (g i) (g j) + -1 * (if Nat.eqb i j then f (g i) (g i) else 0))).
  2:{ intros i j _ _. unfold g. destruct (Nat.eqb i j) eqn:Q; [apply Nat.eqb_eq in Q; subst j; ring|ring]. }
  rewrite sum2_add, sum2_scale. unfold Rminus. f_equal.
  assert (forall l, NoDup l -> (forall i, In i I -> In i l) -> sum2 (fun i j => if Nat.eqb i j then f (g i) (g i) else 0) I l = rsum (map (fun i => f (g i) (g i)) I)) as K.
  { intros l N Hl. apply rsum_map_ext. intros i Hi. apply Hl in Hi. clear Hl. induction l as [|j l IH]; [destruct Hi|].
    apply NoDup_cons_iff in N. destruct N as [N1 N2]. cbn [map]. rewrite rsum_cons. destruct (Nat.eqb i j) eqn:Q.
    - apply Nat.eqb_eq in Q. subst j. rewrite (rsum_map_ext _ (fun _ => 0)); [rewrite rsum_const; ring|].
      intros k Hk. destruct (Nat.eqb i k) eqn:Q; [apply Nat.eqb_eq in Q; subst k; contradiction|reflexivity].
    - destruct Hi as [->|Hi]; [rewrite Nat.eqb_refl in Q; discriminate|]. rewrite IH by assumption. ring. }
  rewrite K; [ring|apply seq_NoDup|auto].
Qed.
Lemma rsum_sq_dev xs : xs <> [] -> rsum (map (fun x => (x - mean xs) ^ 2) xs) = rsum (map (fun x => x ^ 2) xs) - size xs * mean xs ^ 2.
Proof.
  intros H. apply size_pos in H. rewrite (rsum_map_ext _ (fun x => (x ^ 2 + -2 * mean xs * x) + mean xs ^ 2)) by (intros; ring).
  rewrite !rsum_map_add, rsum_const, (rsum_map_scale (-2 * mean xs) (fun x => x)), map_id.
  assert (rsum xs = size xs * mean xs) as -> by (unfold mean; field; lra). ring.
Qed.
(** The sample variance is half the mean squared difference over pairs of different members. *)
Theorem variance_pairs xs : (2 <= length xs)%nat ->
  variance xs = 1 / 2 * (sum_distinct (fun x y => (x - y) ^ 2) xs / (size xs * (size xs - 1))).
Proof.
  intros H. apply size_ge2 in H. assert (xs <> []) as N by (intros ->; unfold size in H; simpl in H; lra).
  unfold variance. rewrite rsum_sq_dev by exact N. rewrite sum2_diag_index.
  rewrite (rsum_map_ext (fun x => (x - x) ^ 2) (fun _ => 0)), rsum_const by (intros; ring).
  rewrite (sum2_ext _ (fun x y => (x ^ 2 + y ^ 2) + -2 * (x * y))) by (intros; ring). rewrite !sum2_add, sum2_scale, (sum2_left (fun x => x ^ 2)), (sum2_right (fun x => x ^ 2)), (sum2_prod (fun x => x) (fun x => x)), map_id.
  unfold mean. field. lra.
Qed.
(** The debiased squared error of the mean is the off-diagonal average of products. *)
Theorem unbiased_pairs xs y : (2 <= length xs)%nat ->
  (mean xs - y) ^ 2 - variance xs / size xs = sum_distinct (fun a b => (a - y) * (b - y)) xs / (size xs * (size xs - 1)).
Proof.
  intros H. apply size_ge2 in H. assert (xs <> []) as N by (intros ->; unfold size in H; simpl in H; lra).
  unfold variance. rewrite rsum_sq_dev by exact N. rewrite sum2_diag_index.
  rewrite (sum2_prod (fun a => a - y) (fun b => b - y)). rewrite (rsum_map_ext (fun x => (x - y) * (x - y)) (fun x => (x ^ 2 + -2 * y * x) + y ^ 2)) by (intros; ring).
  rewrite !rsum_map_add, (rsum_map_sub (fun x => x) (fun _ => y)), !rsum_const, (rsum_map_scale (-2 * y) (fun x => x)), map_id.
  unfold mean. field. lra.
Qed.
Lemma variance_perm xs ys : Permutation xs ys -> variance xs = variance ys.
Proof.
  intros P. assert (size xs = size ys) as E by (unfold size; f_equal; now apply Permutation_length).
  unfold variance, mean. rewrite E, (rsum_perm _ _ P). f_equal. apply rsum_perm. now apply Permutation_map.
Qed.
Lemma variance_nonneg xs : (2 <= length xs)%nat -> 0 <= variance xs.
Proof.
  intros H. apply size_ge2 in H. unfold variance. apply Rmult_le_pos; [apply rsum_map_nonneg; intros; apply pow2_ge_0|].
  left. apply Rinv_0_lt_compat. lra.
Qed.
