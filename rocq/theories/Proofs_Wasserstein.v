(** The sum computed by scipy is the earth mover's distance. *)
From Coq Require Import List Bool Reals Lra Permutation Sorted Lia.
Import ListNotations.
From Verif Require Import Prelude Values Model_Binning Model_Bootstrap Proofs_Bootstrap Spec_Wasserstein Model_Wasserstein.
Local Open Scope R_scope.
Local Open Scope list_scope.

Definition ind (x a : R) : R := if Rleb x a then 1 else 0.
Definition cnt (l : list R) (a : R) : R := INR (length (filter (fun x => Rleb x a) l)).
Definition over {A} (z : list A) (h : A -> A -> R) : R := rsum (map (fun ab => h (fst ab) (snd ab)) (pairs z)).
Definition distance (u v : list R) : R :=
  over (sort (u ++ v)) (fun a b => Rabs (share_below u a - share_below v a) * (b - a)).

Lemma cnt_ind l a : cnt l a = rsum (map (fun x => ind x a) l).
Proof.
  unfold cnt. induction l as [|x l IH]; [reflexivity|]. cbn [filter map rsum fold_right]. unfold ind at 1. destruct (Rleb x a); [|rewrite IH; unfold rsum; lra].
  cbn [length]. rewrite S_INR, IH. unfold rsum. lra.
Qed.
Lemma pairs_cons {A} (a b : A) r : pairs (a :: b :: r) = (a, b) :: pairs (b :: r).
Proof. reflexivity. Qed.
Lemma over_cons {A} (a b : A) r h : over (a :: b :: r) h = h a b + over (b :: r) h.
Proof. unfold over. rewrite pairs_cons. reflexivity. Qed.
Lemma pairs_In {A} (z : list A) a b : In (a, b) (pairs z) -> In a z /\ In b z.
Proof.
  induction z as [|c [|d r] IH]; [intros []|intros []|]. rewrite pairs_cons. intros [[= <- <-]|H]; [split; [now left|right; now left]|].
  destruct (IH H). split; now right.
Qed.
Lemma pairs_le z a b : StronglySorted Rle z -> In (a, b) (pairs z) -> a <= b.
Proof.
  induction z as [|c [|d r] IH]; [intros _ []|intros _ []|]. intros S. rewrite pairs_cons. apply StronglySorted_inv in S. destruct S as [S F].
  intros [[= <- <-]|H]; [|now apply IH]. rewrite Forall_forall in F. apply F. now left.
Qed.
Lemma over_ext {A} (z : list A) h h' : (forall a b, In (a, b) (pairs z) -> h a b = h' a b) -> over z h = over z h'.
Proof. intros H. unfold over. apply rsum_map_ext. intros [a b] I. now apply H. Qed.
Lemma over_plus {A} (z : list A) h h' : over z (fun a b => h a b + h' a b) = over z h + over z h'.
Proof. unfold over. apply (rsum_map_add (fun ab => h (fst ab) (snd ab)) (fun ab => h' (fst ab) (snd ab))). Qed.
Lemma over_scal {A} (z : list A) k h : over z (fun a b => k * h a b) = k * over z h.
Proof. unfold over. induction (pairs z) as [|ab l IH]; cbn; [lra|]. unfold rsum in IH. rewrite IH. lra. Qed.
Lemma over_le {A} (z : list A) h h' : (forall a b, In (a, b) (pairs z) -> h a b <= h' a b) -> over z h <= over z h'.
Proof. intros H. unfold over. apply rsum_map_le. intros [a b] I. now apply H. Qed.
Lemma over_zero {A} (z : list A) : over z (fun _ _ => 0) = 0.
Proof. unfold over. induction (pairs z) as [|ab l IH]; cbn; [reflexivity|]. unfold rsum in IH. rewrite IH. lra. Qed.
Lemma over_sum {A B} (z : list A) (l : list B) h : over z (fun a b => rsum (map (fun x => h x a b) l)) = rsum (map (fun x => over z (h x)) l).
Proof. induction l as [|x l IH]; cbn [map rsum fold_right]; [apply over_zero|]. rewrite over_plus. unfold rsum in IH. now rewrite IH. Qed.

(** A function's value at a point of [z] from its last value and its steps. *)
Lemma abel f z x : StronglySorted Rle z -> In x z -> f x = f (last z 0) - over z (fun a b => ind x a * (f b - f a)).
Proof.
  revert x. induction z as [|a [|b r] IH]; intros x S I; [destruct I| |].
  - destruct I as [->|[]]. unfold over. cbn. lra.
  - apply StronglySorted_inv in S. destruct S as [S F]. rewrite Forall_forall in F. rewrite over_cons. change (last (a :: b :: r) 0) with (last (b :: r) 0).
    destruct I as [->|I].
    + pose proof (IH b S (or_introl eq_refl)) as E.
      assert (over (b :: r) (fun c d => ind x c * (f d - f c)) = over (b :: r) (fun c d => ind b c * (f d - f c))) as E'.
      { apply over_ext. intros c d Hcd. apply pairs_In in Hcd. destruct Hcd as [Hc _]. f_equal.
        assert (x <= c) by (apply F; exact Hc). assert (b <= c) by (destruct Hc as [->|Hc]; [lra|]; apply StronglySorted_inv in S; destruct S as [_ F']; rewrite Forall_forall in F'; now apply F').
        unfold ind. rewrite (proj2 (Rleb_true x c)), (proj2 (Rleb_true b c)); auto. }
      rewrite E'. unfold ind at 1. rewrite (proj2 (Rleb_true x x)) by lra. lra.
    + rewrite (IH x S I) at 1. enough (ind x a * (f b - f a) = 0) by lra.
      unfold ind. destruct (Rleb x a) eqn:L; [|lra]. apply Rleb_true in L.
      assert (a <= x) by (apply F; exact I). assert (a <= b) by (apply F; now left).
      assert (b <= x). { destruct I as [->|I]; [lra|]. apply StronglySorted_inv in S. destruct S as [_ F']. rewrite Forall_forall in F'. now apply F'. }
      assert (b = a) by lra. subst b. lra.
Qed.
Lemma abel_sum f z l : StronglySorted Rle z -> incl l z ->
  rsum (map f l) = INR (length l) * f (last z 0) - over z (fun a b => cnt l a * (f b - f a)).
Proof.
  intros S I. assert (over z (fun a b => cnt l a * (f b - f a)) = rsum (map (fun x => over z (fun a b => ind x a * (f b - f a))) l)) as ->.
  { rewrite <- over_sum. apply over_ext. intros a b _. rewrite cnt_ind. clear. induction l as [|x l IH]; cbn; [lra|]. unfold rsum in IH. lra. }
  induction l as [|x l IH]; [cbn; lra|]. cbn [map rsum fold_right]. change (fold_right Rplus 0) with rsum. rewrite IH by (intros y Hy; apply I; now right).
  change (length (x :: l)) with (Datatypes.S (length l)). rewrite S_INR, (abel f z x S) at 1 by (apply I; now left). lra.
Qed.
Lemma mean_abel f z l : l <> [] -> StronglySorted Rle z -> incl l z ->
  mean (map f l) = f (last z 0) - over z (fun a b => share_below l a * (f b - f a)).
Proof.
  intros N S I. unfold mean. rewrite (abel_sum f z l S I), map_length. assert (INR (length l) <> 0) as Hn by (apply not_0_INR; destruct l; [congruence|discriminate]).
  assert (over z (fun a b => cnt l a * (f b - f a)) = INR (length l) * over z (fun a b => share_below l a * (f b - f a))) as ->.
  { rewrite <- over_scal. apply over_ext. intros a b _. unfold share_below. fold (cnt l a). now field. }
  now field.
Qed.
Lemma mean_difference f u v : u <> [] -> v <> [] ->
  mean (map f u) - mean (map f v) = over (sort (u ++ v)) (fun a b => (share_below v a - share_below u a) * (f b - f a)).
Proof.
  intros Hu Hv. pose proof (sort_sorted (u ++ v)) as S. pose proof (sort_perm (u ++ v)) as P.
  rewrite (mean_abel f _ u Hu S), (mean_abel f _ v Hv S).
  - set (z := sort (u ++ v)). assert (over z (fun a b => (share_below v a - share_below u a) * (f b - f a)) = over z (fun a b => share_below v a * (f b - f a)) + (-1) * over z (fun a b => share_below u a * (f b - f a))) as ->; [|lra].
    rewrite <- over_scal, <- over_plus. apply over_ext. intros. lra.
  - intros x Hx. apply (Permutation_in _ P), in_app_iff. now right.
  - intros x Hx. apply (Permutation_in _ P), in_app_iff. now left.
Qed.
Lemma lipschitz_step f a b : lipschitz f -> a <= b -> Rabs (f b - f a) <= b - a.
Proof. intros L H. eapply Rle_trans; [apply L|]. rewrite Rabs_right; lra. Qed.
Lemma dual_upper f u v : u <> [] -> v <> [] -> lipschitz f -> mean (map f u) - mean (map f v) <= distance u v.
Proof.
  intros Hu Hv L. rewrite mean_difference by auto. apply over_le. intros a b Hab. pose proof (pairs_le _ _ _ (sort_sorted (u ++ v)) Hab) as H.
  pose proof (lipschitz_step f a b L H) as K. rewrite (Rabs_minus_sym (share_below u a)). set (s := share_below v a - share_below u a).
  eapply Rle_trans; [apply Rle_abs|]. rewrite Rabs_mult. apply Rmult_le_compat_l; [apply Rabs_pos|exact K].
Qed.

(** The best function: slope [s a] between [a] and its successor. *)
Definition clamp (a b x : R) : R := Rmin (Rmax x a) b.
Fixpoint pot (s : R -> R) (z : list R) (x : R) : R :=
  match z with
  | a :: ((b :: _) as z') => s a * (clamp a b x - a) + pot s z' x
  | _ => 0
  end.
Lemma pot_cons s a b r x : pot s (a :: b :: r) x = s a * (clamp a b x - a) + pot s (b :: r) x.
Proof. reflexivity. Qed.
Ltac rmm := unfold clamp, Rmin, Rmax in *; repeat match goal with |- context [Rle_dec ?a ?b] => destruct (Rle_dec a b) | H : context [Rle_dec ?a ?b] |- _ => destruct (Rle_dec a b) end; try lra.
Lemma pot_low s z x : StronglySorted Rle z -> (forall a, In a z -> x <= a) -> pot s z x = 0.
Proof.
  induction z as [|a [|b r] IH]; [reflexivity|reflexivity|]. intros S H. rewrite pot_cons. apply StronglySorted_inv in S. destruct S as [S F]. rewrite Forall_forall in F.
  rewrite IH; [|exact S|intros c Hc; apply H; now right]. assert (x <= a) by (apply H; now left). assert (a <= b) by (apply F; now left).
  assert (clamp a b x = a) as -> by rmm. lra.
Qed.
Lemma pot_step s z a b : StronglySorted Rle z -> In (a, b) (pairs z) -> pot s z b - pot s z a = s a * (b - a).
Proof.
  induction z as [|c [|d r] IH]; [intros _ []|intros _ []|]. intros S. rewrite pairs_cons, !pot_cons. pose proof S as S0. apply StronglySorted_inv in S. destruct S as [S F]. rewrite Forall_forall in F.
  assert (c <= d) as Hcd by (apply F; now left). apply StronglySorted_inv in S as S'. destruct S' as [_ F']. rewrite Forall_forall in F'.
  intros [[= <- <-]|H].
  - rewrite (pot_low s (d :: r) d S), (pot_low s (d :: r) c S).
    + assert (clamp c d d = d) as -> by rmm. assert (clamp c d c = c) as -> by rmm. lra.
    + intros a Ha. apply F. exact Ha.
    + intros a [->|Ha]; [lra|now apply F'].
  - specialize (IH S H). pose proof (pairs_In _ _ _ H) as [Ia Ib].
    assert (d <= a) by (destruct Ia as [->|Ia]; [lra|now apply F']). assert (d <= b) by (destruct Ib as [->|Ib]; [lra|now apply F']).
    assert (clamp c d a = d) as -> by rmm. assert (clamp c d b = d) as -> by rmm. lra.
Qed.
Lemma pot_grow s z x y : (forall a, Rabs (s a) <= 1) -> StronglySorted Rle z -> x <= y ->
  Rabs (pot s z y - pot s z x) <= Rmax y (hd y z) - Rmax x (hd x z).
Proof.
  intros Hs S Hxy. induction z as [|a [|b r] IH].
  - cbn. rewrite Rminus_0_r, Rabs_R0. rmm.
  - cbn. rewrite Rminus_0_r, Rabs_R0. rmm.
  - rewrite !pot_cons. apply StronglySorted_inv in S. destruct S as [S F]. rewrite Forall_forall in F. assert (a <= b) as Hab by (apply F; now left).
    specialize (IH S). cbn [hd] in *. replace (s a * (clamp a b y - a) + pot s (b :: r) y - (s a * (clamp a b x - a) + pot s (b :: r) x)) with
      (s a * (clamp a b y - clamp a b x) + (pot s (b :: r) y - pot s (b :: r) x)) by ring.
    eapply Rle_trans; [apply Rabs_triang|]. rewrite Rabs_mult.
    assert (0 <= clamp a b y - clamp a b x) as Hc by rmm. rewrite (Rabs_right (clamp a b y - clamp a b x)) by lra.
    assert (Rabs (s a) * (clamp a b y - clamp a b x) <= clamp a b y - clamp a b x).
    { rewrite <- (Rmult_1_l (clamp a b y - clamp a b x)) at 2. apply Rmult_le_compat_r; auto. }
    assert (clamp a b y - clamp a b x + (Rmax y b - Rmax x b) = Rmax y a - Rmax x a) by rmm. lra.
Qed.
Lemma pot_lipschitz s z : (forall a, Rabs (s a) <= 1) -> StronglySorted Rle z -> lipschitz (pot s z).
Proof.
  intros Hs S. assert (forall x y, x <= y -> Rabs (pot s z y - pot s z x) <= y - x) as K.
  { intros x y H. eapply Rle_trans; [apply pot_grow; auto|]. destruct z as [|a z]; cbn [hd]; rmm. }
  intros x y. destruct (Rle_dec x y) as [H|H].
  - rewrite Rabs_minus_sym, (Rabs_minus_sym x). rewrite (Rabs_right (y - x)) by lra. now apply K.
  - rewrite (Rabs_right (x - y)) by lra. apply K. lra.
Qed.
Lemma dual_attained u v : u <> [] -> v <> [] -> exists f, lipschitz f /\ mean (map f u) - mean (map f v) = distance u v.
Proof.
  intros Hu Hv. set (s := fun a => if Rleb (share_below u a) (share_below v a) then 1 else -1).
  exists (pot s (sort (u ++ v))). split; [apply pot_lipschitz; [|apply sort_sorted]; intros a; unfold s; destruct (Rleb _ _); unfold Rabs; destruct (Rcase_abs _); lra|].
  rewrite mean_difference by auto. apply over_ext. intros a b Hab. rewrite (pot_step s _ a b (sort_sorted _) Hab).
  rewrite (Rabs_minus_sym (share_below u a)). unfold s. destruct (Rleb (share_below u a) (share_below v a)) eqn:E.
  - apply Rleb_true in E. rewrite Rabs_right by lra. ring.
  - apply Rleb_false in E. rewrite Rabs_left by lra. ring.
Qed.
Lemma distance_dual u v : u <> [] -> v <> [] -> largest_mean_difference (distance u v) u v.
Proof. intros Hu Hv. split; [intros f L; now apply dual_upper|now apply dual_attained]. Qed.
Lemma dual_unique w w' u v u' v' : (forall f, mean (map f u) = mean (map f u')) -> (forall f, mean (map f v) = mean (map f v')) ->
  largest_mean_difference w u v -> largest_mean_difference w' u' v' -> w = w'.
Proof.
  intros Eu Ev [H1 (f & Lf & Hf)] [H2 (g & Lg & Hg)]. apply Rle_antisym.
  - rewrite <- Hf, Eu, Ev. now apply H2.
  - rewrite <- Hg, <- Eu, <- Ev. now apply H1.
Qed.

(** Sorted matching. *)
Lemma abs_over z x y : StronglySorted Rle z -> In x z -> In y z -> Rabs (x - y) = over z (fun a b => Rabs (ind x a - ind y a) * (b - a)).
Proof.
  intros S. assert (forall x y, In x z -> In y z -> x <= y -> Rabs (x - y) = over z (fun a b => Rabs (ind x a - ind y a) * (b - a))) as K.
  { clear x y. intros x y Hx Hy H. rewrite Rabs_minus_sym, Rabs_right by lra.
    pose proof (abel (fun r => r) z x S Hx) as Ex. pose proof (abel (fun r => r) z y S Hy) as Ey. cbv beta in Ex, Ey.
    assert (over z (fun a b => Rabs (ind x a - ind y a) * (b - a)) = over z (fun a b => ind x a * (b - a)) + (-1) * over z (fun a b => ind y a * (b - a))) as ->; [|lra].
    rewrite <- over_scal, <- over_plus. apply over_ext. intros a b _. unfold ind. destruct (Rleb x a) eqn:E1, (Rleb y a) eqn:E2.
    - rewrite Rminus_eq_0, Rabs_R0. lra.
    - rewrite Rabs_right; lra.
    - apply Rleb_false in E1. apply Rleb_true in E2. lra.
    - rewrite Rminus_eq_0, Rabs_R0. lra. }
  intros Hx Hy. destruct (Rle_dec x y) as [H|H]; [now apply K|]. rewrite Rabs_minus_sym, K by (auto; lra). apply over_ext. intros a b _. now rewrite Rabs_minus_sym.
Qed.
Lemma cnt_high l a : (forall x, In x l -> a < x) -> cnt l a = 0.
Proof.
  intros H. rewrite cnt_ind. induction l as [|x l IH]; [reflexivity|]. cbn [map rsum fold_right]. change (fold_right Rplus 0) with rsum. rewrite IH by (intros; apply H; now right).
  unfold ind. destruct (Rleb x a) eqn:E; [|lra]. apply Rleb_true in E. specialize (H x (or_introl eq_refl)). lra.
Qed.
Lemma cnt_nonneg l a : 0 <= cnt l a.
Proof. apply pos_INR. Qed.
Lemma cnt_cons x l a : cnt (x :: l) a = ind x a + cnt l a.
Proof. rewrite !cnt_ind. reflexivity. Qed.
Lemma matched_counts u v a : StronglySorted Rle u -> StronglySorted Rle v -> length u = length v ->
  rsum (map (fun xy => Rabs (ind (fst xy) a - ind (snd xy) a)) (combine u v)) = Rabs (cnt u a - cnt v a).
Proof.
  assert (forall l a, (forall x, In x l -> a < x) -> forall m, length m = length l ->
     rsum (map (fun xy => Rabs (ind (fst xy) a - ind (snd xy) a)) (combine m l)) = cnt m a /\ rsum (map (fun xy => Rabs (ind (fst xy) a - ind (snd xy) a)) (combine l m)) = cnt m a) as K.
  { clear. intros l a H m. revert m. induction l as [|y l IH]; intros [|x m] E; try discriminate E; [split; reflexivity|].
    injection E as E. destruct (IH (fun z Hz => H z (or_intror Hz)) m E) as [I1 I2]. cbn [combine map rsum fold_right fst snd]. change (fold_right Rplus 0) with rsum. rewrite I1, I2, cnt_cons.
    assert (ind y a = 0) as -> by (unfold ind; destruct (Rleb y a) eqn:L; [|reflexivity]; apply Rleb_true in L; specialize (H y (or_introl eq_refl)); lra).
    rewrite Rminus_0_r, Rminus_0_l, Rabs_Ropp. rewrite Rabs_right by (unfold ind; destruct (Rleb x a); lra). lra. }
  revert v. induction u as [|x u IH]; intros [|y v] Su Sv E; try discriminate E.
  - cbn. now rewrite Rminus_0_r, Rabs_R0.
  - destruct (Rle_dec x a) as [Hx|Hx].
    + destruct (Rle_dec y a) as [Hy|Hy].
      * apply StronglySorted_inv in Su, Sv. injection E as E. cbn [combine map rsum fold_right fst snd]. change (fold_right Rplus 0) with rsum. rewrite IH by tauto. rewrite !cnt_cons.
        unfold ind at 1 2 3 4. rewrite (proj2 (Rleb_true x a)), (proj2 (Rleb_true y a)) by auto. rewrite Rminus_eq_0, Rabs_R0. rewrite Rplus_0_l. f_equal. lra.
      * rewrite (cnt_high (y :: v) a). { rewrite Rminus_0_r, Rabs_right by apply Rle_ge, cnt_nonneg. apply K; [|exact E]. intros z [->|Hz]; [lra|]. apply StronglySorted_inv in Sv. destruct Sv as [_ F]. rewrite Forall_forall in F. specialize (F z Hz). lra. }
        intros z [->|Hz]; [lra|]. apply StronglySorted_inv in Sv. destruct Sv as [_ F]. rewrite Forall_forall in F. specialize (F z Hz). lra.
    + assert (forall z, In z (x :: u) -> a < z) as Hi by (intros z [->|Hz]; [lra|]; apply StronglySorted_inv in Su; destruct Su as [_ F]; rewrite Forall_forall in F; specialize (F z Hz); lra).
      rewrite (cnt_high (x :: u) a Hi), Rminus_0_l, Rabs_Ropp, Rabs_right by apply Rle_ge, cnt_nonneg. apply K; [exact Hi|now symmetry].
Qed.
Lemma filter_length_perm {A} (f : A -> bool) l l' : Permutation l l' -> length (filter f l) = length (filter f l').
Proof. induction 1; cbn; auto; repeat match goal with |- context [if f ?x then _ else _] => destruct (f x) end; cbn; congruence. Qed.
Lemma share_perm l l' x : Permutation l l' -> share_below l x = share_below l' x.
Proof. intros P. unfold share_below. now rewrite (filter_length_perm _ _ _ P), (Permutation_length P). Qed.
Lemma sorted_matching u v : u <> [] -> length u = length v -> carrying_cost (sort u) (sort v) = distance u v.
Proof.
  intros N E. unfold carrying_cost, mean. rewrite map_length, combine_length, <- (Permutation_length (sort_perm u)), <- (Permutation_length (sort_perm v)), <- E, Nat.min_id.
  set (z := sort (u ++ v)). assert (forall x, In x u -> In x z) as Iu by (intros x Hx; apply (Permutation_in _ (sort_perm _)), in_app_iff; now left).
  assert (forall x, In x v -> In x z) as Iv by (intros x Hx; apply (Permutation_in _ (sort_perm _)), in_app_iff; now right).
  assert (rsum (map (fun xy => Rabs (fst xy - snd xy)) (combine (sort u) (sort v))) = rsum (map (fun xy => over z (fun a b => Rabs (ind (fst xy) a - ind (snd xy) a) * (b - a))) (combine (sort u) (sort v)))) as ->.
  { apply rsum_map_ext. intros [x y] I. cbn [fst snd]. apply abs_over; [apply sort_sorted| |].
    - apply Iu. apply in_combine_l in I. exact (Permutation_in _ (Permutation_sym (sort_perm u)) I).
    - apply Iv. apply in_combine_r in I. exact (Permutation_in _ (Permutation_sym (sort_perm v)) I). }
  rewrite <- (over_sum z (combine (sort u) (sort v)) (fun xy a b => Rabs (ind (fst xy) a - ind (snd xy) a) * (b - a))).
  assert (INR (length u) <> 0) as Hn by (apply not_0_INR; destruct u; [congruence|discriminate]).
  apply (Rmult_eq_reg_l (INR (length u))); [|exact Hn]. unfold distance. fold z. rewrite <- over_scal.
  replace (INR (length u) * (over z (fun a b => rsum (map (fun x => Rabs (ind (fst x) a - ind (snd x) a) * (b - a)) (combine (sort u) (sort v)))) / INR (length u)))
    with (over z (fun a b => rsum (map (fun x => Rabs (ind (fst x) a - ind (snd x) a) * (b - a)) (combine (sort u) (sort v))))) by (now field).
  apply over_ext. intros a b _.
  assert (rsum (map (fun x => Rabs (ind (fst x) a - ind (snd x) a) * (b - a)) (combine (sort u) (sort v))) = rsum (map (fun x => Rabs (ind (fst x) a - ind (snd x) a)) (combine (sort u) (sort v))) * (b - a)) as ->.
  { induction (combine (sort u) (sort v)) as [|xy l IH]; cbn; [lra|]. unfold rsum in IH. rewrite IH. lra. }
  rewrite matched_counts; [|apply sort_sorted|apply sort_sorted|rewrite <- (Permutation_length (sort_perm u)), <- (Permutation_length (sort_perm v)); exact E].
  rewrite (share_perm _ _ a (sort_perm u)), (share_perm _ _ a (sort_perm v)). unfold share_below. fold (cnt (sort u) a) (cnt (sort v) a).
  rewrite <- (Permutation_length (sort_perm u)), <- (Permutation_length (sort_perm v)), <- E.
  replace (cnt (sort u) a / INR (length u) - cnt (sort v) a / INR (length u)) with ((cnt (sort u) a - cnt (sort v) a) * / INR (length u)) by (now field).
  rewrite Rabs_mult, (Rabs_right (/ INR (length u))); [now field|]. apply Rle_ge, Rlt_le, Rinv_0_lt_compat. pose proof (pos_INR (length u)). lra.
Qed.
Lemma rsum_perm l l' : Permutation l l' -> rsum l = rsum l'.
Proof. induction 1; unfold rsum in *; cbn [fold_right]; lra. Qed.
Lemma mean_perm {A} (f : A -> R) l l' : Permutation l l' -> mean (map f l) = mean (map f l').
Proof. intros P. unfold mean. rewrite !map_length, (Permutation_length P). f_equal. apply rsum_perm. now apply Permutation_map. Qed.
Lemma matching_lower u v : u <> [] -> length u = length v -> distance u v <= carrying_cost u v.
Proof.
  intros Hu E. assert (v <> []) as Hv by (destruct u, v; try congruence; discriminate). destruct (dual_attained u v Hu Hv) as (f & L & <-).
  unfold carrying_cost, mean. rewrite !map_length, combine_length, <- E, Nat.min_id.
  assert (0 < INR (length u)) as Hn by (apply lt_0_INR; destruct u; [congruence|cbn; lia]).
  replace (rsum (map f u) / INR (length u) - rsum (map f v) / INR (length u)) with ((rsum (map f u) - rsum (map f v)) / INR (length u)) by (field; lra).
  unfold Rdiv. apply Rmult_le_compat_r; [now apply Rlt_le, Rinv_0_lt_compat|]. clear - E L. revert v E. induction u as [|x u IH]; intros [|y v] E; try discriminate E; [cbn; lra|].
  injection E as E. specialize (IH v E). cbn [map combine rsum fold_right fst snd]. change (fold_right Rplus 0) with rsum. pose proof (L x y). pose proof (Rle_abs (f x - f y)). lra.
Qed.
Lemma distance_perm u v u' v' : u <> [] -> v <> [] -> Permutation u u' -> Permutation v v' -> distance u v = distance u' v'.
Proof.
  intros Hu Hv Pu Pv. apply (dual_unique _ _ u v u' v'); [intros f; now apply mean_perm|intros f; now apply mean_perm|now apply distance_dual|].
  apply distance_dual; intros ->; [apply Permutation_sym, Permutation_nil in Pu|apply Permutation_sym, Permutation_nil in Pv]; congruence.
Qed.
(** Re-pairing: a permutation of the first list is a permutation of the second. *)
Lemma combine_perm (u u' v' : list R) : Permutation u u' -> length u' = length v' -> exists v, Permutation v' v /\ Permutation (combine u v) (combine u' v').
Proof.
  intros P. revert v'. induction P as [|x l l' P IH|x y l|l1 l2 l3 P1 IH1 P2 IH2]; intros v' E.
  - exists v'. split; [apply Permutation_refl|]. destruct v'; apply Permutation_refl.
  - destruct v' as [|y v']; [discriminate E|]. injection E as E. destruct (IH v' E) as (v & Pv & Pc). exists (y :: v). split; [now constructor|]. cbn. now constructor.
  - destruct v' as [|a [|b v']]; try discriminate E. exists (b :: a :: v'). split; [constructor|]. cbn. constructor.
  - destruct (IH2 v' E) as (v2 & Pv2 & Pc2). destruct (IH1 v2) as (v1 & Pv1 & Pc1).
    { rewrite <- (Permutation_length Pv2), <- E. now apply Permutation_length. }
    exists v1. split; eapply perm_trans; eauto.
Qed.
Lemma distance_primal u v : u <> [] -> length u = length v -> cheapest_matching (distance u v) u v.
Proof.
  intros Hu E. assert (v <> []) as Hv by (destruct u, v; try congruence; discriminate). split.
  - intros v' P. rewrite (distance_perm u v u v' Hu Hv (Permutation_refl _) P). apply matching_lower; auto. rewrite E. now apply Permutation_length.
  - destruct (combine_perm u (sort u) (sort v) (sort_perm u)) as (v1 & P1 & Pc).
    { rewrite <- (Permutation_length (sort_perm u)), <- (Permutation_length (sort_perm v)). exact E. }
    exists v1. split; [eapply perm_trans; [apply sort_perm|exact P1]|]. rewrite <- sorted_matching by auto. unfold carrying_cost. now apply mean_perm.
Qed.

(** Parts. *)
Lemma parts_length k l : length (parts k l) = (length l * k)%nat.
Proof. induction l as [|x l IH]; [reflexivity|]. unfold parts in *. cbn [flat_map]. rewrite app_length, repeat_length, IH. reflexivity. Qed.
Lemma rsum_app l l' : rsum (l ++ l') = rsum l + rsum l'.
Proof. induction l as [|x l IH]; [change (rsum l' = 0 + rsum l'); lra|]. change (x + rsum (l ++ l') = x + rsum l + rsum l'). rewrite IH. lra. Qed.
Lemma rsum_repeat x k : rsum (repeat x k) = INR k * x.
Proof. induction k as [|k IH]; [cbn; lra|]. rewrite S_INR. cbn [repeat rsum fold_right]. change (fold_right Rplus 0) with rsum. rewrite IH. lra. Qed.
Lemma map_rep {A B} (f : A -> B) x k : map f (repeat x k) = repeat (f x) k.
Proof. induction k; cbn; congruence. Qed.
Lemma parts_sum f k l : rsum (map f (parts k l)) = INR k * rsum (map f l).
Proof.
  induction l as [|x l IH]; [cbn; lra|]. unfold parts in *. cbn [flat_map]. rewrite map_app, rsum_app, IH, map_rep, rsum_repeat. cbn [map rsum fold_right]. change (fold_right Rplus 0) with rsum. lra.
Qed.
Lemma parts_mean f k l : (0 < k)%nat -> l <> [] -> mean (map f l) = mean (map f (parts k l)).
Proof.
  intros Hk Hl. unfold mean. rewrite !map_length, parts_length, parts_sum, mult_INR. field. assert (INR k <> 0) by (apply not_0_INR; lia). assert (INR (length l) <> 0) by (apply not_0_INR; destruct l; [congruence|discriminate]). tauto.
Qed.
Lemma parts_nil k l : (0 < k)%nat -> l <> [] -> parts k l <> [].
Proof. intros Hk Hl E. apply (f_equal (@length R)) in E. rewrite parts_length in E. destruct l; [congruence|]. cbn [length] in E. apply Nat.eq_mul_0 in E. destruct E; [discriminate|lia]. Qed.
Lemma distance_parts u v : u <> [] -> v <> [] -> cheapest_matching (distance u v) (parts (length v) u) (parts (length u) v).
Proof.
  intros Hu Hv. assert (0 < length u)%nat as Nu by (destruct u; [congruence|cbn; lia]). assert (0 < length v)%nat as Nv by (destruct v; [congruence|cbn; lia]).
  assert (distance u v = distance (parts (length v) u) (parts (length u) v)) as ->.
  { apply (dual_unique _ _ u v (parts (length v) u) (parts (length u) v)); [intros f; now apply parts_mean|intros f; now apply parts_mean|now apply distance_dual|].
    apply distance_dual; now apply parts_nil. }
  apply distance_primal; [now apply parts_nil|]. rewrite !parts_length. lia.
Qed.

(** Metric axioms. *)
Lemma neg_lipschitz f : lipschitz f -> lipschitz (fun x => - f x).
Proof. intros L x y. replace (- f x - - f y) with (- (f x - f y)) by ring. rewrite Rabs_Ropp. apply L. Qed.
Lemma mean_neg (f : R -> R) l : mean (map (fun x => - f x) l) = - mean (map f l).
Proof. unfold mean. rewrite !map_length. assert (rsum (map (fun x => - f x) l) = - rsum (map f l)) as ->; [|unfold Rdiv; ring]. induction l as [|x l IH]; cbn; [lra|]. unfold rsum in IH. rewrite IH. lra. Qed.
Lemma distance_nonneg u v : 0 <= distance u v.
Proof. unfold distance. rewrite <- (over_zero (sort (u ++ v))). apply over_le. intros a b H. apply pairs_le in H; [|apply sort_sorted]. apply Rmult_le_pos; [apply Rabs_pos|lra]. Qed.
Lemma distance_sym u v : u <> [] -> v <> [] -> distance u v = distance v u.
Proof.
  assert (forall u v, u <> [] -> v <> [] -> distance u v <= distance v u) as K.
  { clear. intros u v Hu Hv. destruct (dual_attained u v Hu Hv) as (f & L & <-). pose proof (dual_upper (fun x => - f x) v u Hv Hu (neg_lipschitz f L)) as H. rewrite !mean_neg in H. lra. }
  intros. apply Rle_antisym; now apply K.
Qed.
Lemma distance_triangle u v w : u <> [] -> v <> [] -> w <> [] -> distance u w <= distance u v + distance v w.
Proof.
  intros Hu Hv Hw. destruct (dual_attained u w Hu Hw) as (f & L & <-). pose proof (dual_upper f u v Hu Hv L). pose proof (dual_upper f v w Hv Hw L). lra.
Qed.
Lemma over_zero_iff {A} (z : list A) h : (forall a b, In (a, b) (pairs z) -> 0 <= h a b) -> over z h = 0 -> forall a b, In (a, b) (pairs z) -> h a b = 0.
Proof.
  unfold over. generalize (pairs z). clear z. induction l as [|[c d] l IH]; intros H E a b I; [destruct I|]. cbn [map rsum fold_right fst snd] in E. change (fold_right Rplus 0) with rsum in E.
  assert (0 <= rsum (map (fun ab => h (fst ab) (snd ab)) l)) by (apply rsum_nonneg; intros x Hx; apply in_map_iff in Hx; destruct Hx as ([p q] & <- & Hpq); apply H; now right).
  pose proof (H c d (or_introl eq_refl)). destruct I as [[= <- <-]|I]; [lra|]. apply IH; auto; [intros; apply H; now right|lra].
Qed.
(** The largest element of a sorted list at or below [x]. *)
Lemma share_const l z : StronglySorted Rle z -> incl l z -> forall x, (exists a b, In (a, b) (pairs z) /\ a < b /\ share_below l x = share_below l a /\ a <= x < b) \/ (forall y, In y z -> y <= x) \/ (forall y, In y z -> x < y).
Proof.
  intros S I x. assert (forall a b, (forall y, In y l -> y <= a \/ b <= y) -> a <= x < b -> share_below l x = share_below l a) as K.
  { clear - l. intros a b H Hx. unfold share_below. do 3 f_equal. apply filter_ext_in. intros y Hy. destruct (H y Hy) as [H1|H1].
    - rewrite (proj2 (Rleb_true y x)), (proj2 (Rleb_true y a)); auto; lra.
    - rewrite (proj2 (Rleb_false y x)), (proj2 (Rleb_false y a)); auto; lra. }
  enough ((exists a b, In (a, b) (pairs z) /\ a < b /\ (forall y, In y z -> y <= a \/ b <= y) /\ a <= x < b) \/ (forall y, In y z -> y <= x) \/ (forall y, In y z -> x < y)) as [(a & b & P & L & Q & Hx)|H]; [left|now right|].
  { exists a, b. split; [exact P|]. split; [exact L|]. split; [|exact Hx]. apply (K a b); auto. }
  clear K I l. induction z as [|a [|b r] IH].
  - right. left. intros y [].
  - destruct (Rle_dec a x); [right; left|right; right]; intros y [<-|[]]; lra.
  - apply StronglySorted_inv in S. destruct S as [S F]. rewrite Forall_forall in F. apply StronglySorted_inv in S as S'. destruct S' as [_ F']. rewrite Forall_forall in F'.
    assert (a <= b) as Hab by (apply F; now left).
    destruct (Rle_dec a x) as [Ha|Ha]; [|right; right; intros y [<-|Hy]; [lra|specialize (F y Hy); lra]].
    destruct (Rle_dec b x) as [Hb|Hb].
    + destruct (IH S) as [(c & d & P & L & Q & Hx)|[H|H]].
      * left. exists c, d. rewrite pairs_cons. split; [now right|]. split; [exact L|]. split; [|exact Hx]. intros y [<-|Hy]; [|now apply Q].
        left. apply pairs_In in P. apply F. apply P.
      * right. left. intros y [<-|Hy]; [lra|now apply H].
      * specialize (H b (or_introl eq_refl)). lra.
    + left. exists a, b. rewrite pairs_cons. split; [now left|]. split; [lra|]. split; [|lra]. intros y [<-|[<-|Hy]]; [left; lra|right; lra|right; now apply F'].
Qed.
Lemma share_all l x : l <> [] -> (forall y, In y l -> y <= x) -> share_below l x = 1.
Proof.
  intros N H. unfold share_below. assert (filter (fun a => Rleb a x) l = l) as ->. { clear N. induction l as [|y l IH]; [reflexivity|]. cbn. rewrite (proj2 (Rleb_true y x)) by (apply H; now left). f_equal. apply IH. intros; apply H; now right. }
  apply Rinv_r. apply not_0_INR. destruct l; [congruence|discriminate].
Qed.
Lemma share_none l x : (forall y, In y l -> x < y) -> share_below l x = 0.
Proof. intros H. unfold share_below. fold (cnt l x). rewrite cnt_high by exact H. unfold Rdiv. ring. Qed.
Lemma distance_zero u v : u <> [] -> v <> [] -> (distance u v = 0 <-> same_distribution u v).
Proof.
  intros Hu Hv. split.
  - intros E x. set (z := sort (u ++ v)). pose proof (sort_sorted (u ++ v)) as S. fold z in S.
    assert (incl (u ++ v) z) as Iz by (intros y Hy; exact (Permutation_in _ (sort_perm _) Hy)).
    destruct (share_const (u ++ v) z S Iz x) as [(a & b & P & L & _ & Hx)|[H|H]].
    + assert (forall l, incl l z -> forall w, share_below l x = share_below l w -> True) as _ by auto.
      assert (forall l, incl l z -> share_below l x = share_below l a) as Ks.
      { intros l Il. unfold share_below. do 3 f_equal. apply filter_ext_in. intros y Hy. destruct (Rle_dec y a) as [H1|H1].
        - rewrite (proj2 (Rleb_true y x)), (proj2 (Rleb_true y a)); auto; lra.
        - rewrite (proj2 (Rleb_false y a)) by lra. apply Rleb_false. assert (In y z) as Hz by (apply Il; exact Hy). clear - S P Hz H1 L Hx.
          assert (y <= a \/ b <= y) as [|]; [|lra|lra]. revert S P Hz. generalize z as zz. clear - H1. induction zz as [|c [|d r] IH]; intros S P Hz; [destruct Hz|destruct P|].
          apply StronglySorted_inv in S. destruct S as [S F]. rewrite Forall_forall in F. apply StronglySorted_inv in S as S'. destruct S' as [_ F']. rewrite Forall_forall in F'. rewrite pairs_cons in P.
          destruct P as [[= <- <-]|P].
          + destruct Hz as [<-|[<-|Hz]]; [left; lra|right; lra|right; now apply F'].
          + destruct Hz as [<-|Hz]; [left|now apply IH]. apply pairs_In in P. apply F, P. }
      rewrite (Ks u), (Ks v); [|intros y Hy; apply Iz, in_app_iff; now right|intros y Hy; apply Iz, in_app_iff; now left].
      assert (Rabs (share_below u a - share_below v a) * (b - a) = 0) as Z.
      { apply (over_zero_iff z (fun a b => Rabs (share_below u a - share_below v a) * (b - a))); auto. intros c d Hcd. apply pairs_le in Hcd; [|exact S]. apply Rmult_le_pos; [apply Rabs_pos|lra]. }
      apply Rmult_integral in Z. destruct Z as [Z|Z]; [|lra]. destruct (Req_dec (share_below u a - share_below v a) 0) as [H0|H0]; [lra|]. apply Rabs_no_R0 in H0. contradiction.
    + rewrite !share_all; auto; intros y Hy; apply H, Iz, in_app_iff; auto.
    + rewrite !share_none; auto; intros y Hy; apply H, Iz, in_app_iff; auto.
  - intros H. unfold distance. rewrite <- (over_zero (sort (u ++ v))). apply over_ext. intros a b _. rewrite (H a), Rminus_eq_0, Rabs_R0. lra.
Qed.

(** The model's value. *)
Lemma np_leb_Fin x y : np_leb (Fin x) (Fin y) = Rleb x y.
Proof.
  unfold np_leb. cbn [isnan negb orb andb]. unfold vleb, vltb, veqb. destruct (Rleb x y) eqn:E.
  - apply Rleb_true in E. destruct (Rltb x y) eqn:L; [reflexivity|]. apply Rltb_false in L. cbn. apply Reqb_true. lra.
  - apply Rleb_false in E. rewrite (proj2 (Rltb_false x y)) by lra. cbn. apply Reqb_false. lra.
Qed.
Lemma vinsert_Fin x l : vinsert (Fin x) (map Fin l) = map Fin (insert x l).
Proof.
  induction l as [|y l IH]; [reflexivity|]. cbn [map vinsert insert]. rewrite np_leb_Fin. destruct (Rltb y x) eqn:E.
  - apply Rltb_true in E. rewrite (proj2 (Rleb_false x y)) by lra. cbn [map]. now rewrite IH.
  - apply Rltb_false in E. rewrite (proj2 (Rleb_true x y)) by lra. reflexivity.
Qed.
Lemma vsort_Fin l : vsort (map Fin l) = map Fin (sort l).
Proof. induction l as [|x l IH]; [reflexivity|]. unfold vsort, sort in *. cbn [map fold_right]. rewrite IH. apply vinsert_Fin. Qed.
Lemma pairs_map {A B} (f : A -> B) l : pairs (map f l) = map (fun ab => (f (fst ab), f (snd ab))) (pairs l).
Proof. induction l as [|a [|b r] IH]; [reflexivity|reflexivity|]. change (map f (a :: b :: r)) with (f a :: f b :: map f r). rewrite !pairs_cons. cbn [map fst snd]. f_equal. exact IH. Qed.
Lemma cdf_at_Fin u x : cdf_at (map Fin u) (Fin x) = Fin (share_below u x).
Proof.
  unfold cdf_at, share_below. rewrite map_length. do 3 f_equal. induction u as [|y u IH]; [reflexivity|]. cbn [map filter]. rewrite np_leb_Fin. destruct (Rleb y x); cbn [length]; now rewrite IH.
Qed.
Lemma vsum_reals {A} (h : A -> val) k l : (forall x, h x = Fin (k x)) -> vsum (map h l) = Fin (rsum (map k l)).
Proof. intros H. induction l as [|x l IH]; [reflexivity|]. change (vadd (h x) (vsum (map h l)) = Fin (k x + rsum (map k l))). rewrite IH, H. reflexivity. Qed.
Lemma wasserstein_Fin u v : u <> [] -> v <> [] -> wasserstein_distance (map Fin u) (map Fin v) = Ok (Fin (distance u v)).
Proof.
  intros Hu Hv. unfold wasserstein_distance. destruct u as [|x u]; [congruence|]. destruct v as [|y v]; [congruence|]. change (map Fin (x :: u)) with (Fin x :: map Fin u) at 1. change (map Fin (y :: v)) with (Fin y :: map Fin v) at 1. cbv iota.
  f_equal. rewrite <- map_app, vsort_Fin, pairs_map, map_map. unfold distance, over. generalize (pairs (sort ((x :: u) ++ y :: v))). intros l. apply vsum_reals. intros [a b]. cbn [fst snd]. rewrite !cdf_at_Fin. reflexivity.
Qed.
(** NaN. *)
Lemma vinsert_In x l y : In y (vinsert x l) <-> y = x \/ In y l.
Proof. induction l as [|z l IH]; cbn [vinsert]; [cbn; intuition congruence|]. destruct (np_leb x z); cbn [In]; [intuition congruence|]. rewrite IH. cbn [In]. intuition congruence. Qed.
Lemma vsort_In l y : In y (vsort l) <-> In y l.
Proof. unfold vsort. induction l as [|x l IH]; [reflexivity|]. cbn [fold_right]. rewrite vinsert_In, IH. cbn [In]. intuition congruence. Qed.
Lemma vinsert_length x l : length (vinsert x l) = S (length l).
Proof. induction l as [|y l IH]; [reflexivity|]. cbn. destruct (np_leb x y); cbn; congruence. Qed.
Lemma vsort_length l : length (vsort l) = length l.
Proof. unfold vsort. induction l as [|x l IH]; [reflexivity|]. cbn [fold_right]. rewrite vinsert_length. cbn. congruence. Qed.
Lemma pairs_has {A} (x : A) l : In x l -> (2 <= length l)%nat -> exists a b, In (a, b) (pairs l) /\ (a = x \/ b = x).
Proof.
  induction l as [|a [|b r] IH]; [intros []|cbn; lia|]. intros I _. destruct I as [->|I]; [exists x, b; split; [now left|now left]|].
  destruct r as [|c r]; [destruct I as [->|[]]; exists a, x; split; [now left|now right]|].
  destruct (IH I) as (p & q & H & E); [cbn; lia|]. exists p, q. split; [now right|exact E].
Qed.
Lemma vsum_NaN l : In NaN l -> vsum l = NaN.
Proof. induction l as [|x l IH]; [intros []|]. intros [->|H]; [reflexivity|]. cbn [vsum fold_right]. change (fold_right vadd (Fin 0) l) with (vsum l). rewrite (IH H). destruct x; reflexivity. Qed.
Lemma wasserstein_NaN us vs : us <> [] -> vs <> [] -> In NaN (us ++ vs) -> wasserstein_distance us vs = Ok NaN.
Proof.
  intros Hu Hv I. unfold wasserstein_distance. destruct us as [|x us]; [congruence|]. destruct vs as [|y vs]; [congruence|]. f_equal. apply vsum_NaN.
  destruct (pairs_has NaN (vsort ((x :: us) ++ y :: vs))) as (a & b & H & E); [now apply vsort_In|rewrite vsort_length, app_length; cbn; lia|].
  apply in_map_iff. exists (a, b). split; [|exact H]. cbn [fst snd]. destruct E as [-> | ->]; [destruct b|destruct a]; cbn; reflexivity.
Qed.
