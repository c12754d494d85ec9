(** Numeric values: exact reals plus the IEEE special values.
    numpy/xarray float arithmetic is modelled without rounding, overflow and
    signed zeros (DESIGN.md, section 1). *)
From Coq Require Import Reals Lra List Permutation Bool.
Import ListNotations.
Local Open Scope R_scope.

Inductive val := Fin (r : R) | NaN | PInf | NInf.

Definition Rltb (x y : R) : bool := if Rlt_dec x y then true else false.
Definition Rleb (x y : R) : bool := if Rle_dec x y then true else false.
Definition Reqb (x y : R) : bool := if Req_EM_T x y then true else false.

Lemma Rltb_true x y : Rltb x y = true <-> x < y.
Proof. unfold Rltb. destruct (Rlt_dec x y); split; congruence || tauto. Qed.
Lemma Rltb_false x y : Rltb x y = false <-> y <= x.
Proof. unfold Rltb. destruct (Rlt_dec x y); split; try congruence; try lra; auto. Qed.
Lemma Rleb_true x y : Rleb x y = true <-> x <= y.
Proof. unfold Rleb. destruct (Rle_dec x y); split; congruence || tauto. Qed.
Lemma Rleb_false x y : Rleb x y = false <-> y < x.
Proof. unfold Rleb. destruct (Rle_dec x y); split; try congruence; try lra; auto. Qed.
Lemma Reqb_true x y : Reqb x y = true <-> x = y.
Proof. unfold Reqb. destruct (Req_EM_T x y); split; congruence || tauto. Qed.
Lemma Reqb_false x y : Reqb x y = false <-> x <> y.
Proof. unfold Reqb. destruct (Req_EM_T x y); split; congruence || tauto. Qed.

(** IEEE addition *)
Definition vadd (a b : val) : val :=
  match a, b with
  | NaN, _ | _, NaN => NaN
  | Fin x, Fin y => Fin (x + y)
  | PInf, NInf | NInf, PInf => NaN
  | PInf, _ | _, PInf => PInf
  | NInf, _ | _, NInf => NInf
  end.

Definition vneg (a : val) : val :=
  match a with Fin x => Fin (- x) | NaN => NaN | PInf => NInf | NInf => PInf end.
Definition vsub (a b : val) : val := vadd a (vneg b).

(** sign of an extended value: Some 1/0/-1 as comparison *)
Definition rsign (x : R) : comparison :=
  if Rlt_dec 0 x then Gt else if Rlt_dec x 0 then Lt else Eq.
Definition vinf (c : comparison) : val :=
  match c with Gt => PInf | Lt => NInf | Eq => NaN end.
Definition vsign (a : val) : comparison :=
  match a with Fin x => rsign x | PInf => Gt | NInf => Lt | NaN => Eq end.
Definition cmul (a b : comparison) : comparison :=
  match a, b with
  | Eq, _ | _, Eq => Eq
  | Gt, Gt | Lt, Lt => Gt
  | _, _ => Lt
  end.

(** IEEE multiplication: infinity times zero is NaN *)
Definition vmul (a b : val) : val :=
  match a, b with
  | NaN, _ | _, NaN => NaN
  | Fin x, Fin y => Fin (x * y)
  | _, _ => vinf (cmul (vsign a) (vsign b))
  end.

(** IEEE division without signed zero: x/0 is NaN for x = 0, else an infinity
    with the sign of x. *)
Definition vdiv (a b : val) : val :=
  match a, b with
  | NaN, _ | _, NaN => NaN
  | Fin x, Fin y => if Req_EM_T y 0 then vinf (rsign x) else Fin (x / y)
  | Fin _, _ => Fin 0
  | _, Fin y => if Req_EM_T y 0 then a else vinf (cmul (vsign a) (rsign y))
  | _, _ => NaN
  end.

Definition vabs (a : val) : val :=
  match a with Fin x => Fin (Rabs x) | NaN => NaN | _ => PInf end.
(** numpy sqrt: NaN for negative arguments *)
Definition vsqrt (a : val) : val :=
  match a with
  | Fin x => if Rlt_dec x 0 then NaN else Fin (sqrt x)
  | PInf => PInf | _ => NaN
  end.
Definition isnan (a : val) : bool := match a with NaN => true | _ => false end.
Definition isfin (a : val) : bool := match a with Fin _ => true | _ => false end.

(** IEEE comparisons: false whenever NaN is involved *)
Definition vltb (a b : val) : bool :=
  match a, b with
  | NaN, _ | _, NaN => false
  | Fin x, Fin y => Rltb x y
  | NInf, NInf | PInf, _ => false
  | NInf, _ | _, PInf => true
  | Fin _, NInf => false
  end.
Definition veqb (a b : val) : bool :=
  match a, b with
  | Fin x, Fin y => Reqb x y
  | PInf, PInf | NInf, NInf => true
  | _, _ => false
  end.
Definition vleb (a b : val) : bool := vltb a b || veqb a b.
Definition b2v (b : bool) : val := Fin (if b then 1 else 0).

Arguments vadd !a !b.
Arguments vmul !a !b.
Arguments vdiv !a !b.
Arguments vltb !a !b.
Arguments veqb !a !b.

Definition vsum (l : list val) : val := fold_right vadd (Fin 0) l.
Definition vprod (l : list val) : val := fold_right vmul (Fin 1) l.
Definition rsum (l : list R) : R := fold_right Rplus 0 l.

(** ** Algebra *)
Lemma vadd_comm a b : vadd a b = vadd b a.
Proof. destruct a, b; simpl; try reflexivity. f_equal. lra. Qed.
Lemma vadd_assoc a b c : vadd a (vadd b c) = vadd (vadd a b) c.
Proof. destruct a, b, c; simpl; try reflexivity. f_equal. lra. Qed.
Lemma vadd_0_l a : vadd (Fin 0) a = a.
Proof. destruct a; simpl; try reflexivity. f_equal. lra. Qed.
Lemma vadd_0_r a : vadd a (Fin 0) = a.
Proof. rewrite vadd_comm. apply vadd_0_l. Qed.
Lemma vadd_NaN_l a : vadd NaN a = NaN.
Proof. reflexivity. Qed.
Lemma vadd_NaN_r a : vadd a NaN = NaN.
Proof. destruct a; reflexivity. Qed.

Lemma cmul_comm a b : cmul a b = cmul b a.
Proof. destruct a, b; reflexivity. Qed.
Lemma vmul_comm a b : vmul a b = vmul b a.
Proof. destruct a, b; simpl; try reflexivity; try (now rewrite cmul_comm). f_equal. lra. Qed.
Lemma vmul_1_l a : vmul (Fin 1) a = a.
Proof.
  destruct a; simpl; try reflexivity; [f_equal; lra| |];
  unfold rsign; (destruct (Rlt_dec 0 1); [reflexivity|lra]).
Qed.
Lemma vmul_1_r a : vmul a (Fin 1) = a.
Proof. rewrite vmul_comm. apply vmul_1_l. Qed.
Lemma vmul_NaN_l a : vmul NaN a = NaN.
Proof. reflexivity. Qed.
Lemma vmul_NaN_r a : vmul a NaN = NaN.
Proof. destruct a; reflexivity. Qed.

Lemma rsign_mul x y : rsign (x * y) = cmul (rsign x) (rsign y).
Proof.
  unfold rsign.
  destruct (Rlt_dec 0 x), (Rlt_dec x 0), (Rlt_dec 0 y), (Rlt_dec y 0),
    (Rlt_dec 0 (x * y)), (Rlt_dec (x * y) 0); simpl; try reflexivity; exfalso; try nra.
  all: try (assert (x = 0) by lra; subst; lra). all: try (assert (y = 0) by lra; subst; lra).
Qed.

Lemma vmul_assoc a b c : vmul a (vmul b c) = vmul (vmul a b) c.
Proof.
  destruct a as [x| | |], b as [y| | |], c as [z| | |]; simpl; try reflexivity;
  rewrite ?rsign_mul; try (f_equal; lra);
  repeat match goal with |- context [rsign ?t] =>
    let E := fresh "E" in destruct (rsign t) eqn:E; simpl; rewrite ?E; simpl end; reflexivity || discriminate.
Qed.

Lemma vsum_app l1 l2 : vsum (l1 ++ l2) = vadd (vsum l1) (vsum l2).
Proof.
  induction l1 as [|a l1 IH]; simpl; [now rewrite vadd_0_l|].
  now rewrite IH, vadd_assoc.
Qed.
Lemma vsum_perm l1 l2 : Permutation l1 l2 -> vsum l1 = vsum l2.
Proof.
  induction 1; simpl; auto; [now f_equal| |congruence].
  rewrite !vadd_assoc. now rewrite (vadd_comm y x).
Qed.
Lemma vsum_zero l : (forall x, In x l -> x = Fin 0) -> vsum l = Fin 0.
Proof.
  induction l as [|a l IH]; simpl; intros H; [reflexivity|].
  rewrite (H a) by auto. rewrite IH by auto. apply vadd_0_l.
Qed.
Lemma vsum_map_add {A} (f g : A -> val) l :
  vsum (map (fun a => vadd (f a) (g a)) l) = vadd (vsum (map f l)) (vsum (map g l)).
Proof.
  induction l as [|a l IH]; simpl; [symmetry; apply (vadd_0_l (Fin 0))|]. rewrite IH.
  rewrite !vadd_assoc. f_equal. rewrite <- !vadd_assoc. f_equal. apply vadd_comm.
Qed.
Lemma vsum_concat ls : vsum (concat ls) = vsum (map vsum ls).
Proof. induction ls; simpl; [reflexivity|]. now rewrite vsum_app, IHls. Qed.
Lemma vsum_swap {A B} (f : A -> B -> val) la lb :
  vsum (map (fun a => vsum (map (f a) lb)) la) = vsum (map (fun b => vsum (map (fun a => f a b) la)) lb).
Proof.
  induction la as [|a la IH]; simpl.
  - symmetry. apply vsum_zero. intros x Hx. apply in_map_iff in Hx. now destruct Hx as [? [<- _]].
  - now rewrite IH, vsum_map_add.
Qed.
Lemma vsum_NaN l : In NaN l -> vsum l = NaN.
Proof.
  induction l as [|a l IH]; simpl; [tauto|]. intros [->|H]; [reflexivity|].
  rewrite IH by auto. apply vadd_NaN_r.
Qed.
Lemma vprod_app l1 l2 : vprod (l1 ++ l2) = vmul (vprod l1) (vprod l2).
Proof.
  induction l1 as [|a l1 IH]; simpl; [now rewrite vmul_1_l|].
  now rewrite IH, vmul_assoc.
Qed.
Lemma vprod_NaN l : In NaN l -> vprod l = NaN.
Proof.
  induction l as [|a l IH]; simpl; [tauto|]. intros [->|H]; [reflexivity|].
  rewrite IH by auto. apply vmul_NaN_r.
Qed.

Lemma rsum_app l1 l2 : rsum (l1 ++ l2) = rsum l1 + rsum l2.
Proof. induction l1; simpl; [lra|]. rewrite IHl1. lra. Qed.
Lemma rsum_perm l1 l2 : Permutation l1 l2 -> rsum l1 = rsum l2.
Proof. induction 1; simpl; try lra. Qed.
Lemma vsum_Fin {A} (f : A -> R) l : vsum (map (fun a => Fin (f a)) l) = Fin (rsum (map f l)).
Proof. induction l; simpl; [reflexivity|]. now rewrite IHl. Qed.
Lemma vsum_map_Fin l : vsum (map Fin l) = Fin (rsum l).
Proof. induction l; simpl; [reflexivity|]. now rewrite IHl. Qed.
Lemma rsum_map_add {A} (f g : A -> R) l : rsum (map (fun a => f a + g a) l) = rsum (map f l) + rsum (map g l).
Proof. induction l; simpl; [lra|]. rewrite IHl. lra. Qed.
Lemma rsum_map_sub {A} (f g : A -> R) l : rsum (map (fun a => f a - g a) l) = rsum (map f l) - rsum (map g l).
Proof. induction l; simpl; [lra|]. rewrite IHl. lra. Qed.
Lemma rsum_map_scale {A} c (f : A -> R) l : rsum (map (fun a => c * f a) l) = c * rsum (map f l).
Proof. induction l; simpl; [lra|]. rewrite IHl. lra. Qed.
Lemma rsum_map_const {A} c (l : list A) : rsum (map (fun _ => c) l) = INR (length l) * c.
Proof. induction l; [simpl; lra|]. change (length (a :: l)) with (S (length l)). rewrite S_INR. simpl. rewrite IHl. lra. Qed.
Lemma rsum_map_le {A} (f g : A -> R) l : (forall a, In a l -> f a <= g a) -> rsum (map f l) <= rsum (map g l).
Proof. induction l; simpl; intros H; [lra|]. pose proof (H a (or_introl eq_refl)). pose proof (IHl (fun x Hx => H x (or_intror Hx))). lra. Qed.
Lemma rsum_map_ext {A} (f g : A -> R) l : (forall a, In a l -> f a = g a) -> rsum (map f l) = rsum (map g l).
Proof. intros H. f_equal. now apply map_ext_in. Qed.
Lemma rsum_nonneg l : (forall x, In x l -> 0 <= x) -> 0 <= rsum l.
Proof. induction l; simpl; intros H; [lra|]. pose proof (H a (or_introl eq_refl)). pose proof (IHl (fun x Hx => H x (or_intror Hx))). lra. Qed.
Lemma rsum_map_nonneg {A} (f : A -> R) l : (forall a, In a l -> 0 <= f a) -> 0 <= rsum (map f l).
Proof. intros H. apply rsum_nonneg. intros x Hx. apply in_map_iff in Hx. destruct Hx as [a [<- Ha]]. auto. Qed.
Lemma rsum_swap {A B} (f : A -> B -> R) la lb :
  rsum (map (fun a => rsum (map (f a) lb)) la) = rsum (map (fun b => rsum (map (fun a => f a b) la)) lb).
Proof.
  induction la as [|a la IH]; simpl.
  - induction lb; simpl; lra.
  - now rewrite IH, rsum_map_add.
Qed.
Lemma rsum_zero_iff l : (forall x, In x l -> 0 <= x) -> rsum l = 0 -> forall x, In x l -> x = 0.
Proof.
  induction l as [|a l IH]; simpl; [tauto|]. intros H Hs x Hx.
  pose proof (H a (or_introl eq_refl)). pose proof (rsum_nonneg l (fun x Hx => H x (or_intror Hx))).
  destruct Hx as [<-|Hx]; [lra|]. apply IH; auto. lra.
Qed.
