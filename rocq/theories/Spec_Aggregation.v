(** Specification vocabulary for aggregation states. *)
From Coq Require Import String List.
Import ListNotations.
From Verif Require Import Prelude Values Model_XArray Spec_XArray Model_Tree Spec_Tree Model_Aggregation.
From Coq Require Import Reals.
Local Open Scope R_scope.
Local Open Scope list_scope.

(** What an array contributes at a point of a larger box: its value there if it has
    all the labels, exactly 0 otherwise. *)
Definition contributes (a : da) (e : env) (v : val) : Prop :=
  (point_of (dims a) e -> v = get a e) /\ (~ point_of (dims a) e -> v = Fin 0).

(** Two trees with the same keys/lengths everywhere (key order is irrelevant) whose
    leaves at equal paths are related by [R]. *)
Definition tree_rel {A} (R : A -> A -> Prop) (t u : tree A) : Prop :=
  forall p, match at_path t p, at_path u p with
            | None, None => True
            | Some (Leaf a), Some (Leaf b) => R a b
            | Some (Dict _), Some (Dict _) => True
            | Some (Seq x), Some (Seq y) => length x = length y
            | _, _ => False
            end.

Definition state_rel (R : da -> da -> Prop) (s1 s2 : state) : Prop :=
  match s1, s2 with
  | None, None => True
  | Some (x1, y1), Some (x2, y2) => tree_rel R x1 x2 /\ tree_rel R y1 y2
  | _, _ => False
  end.

(** Equal as aggregation states: same nested keys, equal labelled arrays. *)
Definition state_equiv : state -> state -> Prop := state_rel da_equiv.

(** Summable states: same nested keys, arrays with the same dimension names. *)
Definition compatible : state -> state -> Prop :=
  state_rel (fun a b => wf a /\ wf b /\ same_dims a b).

Definition plain_state (s : state) : Prop :=
  match s with None => True | Some (x, y) => plain x /\ plain y end.

(** A nested sum expression: any bracketing, any arity (also empty and unary sums). *)
Inductive sum_expr := Atom (s : state) | SumOf (es : list sum_expr).
(** Its value, by repeated use of AggregationState.sum. *)
Fixpoint eval (e : sum_expr) : result state :=
  match e with
  | Atom s => Ok s
  | SumOf es =>
      do ss <- (fix go l := match l with [] => Ok [] | e' :: l' => do s <- eval e'; do ss <- go l'; Ok (s :: ss) end) es;
      state_sum ss
  end.
(** The non-zero states occurring in it. *)
Fixpoint atoms (e : sum_expr) : list (tree da * tree da) :=
  match e with
  | Atom (Some p) => [p]
  | Atom None => []
  | SumOf es => (fix go l := match l with [] => [] | e' :: l' => atoms e' ++ go l' end) es
  end.

(** The array found at a path of a tree. *)
Definition leaf_at (p : path) (t : tree da) : da := match at_path t p with Some (Leaf a) => a | _ => da_empty end.
