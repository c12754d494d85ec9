(** Specification vocabulary for nested structures: access by path. *)
From Coq Require Import String List.
Import ListNotations.
From Verif Require Import Prelude Model_Tree.

Inductive step := Key (k : string) | Idx (n : nat).
Definition path := list step.

(** The sub-structure found by indexing successively. *)
Fixpoint at_path {A} (t : tree A) (p : path) : option (tree A) :=
  match p with
  | [] => Some t
  | s :: p' =>
      match t, s with
      | Dict kvs, Key k => match dget kvs k with Some t' => at_path t' p' | None => None end
      | Seq ts, Idx n => match nth_error ts n with Some t' => at_path t' p' | None => None end
      | Dset kvs, Key k => match dget kvs k with Some a => at_path (Leaf a) p' | None => None end
      | _, _ => None
      end
  end.

(** Structures made of dicts (whose keys are distinct, as in Python), lists/tuples and leaves. *)
Fixpoint plain {A} (t : tree A) : Prop :=
  match t with
  | Leaf _ => True
  | Dict kvs => NoDup (map fst kvs) /\
      (fix go l := match l with [] => True | (_, t) :: l' => plain t /\ go l' end) kvs
  | Seq ts => (fix go l := match l with [] => True | t :: l' => plain t /\ go l' end) ts
  | Dset _ => False
  end.

(** Two structures with the same keys in the same order and the same lengths. *)
Inductive same_shape {A B} : tree A -> tree B -> Prop :=
| SS_leaf a b : same_shape (Leaf a) (Leaf b)
| SS_dict kvs kvs' : same_items kvs kvs' -> same_shape (Dict kvs) (Dict kvs')
| SS_seq ts ts' : same_list ts ts' -> same_shape (Seq ts) (Seq ts')
with same_items {A B} : list (string * tree A) -> list (string * tree B) -> Prop :=
| SI_nil : same_items [] []
| SI_cons k t t' l l' : same_shape t t' -> same_items l l' -> same_items ((k, t) :: l) ((k, t') :: l')
with same_list {A B} : list (tree A) -> list (tree B) -> Prop :=
| SL_nil : same_list [] []
| SL_cons t t' l l' : same_shape t t' -> same_list l l' -> same_list (t :: l) (t' :: l').

(** [s] has (at least) every path of [t], with containers of the same kind:
    extra keys and extra list elements of [s] are permitted. *)
Definition covers {A} (s t : tree A) : Prop :=
  forall p u, at_path t p = Some u ->
    match u with
    | Leaf _ => exists v, at_path s p = Some v
    | Dict _ => exists kvs, at_path s p = Some (Dict kvs)
    | Seq _ => exists ts, at_path s p = Some (Seq ts)
    | Dset _ => exists kvs, at_path s p = Some (Dset kvs)
    end.
