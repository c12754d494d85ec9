(** Specification vocabulary for the DataTree / Dataset representations. *)
From Coq Require Import String Ascii List Bool.
Import ListNotations.
From Verif Require Import Prelude Values Model_XArray Spec_XArray Model_Tree Spec_Tree Model_Aggregation Spec_Aggregation.
Local Open Scope list_scope.

(** The character occurs in the string. *)
Fixpoint occurs (c : ascii) (s : string) : Prop :=
  match s with EmptyString => False | String a s' => a = c \/ occurs c s' end.

(** A key usable as a tree node name. *)
Definition node_name (k : string) : Prop := ~ occurs "/"%char k.
(** A key that also survives being joined with a separator and read back as a path. *)
Definition plain_name (sep : ascii) (k : string) : Prop :=
  k <> ""%string /\ k <> "."%string /\ k <> ".."%string /\ ~ occurs "/"%char k /\ ~ occurs sep k.

(** Nested dictionaries (distinct keys satisfying [N]) with arrays at the leaves. *)
Fixpoint nested_dict (N : string -> Prop) (t : tree da) : Prop :=
  match t with
  | Leaf _ => True
  | Dict kvs => NoDup (map fst kvs) /\
      (fix go l := match l with [] => True | (k, t) :: l' => (N k /\ nested_dict N t) /\ go l' end) kvs
  | _ => False
  end.
(** No dictionary strictly inside is empty. *)
Fixpoint inner_nonempty (t : tree da) : Prop :=
  match t with
  | Dict kvs => (fix go l := match l with [] => True | (_, t) :: l' => (t <> Dict [] /\ inner_nonempty t) /\ go l' end) kvs
  | _ => True
  end.

(** [a] is the array at some path of the state (values or weights). *)
Definition in_state (s : tree da * tree da) (a : da) : Prop :=
  exists p, at_path (fst s) p = Some (Leaf a) \/ at_path (snd s) p = Some (Leaf a).
(** Compatible coordinates: arrays having a dimension in common have the same labels there. *)
Definition labels_agree (a b : da) : Prop :=
  forall d, In d (dnames a) -> In d (dnames b) -> forall l, In l (labels_of (dims a) d) <-> In l (labels_of (dims b) d).
(** Same keys at every level. *)
Definition same_keys (t u : tree da) : Prop := tree_rel (fun _ _ => True) t u.
