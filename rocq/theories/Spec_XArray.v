(** Specification vocabulary for labelled arrays. *)
From Coq Require Import String List Bool.
Import ListNotations.
From Verif Require Import Prelude Values Model_XArray.

(** [e] is a point of the coordinate box [ds]. *)
Definition point_of (ds : dimlist) (e : env) : Prop :=
  forall d ls, In (d, ls) ds -> In (e d) ls.

(** Well-formed array: distinct dimensions, distinct labels (pandas indexes
    without duplicates), and values that depend only on the array's own dimensions. *)
Definition wf (a : da) : Prop :=
  NoDup (dnames a) /\
  (forall d ls, In (d, ls) (dims a) -> NoDup ls) /\
  (forall e e', (forall d, In d (dnames a) -> e d = e' d) -> get a e = get a e').

(** Equality as labelled arrays: same dimension names, same labels along each of
    them, same value at every point. *)
Definition da_equiv (a b : da) : Prop :=
  (forall d, In d (dnames a) <-> In d (dnames b)) /\
  (forall d x, In x (labels_of (dims a) d) <-> In x (labels_of (dims b) d)) /\
  (forall e, point_of (dims a) e -> get a e = get b e).

(** Arrays over the same dimension names. *)
Definition same_dims (a b : da) : Prop := forall d, In d (dnames a) <-> In d (dnames b).
