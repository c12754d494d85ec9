(** Vocabulary for reductions: the values of an array along one dimension. *)
From Coq Require Import String List Reals.
Import ListNotations.
From Verif Require Import Prelude Values Model_XArray.
Local Open Scope R_scope.

(** The values of [a] along [d] through the point [e], in the order of the labels of [d]. *)
Definition along (a : da) (d : string) (e : env) : list val :=
  map (fun l => get a (upd e d l)) (labels_of (dims a) d).

(** [q] is the average of the values among [vs] that are not NaN; there is at least one. *)
Definition average_of_valid (vs : list val) (q : R) : Prop :=
  exists xs, filter (fun v => negb (isnan v)) vs = map Fin xs /\ xs <> [] /\ q = rsum xs / INR (length xs).
