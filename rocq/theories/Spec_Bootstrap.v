(** Vocabulary for the properties of the bootstrap. *)
From Coq Require Import String ZArith List Bool Reals.
Import ListNotations.
From Verif Require Import Prelude Values.
Local Open Scope R_scope.
Local Open Scope list_scope.

(** Replicates are numbers or NaN, at least one of them a number. *)
Definition usable (vs : list val) : Prop :=
  (forall v, In v vs -> v = NaN \/ exists x, v = Fin x) /\ exists x, In (Fin x) vs.

(** What numpy's generators guarantee: [n_replicates] draws each, rand in [0,1), randint in
    [0, n_data). *)
Definition proper_rand (n_replicates : nat) (rand : nat -> list R) : Prop :=
  forall t, length (rand t) = n_replicates /\ forall u, In u (rand t) -> 0 <= u < 1.
Definition proper_randint (n_data n_replicates : nat) (randint : nat -> list Z) : Prop :=
  forall t, length (randint t) = n_replicates /\ forall i, In i (randint t) -> (0 <= i < Z.of_nat n_data)%Z.

(** The index of replicate [r] at position [t]. *)
Definition index_at (rows : list (list Z)) (t r : nat) : Z := nth r (nth t rows []) 0%Z.
