(** Specification of the earth mover's (1-Wasserstein) distance of two finite samples of reals,
    without reference to how it is computed. *)
From Coq Require Import List Reals Permutation.
Import ListNotations.
From Verif Require Import Values.
Local Open Scope R_scope.

Definition mean (l : list R) : R := rsum l / INR (length l).
(** Functions that never change faster than their argument. *)
Definition lipschitz (f : R -> R) : Prop := forall x y, Rabs (f x - f y) <= Rabs (x - y).
(** [w] is the largest difference of the means of such a function. *)
Definition largest_mean_difference (w : R) (u v : list R) : Prop :=
  (forall f, lipschitz f -> mean (map f u) - mean (map f v) <= w) /\
  (exists f, lipschitz f /\ mean (map f u) - mean (map f v) = w).
(** The mean way when the k-th unit of [u] is carried to the k-th place of [v]. *)
Definition carrying_cost (u v : list R) : R := mean (map (fun xy => Rabs (fst xy - snd xy)) (combine u v)).
(** [w] is the smallest cost of carrying the units [u] to the places [v], one to each place. *)
Definition cheapest_matching (w : R) (u v : list R) : Prop :=
  (forall v', Permutation v v' -> w <= carrying_cost u v') /\
  (exists v', Permutation v v' /\ carrying_cost u v' = w).
(** Every element split into [k] equal parts. *)
Definition parts (k : nat) (l : list R) : list R := flat_map (fun x => repeat x k) l.
(** The share of a sample at or below [x]. *)
Definition share_below (l : list R) (x : R) : R := INR (length (filter (fun a => Rleb a x) l)) / INR (length l).
Definition same_distribution (u v : list R) : Prop := forall x, share_below u x = share_below v x.
