(** Vocabulary for intervals between quantiles. *)
From Coq Require Import List Reals Permutation Sorted.
Import ListNotations.
From Verif Require Import Prelude Values.
Local Open Scope R_scope.

(** [x] is the [q]-quantile of the values [xs] (linear interpolation between the order
    statistics): position q (n - 1) of the sorted values, counting from 0. *)
Definition quantile_of (q : R) (xs : list R) (x : R) : Prop :=
  exists ys k, Permutation xs ys /\ StronglySorted Rle ys /\ (k < length ys)%nat /\
    let h := q * (INR (length ys) - 1) in
    (h = INR k /\ x = nth k ys 0) \/
    ((S k < length ys)%nat /\ INR k <= h <= INR k + 1 /\ x = nth k ys 0 + (h - INR k) * (nth (S k) ys 0 - nth k ys 0)).

(** The intervals from [l] to [h] and from [l'] to [h'] have a common part of length [c]. *)
Definition common_length (l h l' h' c : R) : Prop :=
  (exists x y, x <= y /\ c = y - x /\ forall z, (l <= z <= h /\ l' <= z <= h') <-> x <= z <= y) \/
  (c = 0 /\ forall z, ~ (l <= z <= h /\ l' <= z <= h')).
