(** Vocabulary for neighbourhoods on a latitude/longitude grid. *)
From Coq Require Import String ZArith List Bool Reals.
Import ListNotations.
From Verif Require Import Prelude Values Model_XArray.
Local Open Scope R_scope.
Local Open Scope string_scope.
Local Open Scope list_scope.

(** The offsets -h, ..., h, and the square of pairs of them. *)
Definition offsets (h : nat) : list Z := map (fun k => (Z.of_nat k - Z.of_nat h)%Z) (seq 0 (2 * h + 1)).
Definition square (h : nat) : list (Z * Z) := list_prod (offsets h) (offsets h).

(** A grid: the labels of the two dimensions. *)
Definition grid (a : da) (lats lons : list label) : Prop :=
  dget (dims a) "latitude" = Some lats /\ dget (dims a) "longitude" = Some lons.
(** The point [e] is row [i], column [j]. *)
Definition at_position (lats lons : list label) (e : env) (i j : nat) : Prop :=
  nth_error lats i = Some (e "latitude") /\ nth_error lons j = Some (e "longitude").
(** The point moved to row [i] and column [j]; columns go round. *)
Definition moved (lats lons : list label) (e : env) (i j : Z) : env :=
  upd (upd e "latitude" (nth (Z.to_nat i) lats (LZ 0))) "longitude" (nth (Z.to_nat (j mod Z.of_nat (length lons))) lons (LZ 0)).
(** The neighbours of the point at row [i], column [j]. *)
Definition neighbours (h : nat) (lats lons : list label) (e : env) (i j : nat) : list env :=
  map (fun o => moved lats lons e (Z.of_nat i + fst o) (Z.of_nat j + snd o)) (square h).
(** The whole square lies on the grid (going round in longitude if wrapping). *)
Definition inside (h : nat) (wrap : bool) (lats lons : list label) (i j : nat) : Prop :=
  (h <= i /\ i + h < length lats /\ (wrap = true \/ (h <= j /\ j + h < length lons)))%nat.
Definition average (l : list R) : R := rsum l / INR (length l).
