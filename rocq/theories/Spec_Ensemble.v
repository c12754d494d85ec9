(** Vocabulary for ensembles, as lists of real numbers. *)
From Coq Require Import String List Reals Permutation.
Import ListNotations.
From Verif Require Import Prelude Values Model_XArray.
Local Open Scope R_scope.

(** sum_i sum_j f x_i y_j *)
Definition sum2 {A B} (f : A -> B -> R) (xs : list A) (ys : list B) : R :=
  rsum (map (fun x => rsum (map (f x) ys)) xs).
Definition dist (x y : R) : R := Rabs (x - y).
Definition size {A} (l : list A) : R := INR (length l).
Definition mean (xs : list R) : R := rsum xs / size xs.
(** sample variance, ddof = 1 *)
Definition variance (xs : list R) : R := rsum (map (fun x => (x - mean xs) ^ 2) xs) / (size xs - 1).
(** E|X - Y| and E|X - X'| of the empirical distributions; [fair] averages over pairs of
    distinct members only. *)
Definition mean_dist (xs ys : list R) : R := sum2 dist xs ys / (size xs * size ys).
Definition spread (fair : bool) (xs : list R) : R :=
  sum2 dist xs xs / (size xs * (size xs - if fair then 1 else 0)).

(** The CRPS of an ensemble against one observation, and the energy distance of two ensembles. *)
Definition crps (fair : bool) (xs : list R) (y : R) : R :=
  rsum (map (fun x => Rabs (x - y)) xs) / size xs - 1 / 2 * spread fair xs.
Definition energy (fair : bool) (xs ys : list R) : R :=
  mean_dist xs ys - 1 / 2 * spread fair xs - 1 / 2 * spread fair ys.

(** [argsort] returns indices that sort; the order of ties is free. *)
Definition sorting_indices (xs : list R) (js : list nat) : Prop :=
  Permutation js (seq 0 (length xs)) /\
  forall k k' j j', (k <= k')%nat -> nth_error js k = Some j -> nth_error js k' = Some j' ->
    nth j xs 0 <= nth j' xs 0.
Definition argsort_ok (argsort : list val -> list nat) : Prop :=
  forall xs, sorting_indices xs (argsort (map Fin xs)).

(** The empirical distribution function of a list. *)
Definition ecdf (xs : list R) (z : R) : R := size (filter (fun x => Rleb x z) xs) / size xs.

(** The integral of a step function that is constant on [z_k, z_(k+1)) and vanishes outside the grid. *)
Fixpoint step_integral (zs : list R) (f : R -> R) : R :=
  match zs with
  | z :: ((z' :: _) as zs') => (z' - z) * f z + step_integral zs' f
  | _ => 0
  end.

(** Sum over ordered pairs of different members. *)
Definition sum_distinct (f : R -> R -> R) (xs : list R) : R :=
  let I := seq 0 (length xs) in
  sum2 (fun i j => if Nat.eqb i j then 0 else f (nth i xs 0) (nth j xs 0)) I I.

(** Two arrays that agree in everything but the ensemble dimension [d], along which no
    non-dimension coordinate varies. *)
Record ensemble_pair (d : string) (pv tv : da) : Prop := {
  ep_dims : keep (fun n => negb (eqb n d)) (dims tv) = keep (fun n => negb (eqb n d)) (dims pv);
  ep_aux : aux tv = aux pv;
  ep_keys : NoDup (keys (aux pv));
  ep_static : forall n c, In (n, c) (aux pv) -> ~ In d (c_dims c) /\ incl (c_dims c) (dnames pv) /\ forall e l, c_get c (upd e d l) = c_get c e }.
