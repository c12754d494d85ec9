(** What the interpolations are meant to do. *)
From Coq Require Import String ZArith QArith Qreals Qcanon Bool List Sorted.
Import ListNotations.
From Verif Require Import Prelude Values Model_XArray Spec_XArray Model_Binning Model_MetricsBase.
From Coq Require Import Reals.
Local Open Scope R_scope.
Local Open Scope list_scope.

(** The number of a coordinate label. *)
Definition number (l : label) : R := Q2R (lnum l).
Definition numeric (ls : list label) : Prop := forall l, In l ls -> (exists z, l = LZ z) \/ (exists q, l = LQ q).
(** Strictly ascending; pairwise different numbers. *)
Definition ascending (ls : list label) : Prop := StronglySorted (fun a b => number a < number b) ls.
Definition distinct (ls : list label) : Prop := forall a b, In a ls -> In b ls -> number a = number b -> a = b.

(** Applying functions one after the other. *)
Inductive in_sequence {A B : Type} (apply : B -> A -> result A) : list B -> A -> A -> Prop :=
| seq_done : forall a, in_sequence apply [] a a
| seq_next : forall f fs a b c, apply f a = Ok b -> in_sequence apply fs b c -> in_sequence apply (f :: fs) a c.

(** Two neighbouring labels among [ls] that enclose the number [t]. *)
Definition encloses (ls : list label) (l1 l2 : label) (t : R) : Prop :=
  In l1 ls /\ In l2 ls /\ number l1 < number l2 /\ number l1 <= t <= number l2 /\
  forall l, In l ls -> number l <= number l1 \/ number l2 <= number l.
(** The point at [t] of the line through (x1, y1) and (x2, y2). *)
Definition on_line (x1 y1 x2 y2 t : R) : R := y1 + (t - x1) / (x2 - x1) * (y2 - y1).
(** The nearest label; of two equally near ones the lower. *)
Definition nearest_label (ls : list label) (l : label) (t : R) : Prop :=
  In l ls /\ forall l', In l' ls -> Rabs (t - number l) < Rabs (t - number l') \/ (Rabs (t - number l) = Rabs (t - number l') /\ number l <= number l').
(** Within the range of the labels. *)
Definition in_range (ls : list label) (t : R) : Prop :=
  (exists l, In l ls /\ number l <= t) /\ (exists l, In l ls /\ t <= number l).

(** ** Altitude adjustment *)
(** Difference that counts: 0 if it is not below the limit in absolute value, or unknown. *)
Definition counted_difference (limit : R) (elevation grid : val) : R :=
  match elevation, grid with
  | Fin x, Fin y => if Rlt_dec (Rabs (x - y)) limit then x - y else 0
  | _, _ => 0
  end.
(** 6.5 K per km. *)
Definition temperature_change (d : R) : R := - (65 / 10000) * d.
(** 1 up to 100 m, 3 from 1100 m on, and linear in between. *)
Definition wind_speed_factor (d : R) : R := Rmin 3 (Rmax 1 (1 + 2 * (d - 100) / 1000)).

(** ** Interpolation along several dimensions *)
From Verif Require Import Model_Interp.
(** A grid [G] of new points: every target lives on it, and on none of the other interpolated
    dimensions; dimensions of [a] that are not interpolated and occur in [G] have the same labels
    there. *)
Definition target_grid (args : dict string target) (a : da) (G : dimlist) : Prop :=
  NoDup (map fst args) /\ NoDup (map fst G) /\
  (forall d t, In (d, t) args ->
     incl (t_dims t) G /\ NoDup (map fst (t_dims t)) /\ (forall d', In d' (map fst args) -> d' <> d -> ~ In d' (map fst (t_dims t))) /\
     (forall e e' : env, (forall k, In k (map fst (t_dims t)) -> e k = e' k) -> t_get t e = t_get t e')) /\
  (forall k m m', In (k, m) (dims a) -> ~ In k (map fst args) -> In (k, m') G -> m = m').
(** All targets are numbers within the range of the labels of the array. *)
Definition targets_inside (args : dict string target) (a : da) : Prop :=
  forall d t, In (d, t) args -> exists ls, dget (dims a) d = Some ls /\ numeric ls /\ distinct ls /\ (2 <= length ls)%nat /\
    forall e, point_of (t_dims t) e -> numeric [t_get t e] /\ in_range ls (number (t_get t e)).
(** The point [e] with the labels of [g] along the interpolated dimensions. *)
Definition at_labels (args : dict string target) (g : string -> label) (e : env) : env :=
  fun k => if memb k (map fst args) then g k else e k.
Definition values_in (C : R -> Prop) (a : da) : Prop := forall e, point_of (dims a) e -> exists y, get a e = Fin y /\ C y.

(** ** Interpolation to a reference *)
(** Value of the coordinate [n] of [r] at a point: the label along the dimension of that name, or the
    non-dimension coordinate; and the dimensions it depends on. *)
Definition has_coordinate (r : da) (n : string) : Prop := In n (dnames r) \/ exists c, dget (aux r) n = Some c.
Definition coordinate_value (r : da) (n : string) (e : env) : label :=
  match dget (dims r) n with
  | Some _ => e n
  | None => match dget (aux r) n with Some c => c_get c e | None => LS "" end
  end.
Definition coordinate_dims (r : da) (n : string) : list string :=
  match dget (dims r) n with
  | Some _ => [n]
  | None => match dget (aux r) n with Some c => c_dims c | None => [] end
  end.
(** Coordinates depend only on their dimensions, which are dimensions of the array. *)
Definition coords_local (r : da) : Prop :=
  forall n c, dget (aux r) n = Some c -> incl (c_dims c) (dnames r) /\
    forall e e' : env, (forall k, In k (c_dims c) -> e k = e' k) -> c_get c e = c_get c e'.
