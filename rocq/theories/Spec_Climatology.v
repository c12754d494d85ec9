(** Where a climatology is read. *)
From Coq Require Import String ZArith List.
Import ListNotations.
From Verif Require Import Prelude Values Model_XArray Spec_XArray Spec_Binning Spec_Calendar Spec_Loaders.
Local Open Scope Z_scope.
Local Open Scope string_scope.
Local Open Scope list_scope.

(** The forecast [p] is valid at time [T] at the point [e]: its valid_time coordinate, without
    one the sum of its init_time and lead_time coordinates. *)
Definition forecast_time (p : da) (e : env) (T : Z) : Prop :=
  time_at p "valid_time" e T \/
  (~ has_coord p "valid_time" /\ exists i l, time_at p "init_time" e i /\ time_at p "lead_time" e l /\ T = i + l).
Definition has_times (p : da) : Prop :=
  has_coord p "valid_time" \/ (has_coord p "init_time" /\ has_coord p "lead_time").
(** The times of the forecast are time stamps. *)
Definition stamps (p : da) : Prop := forall e n l, point_of (dims p) e -> In n ["valid_time"; "init_time"; "lead_time"] ->
  coord_at p n e l -> exists T, l = LZ T.

(** The point [e'] of the climatology [c] belongs to the point [e] at time [T]: the same time,
    without a time coordinate the same day of the year and, if there are hours, the same hour;
    the other dimensions are as in [e]. *)
Inductive climatology_point (c : da) (e : env) (T : Z) (e' : env) : Prop :=
| cp_time : has_coord c "time" -> e' "time" = LZ T -> same_except ["time"] e e' -> climatology_point c e T e'
| cp_day_hour : ~ has_coord c "time" -> has_coord c "hour" ->
    unit_value false "dayofyear" T (e' "dayofyear") -> unit_value false "hour" T (e' "hour") ->
    same_except ["dayofyear"; "hour"] e e' -> climatology_point c e T e'
| cp_day : ~ has_coord c "time" -> ~ has_coord c "hour" ->
    unit_value false "dayofyear" T (e' "dayofyear") -> same_except ["dayofyear"] e e' -> climatology_point c e T e'.
(** The climatology has the labels of the point's times. *)
Definition in_climatology (c : da) (e' : env) : Prop :=
  (has_coord c "time" -> In (e' "time") (labels_of (dims c) "time")) /\
  (~ has_coord c "time" -> In (e' "dayofyear") (labels_of (dims c) "dayofyear")) /\
  (~ has_coord c "time" -> has_coord c "hour" -> In (e' "hour") (labels_of (dims c) "hour")).
