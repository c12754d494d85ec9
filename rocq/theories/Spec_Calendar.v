(** The Gregorian calendar, independently of the formulas of the model. *)
From Coq Require Import String ZArith QArith Qcanon List.
Import ListNotations.
From Verif Require Import Model_XArray Spec_Binning.
Local Open Scope Z_scope.
Local Open Scope string_scope.

Definition leap (y : Z) : Prop := (y mod 4 = 0 /\ y mod 100 <> 0) \/ y mod 400 = 0.
(** 1 January of year [y] is day number [D] (day 0: 1970-01-01). *)
Inductive jan1 : Z -> Z -> Prop :=
| jan1_epoch : jan1 1970 0
| jan1_next y D n : jan1 y D -> (leap y -> n = 366) -> (~ leap y -> n = 365) -> jan1 (y + 1) (D + n)
| jan1_prev y D n : jan1 (y + 1) D -> (leap y -> n = 366) -> (~ leap y -> n = 365) -> jan1 y (D - n).
(** [n] days precede month [mo] of year [y], which has [len] days. *)
Inductive month (y : Z) : Z -> Z -> Z -> Prop :=
| month_jan : month y 1 0 31
| month_next mo n len len' : month y mo n len ->
    (In (mo + 1) [4; 6; 9; 11] -> len' = 30) ->
    (In (mo + 1) [3; 5; 7; 8; 10; 12] -> len' = 31) ->
    (mo + 1 = 2 -> leap y -> len' = 29) -> (mo + 1 = 2 -> ~ leap y -> len' = 28) -> mo < 12 ->
    month y (mo + 1) (n + len) len'.
(** The time stamp [t] (ns since the epoch) is date [y]-[mo]-[d] (day [doy] of the year, day
    number [day]) [h]:[mi]:[s] and a fraction. *)
Record civil (t y mo d doy day h mi s : Z) : Prop := {
  cv_day : exists D n len, jan1 y D /\ month y mo n len /\ 1 <= d <= len /\ doy = n + d /\ day = D + doy - 1;
  cv_h : 0 <= h < 24; cv_mi : 0 <= mi < 60; cv_s : 0 <= s < 60;
  cv_t : exists r, 0 <= r < 1000000000 /\ t = (((day * 24 + h) * 60 + mi) * 60 + s) * 1000000000 + r }.

(** Length in ns of the units of time deltas. *)
Definition unit_ns (unit : string) (n : Z) : Prop :=
  (unit = "minute" /\ n = 60 * 1000000000) \/ (unit = "hour" /\ n = 3600 * 1000000000) \/
  (unit = "day" /\ n = 86400 * 1000000000) \/ (unit = "week" /\ n = 7 * 86400 * 1000000000) \/
  (unit = "year" /\ n = 365 * 86400 * 1000000000).
(** The bin label [l] is the value of [unit] for the time [t]: for time deltas the number of
    whole units (rounded towards minus infinity; exact seconds), for time stamps the
    calendar component. *)
Inductive unit_value : bool -> string -> Z -> label -> Prop :=
| delta_second t q : (this q == inject_Z t / inject_Z 1000000000)%Q -> unit_value true "second" t (LQ q)
| delta_unit unit n t k q : unit_ns unit n -> k * n <= t < (k + 1) * n -> (this q == inject_Z k)%Q -> unit_value true unit t (LQ q)
| stamp_year t y mo d doy day h mi s : civil t y mo d doy day h mi s -> unit_value false "year" t (LZ y)
| stamp_month t y mo d doy day h mi s : civil t y mo d doy day h mi s -> unit_value false "month" t (LZ mo)
| stamp_day t y mo d doy day h mi s : civil t y mo d doy day h mi s -> unit_value false "day" t (LZ d)
| stamp_doy t y mo d doy day h mi s : civil t y mo d doy day h mi s -> unit_value false "dayofyear" t (LZ doy)
| stamp_hour t y mo d doy day h mi s : civil t y mo d doy day h mi s -> unit_value false "hour" t (LZ h)
| stamp_minute t y mo d doy day h mi s : civil t y mo d doy day h mi s -> unit_value false "minute" t (LZ mi)
| stamp_second t y mo d doy day h mi s : civil t y mo d doy day h mi s -> unit_value false "second" t (LZ s)
(** 0 is Monday; 1970-01-01 was a Thursday. *)
| stamp_weekday t y mo d doy day h mi s k w : civil t y mo d doy day h mi s -> day + 3 = 7 * k + w -> 0 <= w < 7 -> unit_value false "dayofweek" t (LZ w).
Definition unit_known (delta : bool) (unit : string) : Prop :=
  In unit (if delta then ["second"; "minute"; "hour"; "day"; "week"; "year"]
           else ["second"; "minute"; "hour"; "day"; "month"; "year"; "dayofyear"; "dayofweek"]).
Definition time_at (st : da) (name : string) (e : env) (t : Z) : Prop := coord_at st name e (LZ t).
