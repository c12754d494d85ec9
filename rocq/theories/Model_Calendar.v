(** Calendar functions of numpy/pandas used through [.dt] accessors and np.datetime64 casts
    (metrics/base.py 379-388, binning.py 360-420, data_loaders/xarray_loaders.py 230-410,
    data_loaders/sparse_parquet.py 300-420): proleptic Gregorian calendar, times are
    integers (ns since 1970-01-01T00). *)
From Coq Require Import ZArith List.
Import ListNotations.
Local Open Scope Z_scope.

Definition ns_hour : Z := 3600000000000.
Definition ns_day : Z := 24 * ns_hour.
Definition day_of (t : Z) : Z := t / ns_day.
Definition hour_of (t : Z) : Z := (t mod ns_day) / ns_hour.

Definition is_leap (y : Z) : bool :=
  ((y mod 4 =? 0) && negb (y mod 100 =? 0) || (y mod 400 =? 0))%bool.
(** Leap years before year [y]. *)
Definition leaps_before (y : Z) : Z := (y - 1) / 4 - (y - 1) / 100 + (y - 1) / 400.
(** Day number of 1 January of year [y]. *)
Definition year_start (y : Z) : Z := 365 * (y - 1970) + (leaps_before y - leaps_before 1970).
(** The year of a day: estimate, then correct by at most one. *)
Definition year_of_day (d : Z) : Z :=
  let y := 400 * d / 146097 + 1970 in
  if d <? year_start y then y - 1 else if year_start (y + 1) <=? d then y + 1 else y.
Definition year_of (t : Z) : Z := year_of_day (day_of t).
(** 1-based day of the year. *)
Definition dayofyear (t : Z) : Z := day_of t - year_start (year_of t) + 1.

Definition feb (y : Z) : Z := if is_leap y then 29 else 28.
Definition month_lengths (y : Z) : list Z := [31; feb y; 31; 30; 31; 30; 31; 31; 30; 31; 30; 31].
(** 1-based month of a 0-based day of the year, and 1-based day of the month. *)
Fixpoint month_day (ls : list Z) (m d : Z) : Z * Z :=
  match ls with
  | [] => (m, d + 1)
  | l :: ls' => if d <? l then (m, d + 1) else month_day ls' (m + 1) (d - l)
  end.
Definition month_of (t : Z) : Z := fst (month_day (month_lengths (year_of t)) 1 (dayofyear t - 1)).
Definition dom_of (t : Z) : Z := snd (month_day (month_lengths (year_of t)) 1 (dayofyear t - 1)).
