(** Vocabulary for partitioned observation files. *)
From Coq Require Import String ZArith List Bool.
Import ListNotations.
From Verif Require Import Prelude Values Model_XArray Spec_Calendar Model_Spatial Model_Parquet.
Local Open Scope Z_scope.
Local Open Scope string_scope.
Local Open Scope list_scope.

(** Two digits. *)
Definition two_digits (n : Z) : string := if (n <? 10)%Z then ("0" ++ str_int n)%string else str_int n.
(** The file for the time [t]: <path>/year=2020/month=1/2020-01.parquet, and so on. *)
Definition file_of (path : string) (u : part) (t : Z) (fn : string) : Prop :=
  exists y mo d doy day h mi s, civil t y mo d doy day h mi s /\
  let Y := str_int y in let M := str_int mo in let D := str_int d in let H := str_int h in
  fn = path_join path
    (match u with
     | Month => "year=" ++ Y ++ "/month=" ++ M ++ "/" ++ Y ++ "-" ++ two_digits mo ++ ".parquet"
     | Day => "year=" ++ Y ++ "/month=" ++ M ++ "/day=" ++ D ++ "/" ++ Y ++ "-" ++ two_digits mo ++ "-" ++ two_digits d ++ ".parquet"
     | Hour => "year=" ++ Y ++ "/month=" ++ M ++ "/day=" ++ D ++ "/hour=" ++ H ++ "/" ++ Y ++ "-" ++ two_digits mo ++ "-" ++ two_digits d ++ "T" ++ two_digits h ++ ".parquet"
     end)%string.
(** Two times in the same month (day, hour) of the calendar. *)
Definition same_partition (u : part) (t t' : Z) : Prop :=
  exists y mo d doy day h mi s d' doy' day' h' mi' s',
    civil t y mo d doy day h mi s /\ civil t' y mo d' doy' day' h' mi' s' /\
    match u with Month => True | Day => d = d' | Hour => d = d' /\ h = h' end.

(** The times asked for. *)
Definition asked (w : window) (t : Z) : Prop :=
  match w with
  | Exactly x => t = x
  | Between a b true => a <= t <= b
  | Between a b false => a <= t < b
  end.
(** The names of the partitions. *)
Definition partition_unit (s : string) (u : part) : Prop :=
  (s = "month" /\ u = Month) \/ (s = "day" /\ u = Day) \/ (s = "hour" /\ u = Hour).
