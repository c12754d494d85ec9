(** Specification vocabulary for the benchmark script (C71). *)
From Coq Require Import String Ascii ZArith List Bool.
Import ListNotations.
From Verif Require Import Prelude Spec_Calendar.
Local Open Scope Z_scope.
Local Open Scope string_scope.
Local Open Scope list_scope.

Definition hours (n : Z) : Z := n * 3600000000000.
Definition days (n : Z) : Z := hours (24 * n).

(** [s] is the four-digit year [y]. *)
Definition digit_char (n : nat) : ascii := ascii_of_nat (48 + n).
Definition four_digits (s : string) (y : Z) : Prop :=
  exists a b c d : nat, (a <= 9 /\ b <= 9 /\ c <= 9 /\ d <= 9)%nat
    /\ s = String (digit_char a) (String (digit_char b) (String (digit_char c) (String (digit_char d) "")))
    /\ y = Z.of_nat (1000 * a + 100 * b + 10 * c + d).

(** The times at which the forecasts of [prediction] evaluated for year [y] start: every 12 hours (24 for
    excarta) of the year, without the first one for aurora in 2022, up to 15 December for 2022, fuxi
    and excarta and without the last one and a half days for baguan in 2020. *)
Definition spacing (prediction : string) : Z := if String.eqb prediction "excarta" then hours 24 else hours 12.
Definition late_start (prediction : string) (y : Z) : Z :=
  if (y =? 2022)%Z && String.eqb prediction "aurora" then hours 12 else 0.
Definition early_end (prediction : string) (y : Z) : Z :=
  if (y =? 2022)%Z || String.eqb prediction "fuxi" || String.eqb prediction "excarta" then days 16
  else if (y =? 2020)%Z && String.eqb prediction "baguan" then hours 36 else 0.
(** [t] is in year [y]: between its first and the next year's first midnight, less the given margins. *)
Definition in_year (y : Z) (late early t : Z) : Prop :=
  exists d0 d1, jan1 y d0 /\ jan1 (y + 1) d1 /\ days d0 + late <= t < days d1 - early.
Definition evaluated_init (prediction : string) (y t : Z) : Prop :=
  in_year y (late_start prediction y) (early_end prediction y) t /\ (spacing prediction | t).

(** [ts] are the times from [a] on, [step] apart, before [b], in this order. *)
Definition every (a b step : Z) (ts : list Z) : Prop :=
  forall k t, nth_error ts k = Some t <-> t = a + Z.of_nat k * step /\ t < b.
