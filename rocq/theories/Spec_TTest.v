(** Vocabulary for the properties of the t-tests. *)
From Coq Require Import String ZArith List Bool Reals.
Import ListNotations.
From Verif Require Import Prelude Values.
Local Open Scope R_scope.
Local Open Scope list_scope.

(** What the properties need of Student's t distribution with [df] > 0 degrees of freedom:
    a strictly increasing distribution function, symmetric around 0, with values strictly
    between 0 and 1, and its inverse. *)
Definition t_law (cdf quantile : Z -> R -> R) : Prop :=
  forall df, (0 < df)%Z ->
    (forall x y, x < y -> cdf df x < cdf df y) /\
    (forall x, cdf df (- x) = 1 - cdf df x) /\
    (forall x, 0 < cdf df x < 1) /\
    (forall q, 0 < q < 1 -> cdf df (quantile df q) = q).

(** Sums over a sample of numbers. *)
Definition sum_squares (xs : list R) : R := rsum (map (fun x => x * x) xs).
(** The sum of the products x_t * x_(t+lag). *)
Definition sum_lagged (lag : nat) (xs : list R) : R :=
  rsum (map (fun p => fst p * snd p) (combine xs (skipn lag xs))).
(** Not all of them are zero (the series of values they are deviations of is not constant). *)
Definition varying (xs : list R) : Prop := exists x, In x xs /\ x <> 0.
(** Sample variance, and the lag-[lag] autocorrelation with the estimators' divisors. *)
Definition sample_variance (xs : list R) : R := sum_squares xs / (INR (length xs) - 1).
Definition autocorrelation (lag : nat) (xs : list R) : R :=
  (sum_lagged lag xs / INR (length xs - lag)) / sample_variance xs.
(** The inflation factor of the mean of an AR(2) process with autocorrelations r1, r2. *)
Definition ar2_inflation (r1 r2 : R) : R := sqrt ((1 + r1) * (1 + r2 - 2 * (r1 * r1)) / ((1 - r1) * (1 - r2))).
(** Stationary AR(2) processes are those with autocorrelations in this region (|r1| < 1). *)
Definition ar2_region (r1 r2 : R) : Prop := 2 * (r1 * r1) - 1 <= r2 < 1.
