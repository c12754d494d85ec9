(** Vocabulary for properties of metric values: the value of a metric for a variable, the
    mean of one statistic, weighted averages of real functions over the reduced points. *)
From Coq Require Import String List Bool Reals.
Import ListNotations.
From Verif Require Import Prelude Values Model_XArray Spec_XArray Model_Tree Model_MetricsBase Model_Aggregation Spec_Aggregator Spec_Metrics.
Local Open Scope R_scope.
Local Open Scope string_scope.
Local Open Scope list_scope.

(** Evaluating the metric [m] on predictions [p] and targets [t] with the aggregator [g]
    gives the array [a] for the variable [v].  (By C18 the same value is obtained when
    other metrics are evaluated at the same time.) *)
Definition metric_value (g : aggregator) (p t : vars da) (m : metric da) (v : string) (a : da) : Prop :=
  exists vs, evaluate g [("metric", m)] p t = Ok [("metric", vs)] /\ dget vs v = Some a.

(** The weighted average of [s] with weights [u] over the points [P]. *)
Definition wavg (P : list env) (u s : env -> R) : R :=
  rsum (map (fun q => u q * s q) P) / rsum (map u P).

(** [m] is the mean of the statistic [st]. *)
Definition mean_array (g : aggregator) (st m : da) : Prop :=
  exists x y, aggregate_stat_var g st = Ok (Some (x, y)) /\ m = binop vdiv x y.

(** Two statistics over the same points, with the same masks and the same NaNs. *)
Definition same_sample (st st' : da) : Prop :=
  dims st' = dims st /\ aux st' = aux st /\ wf st' /\
  forall e, point_of (dims st) e -> isnan (get st' e) = isnan (get st e).
