(** Vocabulary for C48: the value of one metric on one aggregation state. *)
From Coq Require Import String List Bool.
Import ListNotations.
From Verif Require Import Prelude Values Model_XArray Model_Tree Model_MetricsBase Model_Aggregation Model_Baseline.
Local Open Scope string_scope.
Local Open Scope list_scope.

(** The values (variable -> array) of the metric [m] for the aggregated statistics [s]. *)
Definition value_for (m : metric da) (s : state) (v : vars da) : Prop :=
  state_metrics [("metric", m)] s = Ok [("metric", v)].

(** A state as aggregate_statistics (and sums, slices, resamples of its results) make them:
    statistic name -> variable name -> array, as Python mappings (distinct keys). *)
Definition statistics_state (s : state) : Prop :=
  exists ws w, s = Some (Dict ws, Dict w) /\ NoDup (keys ws) /\ NoDup (keys w).
