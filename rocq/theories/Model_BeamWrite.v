(** Model of the end of the aggregated Beam pipeline, weatherbenchX/beam_pipeline.py 342-405 and
    487-507: computing the metrics from the final state and writing the output files.

    Beam runs a DoFn on every element of its input collection, possibly more than once (failed
    or duplicated bundles are run again, and what precedes them may be run again too, in
    another order).  Every run that gets as far as atomic_write makes one call of it; those
    calls go to the transition system of Model_AtomicWrite.

    Simplifications: attributes are not modelled, so drop_attrs (368, 393) does nothing; the
    netCDF encoder is a parameter that may raise; logging is left out. *)
From Coq Require Import String Ascii List.
Import ListNotations.
From Verif Require Import Prelude Values Model_XArray Model_Tree Model_MetricsBase Model_Aggregation Model_TimeChunks Model_Beam.
From Verif Require Model_AtomicWrite.
Local Open Scope list_scope.

Definition filepath := Model_AtomicWrite.path.
Definition bytes := Model_AtomicWrite.bytes.

Section Write.
  (** metrics.to_netcdf() and aggregation_state_ds.to_netcdf() without a path: bytes. *)
  Variable to_netcdf : dict string da -> result bytes.

  (** 342-356: ComputeMetrics.process *)
  Definition compute_metrics (metrics : dict string (metric da)) (s : state) : result (list (dict string da)) :=
    do d <- metric_values metrics s; Ok [d].
  (** 359-374: WriteMetrics.process: the arguments of its atomic_write call. *)
  Definition write_metrics (out_path : filepath) (d : dict string da) : result (filepath * bytes) :=
    do b <- to_netcdf d; Ok (out_path, b).
  (** 377-399: WriteAggregationState.process, likewise. *)
  Definition write_aggregation_state (out_path : filepath) (s : state) : result (filepath * bytes) :=
    do d <- to_dataset "#"%char s; do b <- to_netcdf d; Ok (out_path, b).

  (** 487-507: which of the two branches are built. *)
  Inductive sink := MetricsSink (out_path : filepath) | StateSink (aggregation_state_out_path : filepath).
  Definition sinks (out_path state_path : option filepath) : result (list sink) :=
    match out_path, state_path with
    | None, None => Err ValueError                                               (* 487-491 *)
    | _, _ => Ok (match out_path with Some p => [MetricsSink p] | None => [] end (* 493-498 *)
               ++ match state_path with Some p => [StateSink p] | None => [] end) (* 500-503 *)
    end.
  (** One run of a branch on one aggregation state: the atomic_write calls it makes. *)
  Definition run_sink (metrics : dict string (metric da)) (k : sink) (s : state) : result (list (filepath * bytes)) :=
    match k with
    | MetricsSink p => do ds <- compute_metrics metrics s; mapM (write_metrics p) ds
    | StateSink p => do w <- write_aggregation_state p s; Ok [w]
    end.

  (** 407-507: every atomic_write call of the pipeline comes from some run of some branch on
      a state of some run of the part before it. *)
  Definition pipeline_writes (tc : time_chunks) (predictions_loader targets_loader : loader)
    (metrics : dict string (metric da)) (g : aggregator) (out_path state_path : option filepath)
    (calls : nat -> option Model_AtomicWrite.call) : Prop :=
    forall i c, calls i = Some c ->
      exists ks k out s w, sinks out_path state_path = Ok ks /\ In k ks /\
        pipeline_states tc predictions_loader targets_loader metrics g out /\ In s out /\
        run_sink metrics k s = Ok w /\ In (Model_AtomicWrite.target c, Model_AtomicWrite.data c) w.
End Write.
