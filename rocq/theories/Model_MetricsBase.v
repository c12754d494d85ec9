(** Model of weatherbenchX/metrics/base.py: statistics, metrics, deduplication.
    [A] is the type of arrays (xr.DataArray); variables are a dict from name to array. *)
From Coq Require Import String List Bool.
Import ListNotations.
From Verif Require Import Prelude.
Set Implicit Arguments.

Section MetricsBase.
  Context {A : Type}.
  Definition vars := dict string A.

  (** base.py 85-160: a statistic is a unique name and a compute function
      (which may raise). *)
  Record statistic := mkStat {
    unique_name : string;
    compute : vars -> vars -> result vars }.

  (** base.py 23-83: a metric names its statistics and combines their means. *)
  Record metric := mkMetric {
    statistics : dict string statistic;
    values_from_mean_statistics : dict string vars -> result vars }.

  (** base.py 162-173: a statistic used as a metric. *)
  Definition metric_of_statistic (s : statistic) : metric :=
    mkMetric [("self"%string, s)] (fun vs => dgetE vs "self"%string).

  (** base.py 183-197: loop over the prediction variables (a Mapping, so
      distinct keys); None results are skipped. *)
  Fixpoint per_variable_compute (f : A -> A -> result (option A)) (predictions targets : vars)
    (res : vars) : result vars :=
    match predictions with
    | [] => Ok res
    | (v, p) :: ps =>
        match dget targets v with
        | Some t =>
            do r <- f p t;
            per_variable_compute f ps targets (match r with Some x => dset res v x | None => res end)
        | None => per_variable_compute f ps targets res
        end
    end.
  Definition per_variable_statistic (name : string) (f : A -> A -> result (option A)) : statistic :=
    mkStat name (fun p t => per_variable_compute f p t []).

  (** base.py 211-227.  [set.intersection] of no sets is a TypeError; the iteration
      order of a Python set is arbitrary, here: the order of the first statistic. *)
  Definition per_variable_metric (stats : dict string statistic) (f : dict string A -> result A) : metric :=
    mkMetric stats (fun vals =>
      do tables <- mapM (fun s => dgetE vals s) (keys stats);
      match tables with
      | [] => Err TypeError
      | t0 :: ts =>
          let common := filter (fun v => forallb (fun t => memb v (keys t)) ts) (keys t0) in
          mapM (fun v =>
            do per_var <- mapM (fun s => do t <- dgetE vals s; do x <- dgetE t v; Ok (s, x)) (keys stats);
            do x <- f per_var; Ok (v, x)) common
      end).

  (** base.py 258-261: the last statistic with a given name wins; the position is
      that of the first one. *)
  Definition unique_statistics (metrics : dict string metric) : dict string statistic :=
    fold_left (fun d m => fold_left (fun d s => dset d (unique_name s) s) (values (statistics m)) d)
              (values metrics) [].

  (** base.py 262-269: any exception becomes ValueError. *)
  Definition as_value_error {B} (r : result B) : result B :=
    match r with Ok b => Ok b | Err _ => Err ValueError end.

  (** base.py 272-291 *)
  Definition compute_unique_statistics (metrics : dict string metric) (predictions targets : vars)
    : result (dict string vars) :=
    mapM (fun ks => do r <- as_value_error (compute (snd ks) predictions targets); Ok (fst ks, r))
         (unique_statistics metrics).

  (** base.py 294-315 *)
  Definition compute_metric_from_statistics (m : metric) (vals : dict string vars) : result vars :=
    do renamed <- mapM (fun kv => do x <- dgetE vals (unique_name (snd kv)); Ok (fst kv, x)) (statistics m);
    values_from_mean_statistics m renamed.

  (** base.py 318-335 *)
  Definition compute_metrics_from_statistics (metrics : dict string metric) (vals : dict string vars)
    : result (dict string vars) :=
    mapM (fun nm => do x <- compute_metric_from_statistics (snd nm) vals; Ok (fst nm, x)) metrics.
End MetricsBase.
Arguments vars : clear implicits.
Arguments statistic : clear implicits.
Arguments metric : clear implicits.
