(** Model of EnsembleRankedProbabilityScore (weatherbenchX/metrics/probabilistic.py 339-479). *)
From Coq Require Import String ZArith List Bool Reals.
Import ListNotations.
From Verif Require Import Prelude Values Model_XArray Model_MetricsBase Model_Deterministic Model_Ensemble Model_Wrappers.
Local Open Scope string_scope.
Local Open Scope list_scope.

(** 428-451: the squared error of the two CDFs, unbiased, or of the two ensemble means (an array
    without the ensemble dimension is its own mean). *)
Definition cdf_error (d : string) (skipna fair : bool) : result (statistic da) :=
  if fair then Ok (UnbiasedEnsembleMeanSquaredError d skipna)
  else do w <- EnsembleMean "both" d skipna true; Ok (WrappedStatistic SquaredError w).

(** 464-479: _compute_per_variable.  The arrays are wrapped in dicts under the key "tmp", but keep
    the name [v] by which ContinuousToCDF selects the thresholds in the Dataset; the transform of
    the predictions is the outer wrapper (452-456), so it is applied first. *)
Definition ensemble_rps_var (wp wt : transform) (se : statistic da) (bin_dim : string) (skipna : bool) (v : string) (p t : da) : result da :=
  do p' <- transform_fn wp v p;
  do t' <- transform_fn wt v t;
  do r <- compute se [("tmp", p')] [("tmp", t')];
  do x <- dgetE r "tmp";
  reduce (np_sum skipna) [bin_dim] x.

(** base.py 183-197, with the names of the variables (no result is None here). *)
Fixpoint per_named_variable (f : string -> da -> da -> result da) (p t res : vars da) : result (vars da) :=
  match p with
  | [] => Ok res
  | (v, a) :: p' =>
      match dget t v with
      | Some b => do r <- f v a b; per_named_variable f p' t (dset res v r)
      | None => per_named_variable f p' t res
      end
  end.

(** 374-463; the name omits the bin dimension, the thresholds and right_inclusive. *)
Definition EnsembleRankedProbabilityScore (str : label -> string) (prediction_thresholds target_thresholds : vars da)
  (bin_dim suffix d : string) (skipna fair enforce right_inclusive : bool) : result (statistic da) :=
  do wp <- ContinuousToCDF str "predictions" (TDataset prediction_thresholds) bin_dim (Some suffix) enforce right_inclusive;
  do wt <- ContinuousToCDF str "targets" (TDataset target_thresholds) bin_dim (Some suffix) enforce right_inclusive;
  do se <- cdf_error d skipna fair;
  Ok (mkStat ("RankedProbabilityScore_" ++ d ++ "_skipna_ensemble_" ++ bool_name skipna ++ "_fair_" ++ bool_name fair ++ "_" ++ suffix)
        (fun p t => per_named_variable (ensemble_rps_var wp wt se bin_dim skipna) p t [])).
