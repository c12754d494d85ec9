(** The shipped statistics (those modelled) with their parameters, and which parameters their
    unique names determine. *)
From Coq Require Import String ZArith List Bool Reals.
Import ListNotations.
From Verif Require Import Prelude Values Model_XArray Model_MetricsBase Model_Deterministic Model_Categorical Model_Ensemble Model_Wrappers Model_Spatial Model_Wasserstein.
Local Open Scope string_scope.
Local Open Scope list_scope.

Inductive shipped :=
| SError | SAbsoluteError | SSquaredError | STruePositives | STrueNegatives | SFalsePositives | SFalseNegatives
| SPredictionPassthrough (copy_nans : bool) | STargetPassthrough (copy_nans : bool)
| SWindVector (us vs names : list string)
| SPredictionAnomaly (clim : vars da) | STargetAnomaly (clim : vars da) | SAnomalyCovariance (clim : vars da)
| SErrorExceedance (thresholds : da) | SEnsembleErrorExceedance (thresholds : da) (d : string)
| SRelativeIntensity (spatial_dims : list string) | SRPS (bin_dim : string)
| SCRPSSkill (d : string) (skipna : bool) | SCRPSSpread (d : string) (use_sort fair : bool) (on_targets : bool) (skipna : bool)
| SEnsembleVariance (d : string) (skipna : bool) | SUnbiasedMSE (d : string) (skipna : bool) | SRankHistogram (d : string) | SWasserstein (d : string)
| SFractionsError (s : sizes) (wrap : bool) | SPredictionFraction (s : sizes) (wrap : bool) | STargetFraction (s : sizes) (wrap : bool).

Definition build (argsort : list val -> list nat) (s : shipped) : result (statistic da) :=
  match s with
  | SError => Ok Error | SAbsoluteError => Ok AbsoluteError | SSquaredError => Ok SquaredError
  | STruePositives => Ok TruePositives | STrueNegatives => Ok TrueNegatives | SFalsePositives => Ok FalsePositives | SFalseNegatives => Ok FalseNegatives
  | SPredictionPassthrough c => Ok (PredictionPassthrough c) | STargetPassthrough c => Ok (TargetPassthrough c)
  | SWindVector us vs ns => WindVectorSquaredError us vs ns
  | SPredictionAnomaly c => Ok (SquaredPredictionAnomaly c) | STargetAnomaly c => Ok (SquaredTargetAnomaly c) | SAnomalyCovariance c => Ok (AnomalyCovariance c)
  | SErrorExceedance th => Ok (ErrorExceedance th) | SEnsembleErrorExceedance th d => Ok (EnsembleErrorExceedance th d)
  | SRelativeIntensity D => Ok (RelativeIntensity D) | SRPS d => Ok (RankedProbabilityScore d)
  | SCRPSSkill d k => Ok (CRPSSkill d k) | SCRPSSpread d u f o k => Ok (CRPSSpread argsort d u f (if o then "targets" else "predictions") k)
  | SEnsembleVariance d k => Ok (EnsembleVariance d k) | SUnbiasedMSE d k => Ok (UnbiasedEnsembleMeanSquaredError d k) | SRankHistogram d => Ok (RankHistogram d) | SWasserstein d => Ok (WassersteinDistance d)
  | SFractionsError s w => Ok (SquaredFractionsError s w) | SPredictionFraction s w => Ok (SquaredPredictionFraction s w) | STargetFraction s w => Ok (SquaredTargetFraction s w)
  end.

(** What one would expect to be told apart is told apart, except for the parameters written [_]. *)
Definition same_sizes (s s' : sizes) : Prop := match s, s' with One n, One n' => n = n' | Many l, Many l' => l = l' | One n, Many l | Many l, One n => l = [n] end.
Definition told_together (a b : shipped) : Prop :=
  match a, b with
  | SError, SError | SAbsoluteError, SAbsoluteError | SSquaredError, SSquaredError => True
  | STruePositives, STruePositives | STrueNegatives, STrueNegatives | SFalsePositives, SFalsePositives | SFalseNegatives, SFalseNegatives => True
  | SPredictionPassthrough _, SPredictionPassthrough _ | STargetPassthrough _, STargetPassthrough _ => True
  | SWindVector _ _ ns, SWindVector _ _ ns' => join_underscore ns = join_underscore ns'
  | SPredictionAnomaly _, SPredictionAnomaly _ | STargetAnomaly _, STargetAnomaly _ | SAnomalyCovariance _, SAnomalyCovariance _ => True
  | (SErrorExceedance _ | SEnsembleErrorExceedance _ _), (SErrorExceedance _ | SEnsembleErrorExceedance _ _) => True
  | SRelativeIntensity _, SRelativeIntensity _ | SRPS _, SRPS _ => True
  | SCRPSSkill d _, SCRPSSkill d' _ => d = d'
  | SCRPSSpread d _ f o _, SCRPSSpread d' _ f' o' _ => d = d' /\ f = f' /\ o = o'
  | SEnsembleVariance d k, SEnsembleVariance d' k' | SUnbiasedMSE d k, SUnbiasedMSE d' k' => d = d' /\ k = k'
  | SRankHistogram d, SRankHistogram d' | SWasserstein d, SWasserstein d' => d = d'
  | SFractionsError s w, SFractionsError s' w' | SPredictionFraction s w, SPredictionFraction s' w' | STargetFraction s w, STargetFraction s' w' => same_sizes s s' /\ w = w'
  | _, _ => False
  end.
(** The statistics whose names determine them (neighbourhood sizes given as lists). *)
Definition named_faithfully (a : shipped) : Prop :=
  match a with
  | SError | SAbsoluteError | SSquaredError | STruePositives | STrueNegatives | SFalsePositives | SFalseNegatives
  | SEnsembleVariance _ _ | SUnbiasedMSE _ _ | SRankHistogram _ | SWasserstein _ => True
  | SFractionsError (Many _) _ | SPredictionFraction (Many _) _ | STargetFraction (Many _) _ => True
  | _ => False
  end.

(** ** SEEPS, metrics/categorical.py 175-187: the name of the statistic ([str] of a float).  It does
    not mention the climatology. *)
Definition seeps_name (str : R -> string) (vs : list string) (ds mins maxs : list R) : string :=
  ("SEEPS_" ++ join_underscore vs ++ "_dry_threshold_mm_" ++ join_underscore (map str ds) ++ "_min_p1_" ++ join_underscore (map str mins)
   ++ "_max_p1_" ++ join_underscore (map str maxs))%string.
