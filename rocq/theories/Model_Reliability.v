(** Model of Reliability, weatherbenchX/metrics/categorical.py 637-697. *)
From Coq Require Import String List Bool Reals.
Import ListNotations.
From Verif Require Import Prelude Values Model_XArray Model_MetricsBase Model_Categorical Model_Wrappers.
Local Open Scope string_scope.
Local Open Scope list_scope.

Section Names.
  (** str() of a number and its format with two decimals, as in Model_Wrappers *)
  Variables (str str2f : label -> string).
  (** 637-697.  The wrapper is built when the statistics are asked for (672-686); here the error
      of an unusable wrapper (none for a list of bin values) is that of the constructor. *)
  Definition Reliability (bin_values : list (label * val)) (bin_dim : string) (sfx : option string) : result (metric da) :=
    do w <- ContinuousToBins str str2f "predictions" (TList bin_values) bin_dim sfx true;
    Ok (per_variable_metric
      [("TruePositives", WrappedStatistic TruePositives w); ("FalsePositives", WrappedStatistic FalsePositives w)]
      (* 688-697 *)
      (fun s => do tp <- dgetE s "TruePositives"; do fp <- dgetE s "FalsePositives";
                Ok (binop vdiv tp (binop vadd tp fp)))).
End Names.
