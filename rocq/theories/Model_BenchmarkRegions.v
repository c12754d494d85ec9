(** Model of public_benchmark/run_benchmark_evaluation.py, continued: the regions and the aggregation
    method of a benchmark run. *)
From Coq Require Import String ZArith QArith List Bool.
Import ListNotations.
From Verif Require Import Prelude Values Model_XArray Model_Aggregation Model_Binning Model_Weighting Model_Benchmark.
Local Open Scope string_scope.
Local Open Scope list_scope.

(** run_benchmark_evaluation.py 110-133 REGIONS *)
Definition REGIONS : list (string * (lims * lims)) :=
  [("global", ((-90, 90), (0, 360)));
   ("tropics", ((-20, 20), (0, 360)));
   ("northern-hemisphere", ((20, 90), (0, 360)));
   ("southern-hemisphere", ((-90, -20), (0, 360)));
   ("europe", ((35, 75), (-25 # 2, 85 # 2)));
   ("north-america", ((25, 60), (360 - 120, 360 - 75)));
   ("north-atlantic", ((25, 65), (360 - 70, 360 - 10)));
   ("north-pacific", ((25, 60), (145, 360 - 130)));
   ("east-asia", ((25, 60), (205 # 2, 150)));
   ("ausnz", ((-45, -25 # 2), (120, 175)));
   ("arctic", ((60, 90), (0, 360)));
   ("antarctic", ((-90, -60), (0, 360)));
   ("northern-africa", ((5, 65 # 2), (-25 # 2, 75 # 2)));
   ("southern-africa", ((-30, 5), (25 # 2, 75 # 2)));
   ("south-america", ((-40, 5), (-75, -45)));
   ("west-asia", ((15, 60), (85 # 2, 205 # 2)));
   ("south-east-asia", ((-25 # 2, 25), (95, 125)))]%Q.

(** run_benchmark_evaluation.py 355-374: the land-sea mask is that of ERA5 at the resolution of the
    run; Regions has bin_dim_name "region" and GridAreaWeighting normalizes by default. *)
Definition aggregation_method (pl : plan) (land_sea_mask : da) : aggregator :=
  mkAgg (p_reduce_dims pl) [Regions REGIONS "region" (Some land_sea_mask)] [GridAreaWeighting "latitude" true]
    true (p_skipna pl).
