(** Specification vocabulary for the combination of result files (C70). *)
From Coq Require Import String ZArith List Bool.
Import ListNotations.
From Verif Require Import Prelude Values Model_XArray Spec_XArray Model_MetricsBase Model_Combine.
Local Open Scope string_scope.
Local Open Scope list_scope.

(** ** What the combined dataset calls things, written down independently of the script *)
Definition deterministic_systems : list (string * string) :=
  [("hres_vs_hres_t0", "IFS HRES vs Analysis");
   ("hres_vs_era5", "IFS HRES vs ERA5");
   ("ens_mean_vs_hres_t0", "IFS ENS (mean) vs Analysis");
   ("ens_single_member_vs_hres_t0", "IFS ENS (1st member) vs Analysis");
   ("ens_mean_vs_era5", "IFS ENS (mean) vs ERA5");
   ("ens_single_member_vs_era5", "IFS ENS (1st member) vs ERA5");
   ("era5_forecast_vs_era5", "ERA5-Forecasts vs ERA5");
   ("climatology_vs_era5", "Climatology vs ERA5");
   ("persistence_vs_era5", "Persistence vs ERA5");
   ("keisler_vs_era5", "Keisler (2022) vs ERA5");
   ("pangu_vs_era5", "Pangu-Weather vs ERA5");
   ("pangu_hres_init_vs_era5", "Pangu-Weather (oper.) vs ERA5");
   ("pangu_hres_init_vs_hres_t0", "Pangu-Weather (oper.) vs Analysis");
   ("graphcast_vs_era5", "GraphCast vs ERA5");
   ("graphcast_hres_init_vs_era5", "GraphCast (oper.) vs ERA5");
   ("graphcast_hres_init_vs_hres_t0", "GraphCast (oper.) vs Analysis");
   ("gencast_mean_vs_era5", "GenCast (mean) vs ERA5");
   ("gencast_single_member_vs_era5", "GenCast (1st member) vs ERA5");
   ("gencast_operational_100m_uv_mean_vs_era5", "GenCast (oper.) (mean) vs ERA5");
   ("gencast_operational_100m_uv_single_member_vs_era5", "GenCast (oper.) (1st member) vs ERA5");
   ("gencast_operational_100m_uv_mean_vs_hres_t0", "GenCast (oper.) (mean) vs Analysis");
   ("gencast_operational_100m_uv_single_member_vs_hres_t0", "GenCast (oper.) (1st member) vs Analysis");
   ("neuralgcm_hres_vs_era5", "NeuralGCM 0.7 vs ERA5");
   ("neuralgcm_ens_mean_vs_era5", "NeuralGCM ENS (mean) vs ERA5");
   ("neuralgcm_ens_single_member_vs_era5", "NeuralGCM ENS (1st member) vs ERA5");
   ("fuxi_vs_era5", "FuXi vs ERA5");
   ("stormer_ens_mean_vs_era5", "Stormer ENS (mean) vs ERA5");
   ("arches_weather_mx4_vs_era5", "ArchesWeather-Mx4 vs ERA5");
   ("arches_weather_gen_mean_vs_era5", "ArchesWeatherGen (mean) vs ERA5");
   ("swin_vs_era5", "Swin vs ERA5");
   ("excarta_vs_era5", "Excarta (HEAL-ViT) vs ERA5");
   ("aurora_vs_hres_t0", "Aurora (oper.) vs Analysis");
   ("baguan_vs_era5", "Baguan vs ERA5");
   ("weathermesh4_vs_era5", "WeatherMesh4 vs ERA5")].
Definition probabilistic_systems : list (string * string) :=
  [("ens_vs_hres_t0", "IFS ENS vs Analysis");
   ("ens_vs_era5", "IFS ENS vs ERA5");
   ("neuralgcm_ens_vs_era5", "NeuralGCM ENS vs ERA5");
   ("probabilistic_climatology_vs_era5", "Probabilistic Climatology vs ERA5");
   ("gencast_vs_era5", "GenCast vs ERA5");
   ("gencast_operational_100m_uv_vs_era5", "GenCast (oper.) vs ERA5");
   ("gencast_operational_100m_uv_vs_hres_t0", "GenCast (oper.) vs Analysis");
   ("arches_weather_gen_vs_era5", "ArchesWeatherGen vs ERA5")].
Definition displayed_regions : list (string * string) :=
  [("global", "Global");
   ("tropics", "Tropics");
   ("northern-hemisphere", "Northern Hemisphere");
   ("southern-hemisphere", "Southern Hemisphere");
   ("europe", "Europe");
   ("north-america", "North America");
   ("north-atlantic", "North Atlantic");
   ("north-pacific", "North Pacific");
   ("east-asia", "East Asia");
   ("ausnz", "Australia/New Zealand");
   ("arctic", "Arctic");
   ("antarctic", "Antarctic");
   ("northern-africa", "Northern Africa");
   ("southern-africa", "Southern Africa");
   ("south-america", "South America");
   ("west-asia", "West Asia");
   ("south-east-asia", "South-East Asia")].
Definition displayed_variables : list (string * string) :=
  [("geopotential", "Geopotential");
   ("temperature", "Temperature");
   ("specific_humidity", "Specific Humidity");
   ("u_component_of_wind", "U Component of Wind");
   ("v_component_of_wind", "V Component of Wind");
   ("10m_u_component_of_wind", "10m U Component of Wind");
   ("10m_v_component_of_wind", "10m V Component of Wind");
   ("mean_sea_level_pressure", "Sea Level Pressure");
   ("2m_temperature", "2m Temperature");
   ("total_precipitation_6hr", "6h Precipitation");
   ("total_precipitation_24hr", "24h Precipitation");
   ("wind_speed", "Wind Speed");
   ("10m_wind_speed", "10m Wind Speed");
   ("wind_vector", "Wind Vector");
   ("10m_wind_vector", "10m Wind Vector")].
Definition deterministic_displayed : list (string * string) :=
  [("rmse", "RMSE");
   ("mae", "MAE");
   ("bias", "Bias");
   ("seeps", "SEEPS");
   ("acc", "ACC");
   ("mse", "MSE");
   ("prediction_activity", "Forecast Activity")].
Definition probabilistic_displayed : list (string * string) :=
  [("crps", "CRPS");
   ("spread_skill", "Spread/Skill");
   ("unbiased_spread_skill", "Unbiased Spread/Skill");
   ("unbiased_mean_rmse", "Unbiased Mean RMSE");
   ("mean_rmse", "Mean RMSE")].
Definition displayed_metrics (m : mode) := match m with Deterministic => deterministic_displayed | Probabilistic => probabilistic_displayed end.
Definition displayed_systems (m : mode) := match m with Deterministic => deterministic_systems | Probabilistic => probabilistic_systems end.
(** The file of one system, year and resolution, as run_benchmark_evaluation.py names it. *)
Definition file_of (system year resolution : string) : string := (system ++ "_" ++ resolution ++ "_" ++ year ++ ".nc")%string.

(** The entry called [n] of a result file holds the metric [k] of the variable [v]. *)
Inductive named : string -> string -> string -> Prop :=
| named_plain k v : ~ (k = "vector_rmse" /\ (v = "wind" \/ v = "10m_wind")) -> named (k ++ "." ++ v) k v
| named_wind : named "vector_rmse.wind" "rmse" "wind_vector"
| named_10m : named "vector_rmse.10m_wind" "rmse" "10m_wind_vector".

(** The names readers of the combined dataset see. *)
Definition shown_metric (m : mode) (k K : string) : Prop := In (k, K) (displayed_metrics m).
Definition shown_variable (v V : string) : Prop := In (v, V) displayed_variables.
Definition shown_region (r G : string) : Prop :=
  In (r, G) displayed_regions \/ exists r0 G0, In (r0, G0) displayed_regions /\ r = (r0 ++ "_land")%string /\ G = (G0 ++ " (Land)")%string.
Definition shown_model (m : mode) (model M : string) : Prop := In (model, M) (displayed_systems m).

(** Dimension names that the combination introduces or that would clash with variables. *)
Definition reserved (d : string) : Prop :=
  In d ["metric"; "model"; "resolution"; "year"; "vector_rmse.wind"; "vector_rmse.10m_wind"; "rmse.wind_vector"; "rmse.10m_wind_vector"]
  \/ In d (map fst displayed_variables) \/ In d (map snd displayed_variables).

(** A result file: every entry is a known metric of a known variable, per region; no entry twice. *)
Definition result_array (a : da) : Prop :=
  wf a /\ In "region" (dnames a) /\ (forall l, In l (labels_of (dims a) "region") -> exists r G, l = LS r /\ shown_region r G)
  /\ (forall d, In d (dnames a) -> ~ reserved d).
Definition result_dataset (m : mode) (ds : vars da) : Prop :=
  ds <> [] /\ NoDup (keys ds)
  /\ (forall n a, dget ds n = Some a -> result_array a /\ exists k v K V, named n k v /\ shown_metric m k K /\ shown_variable v V)
  /\ (forall n n' k v, In n (keys ds) -> In n' (keys ds) -> named n k v -> named n' k v -> n = n').

(** The file [ds] has the value [x] for the shown variable [V] at the shown metric and region of [e],
    the other labels of [e] being those of the file. *)
Definition has_value (m : mode) (ds : vars da) (V : string) (e : env) (x : val) : Prop :=
  exists n k v K a r G,
    dget ds n = Some a /\ named n k v /\ shown_metric m k K /\ shown_variable v V /\ shown_region r G
    /\ e "metric" = LS K /\ e "region" = LS G
    /\ point_of (dims a) (upd e "region" (LS r)) /\ x = get a (upd e "region" (LS r)).

(** The result file of one model, year and resolution. *)
Definition is_cell (m : mode) (model M year resolution : string) : Prop :=
  shown_model m model M /\ In year ["2018"; "2020"; "2022"] /\ In resolution ["64x32"; "240x121"; "1440x721"].
(** The combined value at [e] according to the files. *)
Definition cell_value (m : mode) (files : string -> option (vars da)) (V : string) (e : env) (x : val) : Prop :=
  exists model M year resolution ds,
    is_cell m model M year resolution /\ files (file_of model year resolution) = Some ds
    /\ e "model" = LS M /\ e "year" = LS year /\ e "resolution" = LS resolution
    /\ has_value m ds V e x.

(** The files the script looks at are result files, and a variable has the same dimensions in all
    of them. *)
Definition found (m : mode) (files : string -> option (vars da)) (ds : vars da) : Prop :=
  exists model M year resolution, is_cell m model M year resolution /\ files (file_of model year resolution) = Some ds.
Definition result_files (m : mode) (files : string -> option (vars da)) : Prop :=
  (forall ds, found m files ds -> result_dataset m ds)
  /\ (forall ds ds' n n' k k' v a a', found m files ds -> found m files ds' -> named n k v -> named n' k' v ->
        dget ds n = Some a -> dget ds' n' = Some a' -> same_dims a a').
