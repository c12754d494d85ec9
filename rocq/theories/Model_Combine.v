(** Model of public_benchmark/combine_results.py (51-280): the benchmark's result files are read,
    renamed and merged into one dataset.
    Simplifications: coordinates of a file that are not dimensions do not enter any value and are
    dropped when the file is opened (the script itself drops lead_time_secs, 209-211); np.unique and
    outer joins may sort, the order of variables and labels is not observable here; floating point
    dtypes, printing and chunk sizes are not modelled; input_dir and output_dir are fixed, a path is
    the name below them; YEARS are given as the strings Python formats them to. *)
From Coq Require Import String Ascii ZArith List Bool.
Import ListNotations.
From Verif Require Import Prelude Values Model_XArray Model_MetricsBase Model_Aggregation Model_Categorical Model_Prepare.
Local Open Scope string_scope.
Local Open Scope list_scope.

(** 51-94 DETERMINISTIC_MODELS *)
Definition DETERMINISTIC_MODELS : dict string string :=
  [("hres_vs_hres_t0", "IFS HRES vs Analysis");
   ("hres_vs_era5", "IFS HRES vs ERA5");
   ("ens_mean_vs_hres_t0", "IFS ENS (mean) vs Analysis");
   ("ens_single_member_vs_hres_t0", "IFS ENS (1st member) vs Analysis");
   ("ens_mean_vs_era5", "IFS ENS (mean) vs ERA5");
   ("ens_single_member_vs_era5", "IFS ENS (1st member) vs ERA5");
   ("era5_forecast_vs_era5", "ERA5-Forecasts vs ERA5");
   ("climatology_vs_era5", "Climatology vs ERA5");
   ("persistence_vs_era5", "Persistence vs ERA5");
   ("keisler_vs_era5", "Keisler (2022) vs ERA5");
   ("pangu_vs_era5", "Pangu-Weather vs ERA5");
   ("pangu_hres_init_vs_era5", "Pangu-Weather (oper.) vs ERA5");
   ("pangu_hres_init_vs_hres_t0", "Pangu-Weather (oper.) vs Analysis");
   ("graphcast_vs_era5", "GraphCast vs ERA5");
   ("graphcast_hres_init_vs_era5", "GraphCast (oper.) vs ERA5");
   ("graphcast_hres_init_vs_hres_t0", "GraphCast (oper.) vs Analysis");
   ("gencast_mean_vs_era5", "GenCast (mean) vs ERA5");
   ("gencast_single_member_vs_era5", "GenCast (1st member) vs ERA5");
   ("gencast_operational_100m_uv_mean_vs_era5", "GenCast (oper.) (mean) vs ERA5");
   ("gencast_operational_100m_uv_single_member_vs_era5", "GenCast (oper.) (1st member) vs ERA5");
   ("gencast_operational_100m_uv_mean_vs_hres_t0", "GenCast (oper.) (mean) vs Analysis");
   ("gencast_operational_100m_uv_single_member_vs_hres_t0", "GenCast (oper.) (1st member) vs Analysis");
   ("neuralgcm_hres_vs_era5", "NeuralGCM 0.7 vs ERA5");
   ("neuralgcm_ens_mean_vs_era5", "NeuralGCM ENS (mean) vs ERA5");
   ("neuralgcm_ens_single_member_vs_era5", "NeuralGCM ENS (1st member) vs ERA5");
   ("fuxi_vs_era5", "FuXi vs ERA5");
   ("stormer_ens_mean_vs_era5", "Stormer ENS (mean) vs ERA5");
   ("arches_weather_mx4_vs_era5", "ArchesWeather-Mx4 vs ERA5");
   ("arches_weather_gen_mean_vs_era5", "ArchesWeatherGen (mean) vs ERA5");
   ("swin_vs_era5", "Swin vs ERA5");
   ("excarta_vs_era5", "Excarta (HEAL-ViT) vs ERA5");
   ("aurora_vs_hres_t0", "Aurora (oper.) vs Analysis");
   ("baguan_vs_era5", "Baguan vs ERA5");
   ("weathermesh4_vs_era5", "WeatherMesh4 vs ERA5")].
(** 95-104 PROBABILISTIC_MODELS *)
Definition PROBABILISTIC_MODELS : dict string string :=
  [("ens_vs_hres_t0", "IFS ENS vs Analysis");
   ("ens_vs_era5", "IFS ENS vs ERA5");
   ("neuralgcm_ens_vs_era5", "NeuralGCM ENS vs ERA5");
   ("probabilistic_climatology_vs_era5", "Probabilistic Climatology vs ERA5");
   ("gencast_vs_era5", "GenCast vs ERA5");
   ("gencast_operational_100m_uv_vs_era5", "GenCast (oper.) vs ERA5");
   ("gencast_operational_100m_uv_vs_hres_t0", "GenCast (oper.) vs Analysis");
   ("arches_weather_gen_vs_era5", "ArchesWeatherGen vs ERA5")].
(** 105-124 REGION_NAMES *)
Definition REGION_NAMES : dict string string :=
  [("global", "Global");
   ("tropics", "Tropics");
   ("northern-hemisphere", "Northern Hemisphere");
   ("southern-hemisphere", "Southern Hemisphere");
   ("europe", "Europe");
   ("north-america", "North America");
   ("north-atlantic", "North Atlantic");
   ("north-pacific", "North Pacific");
   ("east-asia", "East Asia");
   ("ausnz", "Australia/New Zealand");
   ("arctic", "Arctic");
   ("antarctic", "Antarctic");
   ("northern-africa", "Northern Africa");
   ("southern-africa", "Southern Africa");
   ("south-america", "South America");
   ("west-asia", "West Asia");
   ("south-east-asia", "South-East Asia")].
(** 125-141 VARIABLE_NAMES *)
Definition VARIABLE_NAMES : dict string string :=
  [("geopotential", "Geopotential");
   ("temperature", "Temperature");
   ("specific_humidity", "Specific Humidity");
   ("u_component_of_wind", "U Component of Wind");
   ("v_component_of_wind", "V Component of Wind");
   ("10m_u_component_of_wind", "10m U Component of Wind");
   ("10m_v_component_of_wind", "10m V Component of Wind");
   ("mean_sea_level_pressure", "Sea Level Pressure");
   ("2m_temperature", "2m Temperature");
   ("total_precipitation_6hr", "6h Precipitation");
   ("total_precipitation_24hr", "24h Precipitation");
   ("wind_speed", "Wind Speed");
   ("10m_wind_speed", "10m Wind Speed");
   ("wind_vector", "Wind Vector");
   ("10m_wind_vector", "10m Wind Vector")].
(** 142-150 DETERMINISTIC_METRIC_NAMES *)
Definition DETERMINISTIC_METRIC_NAMES : dict string string :=
  [("rmse", "RMSE");
   ("mae", "MAE");
   ("bias", "Bias");
   ("seeps", "SEEPS");
   ("acc", "ACC");
   ("mse", "MSE");
   ("prediction_activity", "Forecast Activity")].
(** 151-157 PROBABILISTIC_METRIC_NAMES *)
Definition PROBABILISTIC_METRIC_NAMES : dict string string :=
  [("crps", "CRPS");
   ("spread_skill", "Spread/Skill");
   ("unbiased_spread_skill", "Unbiased Spread/Skill");
   ("unbiased_mean_rmse", "Unbiased Mean RMSE");
   ("mean_rmse", "Mean RMSE")].
(** 181-182 *)
Definition YEARS : list string := ["2018"; "2020"; "2022"].
Definition RESOLUTIONS : list string := ["64x32"; "240x121"; "1440x721"].

(** 32-38 the flag --mode: 'deterministic' or 'probabilistic' *)
Inductive mode := Deterministic | Probabilistic.
(** 241-244 *)
Definition models (m : mode) : dict string string := match m with Deterministic => DETERMINISTIC_MODELS | Probabilistic => PROBABILISTIC_MODELS end.
(** 231-234 *)
Definition metric_names (m : mode) : dict string string := match m with Deterministic => DETERMINISTIC_METRIC_NAMES | Probabilistic => PROBABILISTIC_METRIC_NAMES end.

(** ** Python's str.endswith and str.split *)
Fixpoint endswith (suffix s : string) : bool :=
  String.eqb s suffix || match s with EmptyString => false | String _ s' => endswith suffix s' end.
(** [s.split(sub)[0]] for a non-empty [sub]: what precedes its first occurrence. *)
Fixpoint before (sub s : string) : string :=
  if String.prefix sub s then "" else match s with EmptyString => "" | String a s' => String a (before sub s') end.
(** [s.split(".")[i]]: IndexError if there are fewer parts. *)
Definition part (i : nat) (s : string) : result string :=
  match nth_error (split_char "."%char s) i with Some p => Ok p | None => Err IndexError end.

(** ** 185-189 open_nc; the whole call is inside a try, 203-207: any exception skips the file *)
Definition strip (a : da) : da := mkDa (dims a) (get a) [].
Definition open_nc (files : string -> option (vars da)) (fn : string) : option (vars da) :=
  match files fn with Some ds => Some (map (fun kv => (fst kv, strip (snd kv))) ds) | None => None end.

(** ** 192-196 _rename_region; a label that is not a string has no endswith *)
Definition rename_region (l : label) : result label :=
  match l with
  | LS region =>
      if endswith "_land" region then
        do r <- dgetE REGION_NAMES (before "_land" region); Ok (LS (r ++ " (Land)")%string)
      else do r <- dgetE REGION_NAMES region; Ok (LS r)
  | _ => Err AttributeError
  end.

(** ** Parts of process_results, 199-237 *)
(** 213-216 *)
Definition rename_vector (old new : string) (ds : vars da) : result (vars da) :=
  if memb old (ds_names ds) then rename_ds [(old, new)] ds else Ok ds.
(** 220-228: the metrics of one variable along a new dimension "metric" (xr.concat of an empty
    list is a ValueError). *)
Definition metrics_for_variable (names : list string) (v : string) : result (list string) :=
  mapM (part 0) (filter (endswith ("." ++ v)%string) names).
Definition cat_variable (ds : vars da) (v : string) : result (string * da) :=
  do ms <- metrics_for_variable (keys ds) v;
  do arrs <- mapM (fun mv => dgetE ds (mv ++ "." ++ v)%string) ms;
  match ms with
  | [] => Err ValueError
  | _ => Ok (v, concat_new "metric" (combine (map LS ms) arrs))
  end.
(** 230 *)
Definition known_renames (ds : vars da) : dict string string := filter (fun kv => memb (fst kv) (ds_names ds)) VARIABLE_NAMES.
(** [ds.d.values]: AttributeError if there is no such coordinate.  All variables of a dataset have
    the same labels. *)
Definition ds_labels (ds : vars da) (d : string) : result (list label) :=
  match find (fun kv => memb d (dnames (snd kv))) ds with
  | Some kv => Ok (labels_of (dims (snd kv)) d) | None => Err AttributeError end.
(** [ds.assign_coords(d=new)] for a dimension with the labels [old], of the same length. *)
Definition relabel_da (d : string) (old new : list label) (a : da) : da :=
  mkDa (map (fun p => if String.eqb (fst p) d then (d, new) else p) (dims a))
       (fun e => match dget (combine new old) (e d) with Some l => get a (upd e d l) | None => get a e end) (aux a).
(** [ds.assign_coords(d=[f(x) for x in ds.d.values])] *)
Definition relabel (d : string) (f : label -> result label) (ds : vars da) : result (vars da) :=
  do old <- ds_labels ds d;
  do new <- mapM f old;
  Ok (map (fun kv => (fst kv, relabel_da d old new (snd kv))) ds).
(** 235: [metric_names[m]] *)
Definition rename_metric (m : mode) (l : label) : result label :=
  match l with LS k => do s <- dgetE (metric_names m) k; Ok (LS s) | _ => Err KeyError end.

(** ** 199-237 process_results, from the opened dataset on *)
Definition process (m : mode) (ds : vars da) : result (vars da) :=
  do ds <- rename_vector "vector_rmse.wind" "rmse.wind_vector" ds;                 (* 213-214 *)
  do ds <- rename_vector "vector_rmse.10m_wind" "rmse.10m_wind_vector" ds;         (* 215-216 *)
  do vs <- mapM (part 1) (keys ds);                                                (* 217-218 *)
  do cats <- mapM (cat_variable ds) (nodup string_dec vs);                         (* 219-228 *)
  let ds := combine (map fst cats) (align_dataset (map snd cats)) in               (* 229 *)
  do ds <- rename_ds (known_renames ds) ds;                                        (* 230 *)
  do ds <- relabel "metric" (rename_metric m) ds;                                  (* 231-235 *)
  relabel "region" rename_region ds.                                               (* 236 *)
(** 202: the file name, below input_dir *)
Definition result_file (model year resolution : string) : string :=
  (model ++ "_" ++ resolution ++ "_" ++ year ++ ".nc")%string.
Definition process_results (m : mode) (files : string -> option (vars da)) (model year resolution : string)
    : result (option (vars da)) :=
  match open_nc files (result_file model year resolution) with
  | None => Ok None                                                                (* 203-207 *)
  | Some ds => do r <- process m ds; Ok (Some r)
  end.

(** ** 252-256 [ds.expand_dims]: ValueError if the dataset has such a dimension *)
Definition expand (M resolution year : string) (ds : vars da) : result (vars da) :=
  if existsb (fun kv => existsb (fun d => memb d (dnames (snd kv))) ["model"; "resolution"; "year"]) ds then Err ValueError
  else Ok (map (fun kv => (fst kv, mkDa (("model", [LS M]) :: ("resolution", [LS resolution]) :: ("year", [LS year]) :: dims (snd kv))
                                        (get (snd kv)) (aux (snd kv)))) ds).

(** ** 259 [xr.merge([a, b])]: join="outer", compat="no_conflicts" *)
(** Reindexing to the joint labels [J], filled with NaN. *)
Definition reindexed (J : dimlist) (a : da) : da :=
  mkDa (map (fun p => (fst p, labels_of J (fst p))) (dims a)) (fun e => if in_box (dims a) e then get a e else NaN) [].
(** Two variables agree wherever both are not null. *)
Definition compatible (a b : da) : bool :=
  forallb (fun e => isnan (get a e) || isnan (get b e) || veqb (get a e) (get b e))
          (envs (merge_dims union_labels (dims a) (dims b)) env0).
Definition fillna (a b : da) : da :=
  mkDa (merge_dims union_labels (dims a) (dims b)) (fun e => if isnan (get a e) then get b e else get a e) [].
(** A MergeError is a ValueError. *)
Definition merge (x y : vars da) : result (vars da) :=
  let J := fold_left (merge_dims union_labels) (map dims (map snd (x ++ y))) [] in
  do common <- mapM (fun kv =>
      match dget y (fst kv) with
      | None => Ok (fst kv, reindexed J (snd kv))
      | Some b => if compatible (reindexed J (snd kv)) (reindexed J b)
                  then Ok (fst kv, fillna (reindexed J (snd kv)) (reindexed J b)) else Err ValueError
      end) x;
  Ok (common ++ map (fun kv => (fst kv, reindexed J (snd kv))) (filter (fun kv => negb (memb (fst kv) (keys x))) y)).

(** ** 247-259 the loop over models, years and resolutions *)
Definition cells (m : mode) : list (string * string * string) :=
  flat_map (fun model => flat_map (fun year => map (fun resolution => (model, year, resolution)) RESOLUTIONS) YEARS) (keys (models m)).
Definition add_cell (m : mode) (files : string -> option (vars da)) (results : vars da) (c : string * string * string)
    : result (vars da) :=
  let '(model, year, resolution) := c in
  do r <- process_results m files model year resolution;
  match r with
  | None => Ok results
  | Some ds => do M <- dgetE (models m) model; do ds <- expand M resolution year ds; merge results ds
  end.
Fixpoint merge_all (m : mode) (files : string -> option (vars da)) (results : vars da) (cs : list (string * string * string))
    : result (vars da) :=
  match cs with [] => Ok results | c :: cs' => do r <- add_cell m files results c; merge_all m files r cs' end.

(** ** 240-280 main: what is written, and where *)
Record output := mkOutput { o_file : string; o_data : vars da; o_lead_time_h : list Z }.
(** 261-263: timedelta64[ns] to whole hours *)
Definition hour_ns : Z := 3600000000000.
Definition to_hours (l : label) : result Z := match l with LZ t => Ok (Z.div t hour_ns) | _ => Err TypeError end.
(** 266-274: ValueError for a dimension the dataset does not have *)
Definition chunk_dims : list string := ["model"; "resolution"; "year"; "metric"; "region"; "level"; "lead_time"].
Definition main (m : mode) (files : string -> option (vars da)) : result output :=
  do results <- merge_all m files [] (cells m);
  do leads <- ds_labels results "lead_time";
  do hours <- mapM to_hours leads;
  if forallb (fun d => existsb (fun kv => memb d (dnames (snd kv))) results) chunk_dims then
    Ok (mkOutput (match m with Deterministic => "deterministic.zarr" | Probabilistic => "probabilistic.zarr" end) results hours)
  else Err ValueError.

(** ** What public_benchmark/run_benchmark_evaluation.py puts into a result file *)
(** run_benchmark_evaluation.py 110-131, the names only *)
Definition REGIONS : list string :=
  ["global"; "tropics"; "northern-hemisphere"; "southern-hemisphere"; "europe"; "north-america"; "north-atlantic"; "north-pacific";
   "east-asia"; "ausnz"; "arctic"; "antarctic"; "northern-africa"; "southern-africa"; "south-america"; "west-asia"; "south-east-asia"].
(** public_configs.py 18-40 *)
Definition upper_level_variables : list string :=
  ["geopotential"; "temperature"; "u_component_of_wind"; "v_component_of_wind"; "wind_speed"; "specific_humidity"].
Definition surface_variables : list string :=
  ["2m_temperature"; "mean_sea_level_pressure"; "10m_u_component_of_wind"; "10m_v_component_of_wind"; "10m_wind_speed"].
Definition precipitation_variables : list string := ["total_precipitation_6hr"; "total_precipitation_24hr"].
Definition config_variables : list string := upper_level_variables ++ surface_variables ++ precipitation_variables.
(** run_benchmark_evaluation.py 294-353: the metrics, and the variables each of them yields; the
    dataset of metric values names its entries "metric.variable" (weatherbenchX/aggregation.py 137-140). *)
Definition vector_names (variables : list string) : list string :=
  (if memb "u_component_of_wind" variables && memb "v_component_of_wind" variables then ["wind"] else [])
  ++ (if memb "10m_u_component_of_wind" variables && memb "10m_v_component_of_wind" variables then ["10m_wind"] else []).
Definition all_metrics (is_probabilistic : bool) (variables : list string) : list (string * list string) :=
  if is_probabilistic then
    map (fun k => (k, variables)) ["crps"; "unbiased_spread_skill"; "unbiased_mean_rmse"; "mean_rmse"]
  else
    map (fun k => (k, variables)) ["rmse"; "mse"; "bias"; "acc"; "prediction_activity"]
    ++ [("vector_rmse", vector_names variables); ("seeps", filter (String.prefix "total_precipitation") variables)].
Definition result_names (is_probabilistic : bool) (variables : list string) : list string :=
  flat_map (fun kv => map (fun v => fst kv ++ "." ++ v)%string (snd kv)) (all_metrics is_probabilistic variables).
