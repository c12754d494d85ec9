(** Model of public_benchmark/run_benchmark_evaluation.py and public_benchmark/public_configs.py: which
    data, times and metrics a run of the benchmark evaluates, and the file it writes.
    Simplifications: the strings f'{year}-01-01T00' that numpy parses are represented by the times they
    denote, for four-digit years (other strings: ValueError); datetime64 of the user's own start and
    stop strings is a parameter; the order of np.intersect1d is not modelled; prediction_loader_kwargs
    is updated in place (186-191), which no other part of the run sees.  The loaders, metrics and
    aggregation themselves are in the other model files; the land-sea mask, the climatology and the
    lead times of the prediction file are read from storage. *)
From Coq Require Import String Ascii ZArith List Bool.
Import ListNotations.
From Verif Require Import Prelude Values Model_XArray Model_MetricsBase Model_Calendar Model_TimeChunks Model_Loaders Model_Prepare Model_Select Model_Combine.
Local Open Scope string_scope.
Local Open Scope list_scope.

(** ** public_configs.py *)
(** 32-46 (the other lists of variables are in Model_Combine) *)
Definition standard_variables : list string := upper_level_variables ++ surface_variables.
Definition fuxi_variables : list string := filter (fun v => negb (String.eqb v "specific_humidity")) (standard_variables ++ precipitation_variables).
(** A preprocessing_fn: lambda ds: ds.sortby('latitude'), or select_first_member. *)
Inductive preprocessing := SortLatitude | FirstMember.
(** The dictionary under 'data_loader_kwargs'. *)
Record kwargs := mkKwargs { k_add_nan_mask : bool; k_rename_dimensions : option (dict string string); k_preprocessing_fn : option preprocessing }.
Definition no_kwargs : kwargs := mkKwargs false None None.
(** One configuration; None: the key is absent. *)
Record config := mkConfig { c_path : string; c_variables : list string; c_levels : option (list Z); c_kwargs : option kwargs }.

(** 56-245 deterministic_prediction_configs as written (the single members are added below) *)
Definition deterministic_literals : dict string config :=
  [("hres_64x32_2018", mkConfig "gs://weatherbench2/datasets/hres/2016-2022-0012-64x32_equiangular_conservative.zarr" (standard_variables ++ precipitation_variables) None None);
   ("hres_64x32_2020", mkConfig "gs://weatherbench2/datasets/hres/2016-2022-0012-64x32_equiangular_conservative.zarr" (standard_variables ++ precipitation_variables) None None);
   ("hres_64x32_2022", mkConfig "gs://weatherbench2/datasets/hres/2016-2022-0012-64x32_equiangular_conservative.zarr" (standard_variables ++ precipitation_variables) None None);
   ("hres_240x121_2018", mkConfig "gs://weatherbench2/datasets/hres/2016-2022-0012-240x121_equiangular_with_poles_conservative.zarr" (standard_variables ++ precipitation_variables) None None);
   ("hres_240x121_2020", mkConfig "gs://weatherbench2/datasets/hres/2016-2022-0012-240x121_equiangular_with_poles_conservative.zarr" (standard_variables ++ precipitation_variables) None None);
   ("hres_240x121_2022", mkConfig "gs://weatherbench2/datasets/hres/2016-2022-0012-240x121_equiangular_with_poles_conservative.zarr" (standard_variables ++ precipitation_variables) None None);
   ("hres_1440x721_2018", mkConfig "gs://weatherbench2/datasets/hres/2016-2022-0012-1440x721.zarr" (standard_variables ++ precipitation_variables) None None);
   ("hres_1440x721_2020", mkConfig "gs://weatherbench2/datasets/hres/2016-2022-0012-1440x721.zarr" (standard_variables ++ precipitation_variables) None None);
   ("hres_1440x721_2022", mkConfig "gs://weatherbench2/datasets/hres/2016-2022-0012-1440x721.zarr" (standard_variables ++ precipitation_variables) None None);
   ("ens_mean_64x32_2018", mkConfig "gs://weatherbench2/datasets/ifs_ens/2018-2022-64x32_equiangular_conservative_mean.zarr" (standard_variables ++ precipitation_variables) None None);
   ("ens_mean_64x32_2020", mkConfig "gs://weatherbench2/datasets/ifs_ens/2018-2022-64x32_equiangular_conservative_mean.zarr" (standard_variables ++ precipitation_variables) None None);
   ("ens_mean_64x32_2022", mkConfig "gs://weatherbench2/datasets/ifs_ens/2018-2022-64x32_equiangular_conservative_mean.zarr" (standard_variables ++ precipitation_variables) None None);
   ("ens_mean_240x121_2018", mkConfig "gs://weatherbench2/datasets/ifs_ens/2018-2022-240x121_equiangular_with_poles_conservative_mean.zarr" (standard_variables ++ precipitation_variables) None None);
   ("ens_mean_240x121_2020", mkConfig "gs://weatherbench2/datasets/ifs_ens/2018-2022-240x121_equiangular_with_poles_conservative_mean.zarr" (standard_variables ++ precipitation_variables) None None);
   ("ens_mean_240x121_2022", mkConfig "gs://weatherbench2/datasets/ifs_ens/2018-2022-240x121_equiangular_with_poles_conservative_mean.zarr" (standard_variables ++ precipitation_variables) None None);
   ("ens_mean_1440x721_2018", mkConfig "gs://weatherbench2/datasets/ifs_ens/2018-2022-1440x721_mean.zarr" (standard_variables ++ precipitation_variables) None None);
   ("ens_mean_1440x721_2020", mkConfig "gs://weatherbench2/datasets/ifs_ens/2018-2022-1440x721_mean.zarr" (standard_variables ++ precipitation_variables) None None);
   ("ens_mean_1440x721_2022", mkConfig "gs://weatherbench2/datasets/ifs_ens/2018-2022-1440x721_mean.zarr" (standard_variables ++ precipitation_variables) None None);
   ("era5_forecast_64x32_2018", mkConfig "gs://weatherbench2/datasets/era5-forecasts/2018-64x32_equiangular_conservative.zarr" standard_variables None None);
   ("era5_forecast_64x32_2020", mkConfig "gs://weatherbench2/datasets/era5-forecasts/2020-64x32_equiangular_conservative.zarr" standard_variables None None);
   ("era5_forecast_240x121_2018", mkConfig "gs://weatherbench2/datasets/era5-forecasts/2018-240x121_equiangular_with_poles_conservative.zarr" standard_variables None None);
   ("era5_forecast_240x121_2020", mkConfig "gs://weatherbench2/datasets/era5-forecasts/2020-240x121_equiangular_with_poles_conservative.zarr" standard_variables None None);
   ("era5_forecast_1440x721_2018", mkConfig "gs://weatherbench2/datasets/era5-forecasts/2018-1440x721.zarr" standard_variables None None);
   ("era5_forecast_1440x721_2020", mkConfig "gs://weatherbench2/datasets/era5-forecasts/2020-1440x721.zarr" standard_variables None None);
   ("keisler_64x32_2020", mkConfig "gs://weatherbench2/datasets/keisler/2020-64x32_equiangular_conservative.zarr" upper_level_variables None (Some (mkKwargs true None None)));
   ("keisler_240x121_2020", mkConfig "gs://weatherbench2/datasets/keisler/2020-240x121_equiangular_with_poles_conservative.zarr" upper_level_variables None (Some (mkKwargs true None None)));
   ("pangu_64x32_2018", mkConfig "gs://weatherbench2/datasets/pangu/2018-2022_0012_64x32_equiangular_conservative.zarr" standard_variables None None);
   ("pangu_64x32_2020", mkConfig "gs://weatherbench2/datasets/pangu/2018-2022_0012_64x32_equiangular_conservative.zarr" standard_variables None None);
   ("pangu_64x32_2022", mkConfig "gs://weatherbench2/datasets/pangu/2018-2022_0012_64x32_equiangular_conservative.zarr" standard_variables None None);
   ("pangu_240x121_2018", mkConfig "gs://weatherbench2/datasets/pangu/2018-2022_0012_240x121_equiangular_with_poles_conservative.zarr" standard_variables None None);
   ("pangu_240x121_2020", mkConfig "gs://weatherbench2/datasets/pangu/2018-2022_0012_240x121_equiangular_with_poles_conservative.zarr" standard_variables None None);
   ("pangu_240x121_2022", mkConfig "gs://weatherbench2/datasets/pangu/2018-2022_0012_240x121_equiangular_with_poles_conservative.zarr" standard_variables None None);
   ("pangu_1440x721_2018", mkConfig "gs://weatherbench2/datasets/pangu/2018-2022_0012_0p25.zarr" standard_variables None None);
   ("pangu_1440x721_2020", mkConfig "gs://weatherbench2/datasets/pangu/2018-2022_0012_0p25.zarr" standard_variables None None);
   ("pangu_1440x721_2022", mkConfig "gs://weatherbench2/datasets/pangu/2018-2022_0012_0p25.zarr" standard_variables None None);
   ("pangu_hres_init_64x32_2020", mkConfig "gs://weatherbench2/datasets/pangu_hres_init/2020_0012_64x32_equiangular_conservative.zarr" standard_variables None None);
   ("pangu_hres_init_64x32_2022", mkConfig "gs://weatherbench2/datasets/pangu_hres_init/2022_0012_64x32_equiangular_conservative.zarr" standard_variables None None);
   ("pangu_hres_init_240x121_2020", mkConfig "gs://weatherbench2/datasets/pangu_hres_init/2020_0012_240x121_equiangular_with_poles_conservative.zarr" standard_variables None None);
   ("pangu_hres_init_240x121_2022", mkConfig "gs://weatherbench2/datasets/pangu_hres_init/2022_0012_240x121_equiangular_with_poles_conservative.zarr" standard_variables None None);
   ("pangu_hres_init_1440x721_2020", mkConfig "gs://weatherbench2/datasets/pangu_hres_init/2020_0012_0p25.zarr" standard_variables None None);
   ("pangu_hres_init_1440x721_2022", mkConfig "gs://weatherbench2/datasets/pangu_hres_init/2022_0012_0p25.zarr" standard_variables None None);
   ("neuralgcm_hres_64x32_2020", mkConfig "gs://weatherbench2/datasets/neuralgcm_deterministic/2020-64x32_equiangular_conservative.zarr" upper_level_variables None None);
   ("neuralgcm_hres_240x121_2020", mkConfig "gs://weatherbench2/datasets/neuralgcm_deterministic/2020-240x121_equiangular_with_poles_conservative.zarr" upper_level_variables None None);
   ("neuralgcm_ens_mean_64x32_2020", mkConfig "gs://weatherbench2/datasets/neuralgcm_ens/2020-64x32_equiangular_conservative_mean.zarr" upper_level_variables None None);
   ("neuralgcm_ens_mean_240x121_2020", mkConfig "gs://weatherbench2/datasets/neuralgcm_ens/2020-240x121_equiangular_with_poles_conservative_mean.zarr" upper_level_variables None None);
   ("fuxi_64x32_2020", mkConfig "gs://weatherbench2/datasets/fuxi/2020-64x32_equiangular_conservative.zarr" fuxi_variables (Some [500; 850]%Z) None);
   ("fuxi_240x121_2020", mkConfig "gs://weatherbench2/datasets/fuxi/2020-240x121_equiangular_with_poles_conservative.zarr" fuxi_variables (Some [500; 850]%Z) None);
   ("fuxi_1440x721_2020", mkConfig "gs://weatherbench2/datasets/fuxi/2020-1440x721.zarr" fuxi_variables (Some [500; 850]%Z) None)].
(** 287-343 probabilistic_prediction_configs *)
Definition probabilistic_prediction_configs : dict string config :=
  [("ens_64x32_2018", mkConfig "gs://weatherbench2/datasets/ifs_ens/2018-2022-64x32_equiangular_conservative.zarr" (standard_variables ++ precipitation_variables) None None);
   ("ens_64x32_2020", mkConfig "gs://weatherbench2/datasets/ifs_ens/2018-2022-64x32_equiangular_conservative.zarr" (standard_variables ++ precipitation_variables) None None);
   ("ens_64x32_2022", mkConfig "gs://weatherbench2/datasets/ifs_ens/2018-2022-64x32_equiangular_conservative.zarr" (standard_variables ++ precipitation_variables) None None);
   ("ens_240x121_2018", mkConfig "gs://weatherbench2/datasets/ifs_ens/2018-2022-240x121_equiangular_with_poles_conservative.zarr" (standard_variables ++ precipitation_variables) None None);
   ("ens_240x121_2020", mkConfig "gs://weatherbench2/datasets/ifs_ens/2018-2022-240x121_equiangular_with_poles_conservative.zarr" (standard_variables ++ precipitation_variables) None None);
   ("ens_240x121_2022", mkConfig "gs://weatherbench2/datasets/ifs_ens/2018-2022-240x121_equiangular_with_poles_conservative.zarr" (standard_variables ++ precipitation_variables) None None);
   ("ens_1440x721_2018", mkConfig "gs://weatherbench2/datasets/ifs_ens/2018-2022-1440x721.zarr" (standard_variables ++ precipitation_variables) None None);
   ("ens_1440x721_2020", mkConfig "gs://weatherbench2/datasets/ifs_ens/2018-2022-1440x721.zarr" (standard_variables ++ precipitation_variables) None None);
   ("ens_1440x721_2022", mkConfig "gs://weatherbench2/datasets/ifs_ens/2018-2022-1440x721.zarr" (standard_variables ++ precipitation_variables) None None);
   ("neuralgcm_ens_64x32_2020", mkConfig "gs://weatherbench2/datasets/neuralgcm_ens/2020-64x32_equiangular_conservative.zarr" upper_level_variables None (Some (mkKwargs false (Some [("realization", "number"); ("time", "init_time"); ("prediction_timedelta", "lead_time")]) None)));
   ("neuralgcm_ens_240x121_2020", mkConfig "gs://weatherbench2/datasets/neuralgcm_ens/2020-240x121_equiangular_with_poles_conservative.zarr" upper_level_variables None (Some (mkKwargs false (Some [("realization", "number"); ("time", "init_time"); ("prediction_timedelta", "lead_time")]) None)))].
(** 345-383 target_configs *)
Definition target_configs : dict string config :=
  [("era5_64x32", mkConfig "gs://weatherbench2/datasets/era5/1959-2023_01_10-6h-64x32_equiangular_conservative.zarr" (standard_variables ++ precipitation_variables) None (Some (mkKwargs false None (Some SortLatitude))));
   ("era5_240x121", mkConfig "gs://weatherbench2/datasets/era5/1959-2023_01_10-6h-240x121_equiangular_with_poles_conservative.zarr" (standard_variables ++ precipitation_variables) None (Some (mkKwargs false None (Some SortLatitude))));
   ("era5_1440x721", mkConfig "gs://weatherbench2/datasets/era5/1959-2023_01_10-wb13-6h-1440x721_with_derived_variables.zarr" (standard_variables ++ precipitation_variables) None (Some (mkKwargs false None (Some SortLatitude))));
   ("hres_t0_64x32", mkConfig "gs://weatherbench2/datasets/hres_t0/2016-2022-6h-64x32_equiangular_conservative.zarr" standard_variables None None);
   ("hres_t0_240x121", mkConfig "gs://weatherbench2/datasets/hres_t0/2016-2022-6h-240x121_equiangular_with_poles_conservative.zarr" standard_variables None None);
   ("hres_t0_1440x721", mkConfig "gs://weatherbench2/datasets/hres_t0/2016-2022-6h-1440x721.zarr" standard_variables None None)].
(** 385-429 climatology_configs *)
Definition climatology_configs : dict string config :=
  [("era5_64x32_2018", mkConfig "gs://weatherbench2/datasets/era5-hourly-climatology/1990-2017_6h_64x32_equiangular_conservative.zarr" (standard_variables ++ precipitation_variables) None None);
   ("era5_240x121_2016", mkConfig "gs://weatherbench2/datasets/era5-hourly-climatology/1990-2017_6h_240x121_equiangular_with_poles_conservative.zarr" (standard_variables ++ precipitation_variables) None None);
   ("era5_240x121_2018", mkConfig "gs://weatherbench2/datasets/era5-hourly-climatology/1990-2017_6h_240x121_equiangular_with_poles_conservative.zarr" (standard_variables ++ precipitation_variables) None None);
   ("era5_1440x721_2018", mkConfig "gs://weatherbench2/datasets/era5-hourly-climatology/1990-2017_6h_1440x721.zarr" (standard_variables ++ precipitation_variables) None (Some (mkKwargs false None (Some SortLatitude))));
   ("era5_64x32_2020", mkConfig "gs://weatherbench2/datasets/era5-hourly-climatology/1990-2019_6h_64x32_equiangular_conservative.zarr" (standard_variables ++ precipitation_variables) None None);
   ("era5_64x32_2022", mkConfig "gs://weatherbench2/datasets/era5-hourly-climatology/1990-2019_6h_64x32_equiangular_conservative.zarr" (standard_variables ++ precipitation_variables) None None);
   ("era5_240x121_2020", mkConfig "gs://weatherbench2/datasets/era5-hourly-climatology/1990-2019_6h_240x121_equiangular_with_poles_conservative.zarr" (standard_variables ++ precipitation_variables) None None);
   ("era5_240x121_2022", mkConfig "gs://weatherbench2/datasets/era5-hourly-climatology/1990-2019_6h_240x121_equiangular_with_poles_conservative.zarr" (standard_variables ++ precipitation_variables) None None);
   ("era5_1440x721_2020", mkConfig "gs://weatherbench2/datasets/era5-hourly-climatology/1990-2019_6h_1440x721.zarr" (standard_variables ++ precipitation_variables) None (Some (mkKwargs false None (Some SortLatitude))));
   ("era5_1440x721_2022", mkConfig "gs://weatherbench2/datasets/era5-hourly-climatology/1990-2019_6h_1440x721.zarr" (standard_variables ++ precipitation_variables) None (Some (mkKwargs false None (Some SortLatitude))))].

(** [s.replace(old, new)] for a non-empty [old]: from left to right. *)
Fixpoint replace_from (fuel : nat) (old new s : string) : string :=
  match fuel with
  | O => s
  | S f => if String.prefix old s then (new ++ replace_from f old new (substring (String.length old) (String.length s) s))%string
           else match s with EmptyString => EmptyString | String c s' => String c (replace_from f old new s') end
  end.
Definition replace (old new s : string) : string := replace_from (S (String.length s)) old new s.
(** 248 *)
Definition add_single_member_config : list string := ["ens"; "neuralgcm_ens"].
(** 267-280: AssertionError if there is a preprocessing_fn already *)
Definition single_member_config (c : config) : result config :=
  let path := replace "_mean.zarr" ".zarr" (c_path c) in
  match c_kwargs c with
  | Some k => match k_preprocessing_fn k with
              | Some _ => Err AssertionError
              | None => Ok (mkConfig path (c_variables c) (c_levels c) (Some (mkKwargs (k_add_nan_mask k) (k_rename_dimensions k) (Some FirstMember))))
              end
  | None => Ok (mkConfig path (c_variables c) (c_levels c) (Some (mkKwargs false None (Some FirstMember))))
  end.
(** 264-284 *)
Fixpoint single_member_configs (l : dict string config) (acc : dict string config) : result (dict string config) :=
  match l with
  | [] => Ok acc
  | (model, c) :: l' =>
      if existsb (fun m => String.prefix m model) add_single_member_config
      then do s <- single_member_config c; single_member_configs l' (dset acc (replace "_mean" "_single_member" model) s)
      else single_member_configs l' acc
  end.
(** 285 [d.update(e)] *)
Definition update (d e : dict string config) : dict string config := fold_left (fun d kv => dset d (fst kv) (snd kv)) e d.

Record configs := mkConfigs {
  deterministic_prediction : dict string config; probabilistic_prediction : dict string config;
  target : dict string config; climatology : dict string config }.
(** The module public_configs after its import. *)
Definition public_configs : result configs :=
  do s <- single_member_configs deterministic_literals [];
  Ok (mkConfigs (update deterministic_literals s) probabilistic_prediction_configs target_configs climatology_configs).

(** 251-261 select_first_member, on a dataset: [ds.isel(d=0)] leaves variables without the dimension *)
Definition member_dims : list string := ["number"; "sample"; "member"; "realization"].
Definition ds_has_dim (ds : vars da) (d : string) : bool := existsb (fun kv => memb d (dnames (snd kv))) ds.
Definition isel_first (d : string) (ds : vars da) : result (vars da) :=
  mapM (fun kv => if memb d (dnames (snd kv)) then do a <- isel_one d (PosAt 0) (snd kv); Ok (fst kv, a) else Ok kv) ds.
Definition select_first_member (ds : vars da) : result (vars da) :=
  match find (ds_has_dim ds) member_dims with Some d => isel_first d ds | None => Err ValueError end.

(** ** run_benchmark_evaluation.py *)
(** 66-105 the flags (those that matter to what is evaluated); None: not given. *)
Record flags := mkFlags {
  f_prediction : string; f_target : string; f_resolution : string; f_year : string;
  f_time_start : option string; f_time_stop : option string; f_time_frequency : option Z;
  f_lead_start : option Z; f_lead_stop : option Z; f_lead_frequency : Z;
  f_init_chunk : Z; f_lead_chunk : Z; f_temporal : bool }.

(** The loader class, 180-193 *)
Inductive loader_class := Predictions | Persistence | Climatology | ProbabilisticClimatology (start_year end_year : Z).
(** 140-159 the configuration of the prediction and whether it is probabilistic *)
Definition prediction_config (cs : configs) (f : flags) : result (config * bool) :=
  let name := (f_prediction f ++ "_" ++ f_resolution f ++ "_" ++ f_year f)%string in
  if String.eqb (f_prediction f) "persistence" then do c <- dgetE (target cs) ("era5_" ++ f_resolution f)%string; Ok (c, false)
  else if String.eqb (f_prediction f) "probabilistic_climatology" then do c <- dgetE (target cs) ("era5_" ++ f_resolution f)%string; Ok (c, true)
  else if String.eqb (f_prediction f) "climatology" then do c <- dgetE (climatology cs) ("era5_" ++ f_resolution f ++ "_" ++ f_year f)%string; Ok (c, false)
  else match dget (deterministic_prediction cs) name with
       | Some c => Ok (c, false)
       | None => do c <- dgetE (probabilistic_prediction cs) name; Ok (c, true)
       end.
Definition prediction_class (f : flags) : loader_class :=
  if String.eqb (f_prediction f) "persistence" then Persistence
  else if String.eqb (f_prediction f) "climatology" then Climatology
  else if String.eqb (f_prediction f) "probabilistic_climatology" then ProbabilisticClimatology 1990 2019
  else Predictions.
(** 164-166, np.intersect1d *)
Definition intersect (a b : list string) : list string := nodup string_dec (filter (fun v => memb v b) a).
(** 108 *)
Definition DEFAULT_LEVELS : list Z := [500; 700; 850]%Z.

(** ** 213-249 the initialisation times *)
(** int(s) of a four-digit year *)
Definition digit_value (c : ascii) : option Z :=
  let n := Z.of_nat (nat_of_ascii c) in if ((48 <=? n) && (n <=? 57))%Z then Some (n - 48)%Z else None.
Definition year_number (s : string) : result Z :=
  match s with
  | String a (String b (String c (String d EmptyString))) =>
      match digit_value a, digit_value b, digit_value c, digit_value d with
      | Some x, Some y, Some z, Some w => Ok (((x * 10 + y) * 10 + z) * 10 + w)%Z
      | _, _, _, _ => Err ValueError
      end
  | _ => Err ValueError
  end.
(** The time y-mo-d T h *)
Definition sumz (l : list Z) : Z := fold_right Z.add 0%Z l.
Definition date (y mo d h : Z) : Z :=
  ((year_start y + sumz (firstn (Z.to_nat (mo - 1)) (month_lengths y)) + (d - 1)) * ns_day + h * ns_hour)%Z.
(** np.arange(start, stop, step): ValueError for step 0, empty if it leads away *)
Definition ceil_div (a b : Z) : Z := (- ((- a) / b))%Z.
Definition arange (start stop step : Z) : result (list Z) :=
  if (step =? 0)%Z then Err ValueError
  else Ok (map (fun k => (start + Z.of_nat k * step)%Z) (seq 0 (Z.to_nat (ceil_div (stop - start) step)))).

Section Run.
  (** np.datetime64 of the strings of --time_start and --time_stop *)
  Variable datetime64 : string -> result Z.
  (** 213-236: start, stop and the string in the file name *)
  Definition window (f : flags) : result (Z * Z * string) :=
    match f_time_start f, f_time_stop f with
    | None, Some _ | Some _, None => Err ValueError                                            (* 213-216 *)
    | Some a, Some b => do s <- datetime64 a; do e <- datetime64 b; Ok (s, e, (a ++ "_" ++ b)%string)   (* 233-236 *)
    | None, None =>
        do y <- year_number (f_year f);
        if String.eqb (f_year f) "2022" || memb (f_prediction f) ["fuxi"; "excarta"] then      (* 222-226 *)
          Ok (if String.eqb (f_prediction f) "aurora" then date y 1 1 12 else date y 1 1 0, date y 12 16 0, f_year f)
        else if String.eqb (f_year f) "2020" && String.eqb (f_prediction f) "baguan" then      (* 227-229 *)
          Ok (date y 1 1 0, date y 12 30 12, f_year f)
        else Ok (date y 1 1 0, date (y + 1) 1 1 0, f_year f)                                   (* 230-231 *)
    end.
  (** 237-249 *)
  Definition frequency (f : flags) : Z :=
    (match f_time_frequency f with
     | None => if String.eqb (f_prediction f) "excarta" then 24 else 12 | Some n => n end * ns_hour)%Z.
  Definition init_times (f : flags) : result (list Z * string) :=
    do w <- window f; let '(start, stop, s) := w in do ts <- arange start stop (frequency f); Ok (ts, s).
  (** 250-279; [file_leads]: loader_copy._ds.lead_time.values *)
  Definition lead_times (f : flags) (file_leads : result (list Z)) : result (list Z) :=
    match f_lead_start f, f_lead_stop f with
    | None, Some _ | Some _, None => Err ValueError
    | None, None =>
        if memb (f_prediction f) ["persistence"; "climatology"; "probabilistic_climatology"]
        then arange 0 ((15 * 24 + 6) * ns_hour) (6 * ns_hour) else file_leads
    | Some a, Some b => arange (a * ns_hour) (b * ns_hour) (f_lead_frequency f * ns_hour)
    end%Z.

  (** What a run evaluates: the arguments of define_pipeline. *)
  Record plan := mkPlan {
    p_class : loader_class; p_path : string; p_kwargs : kwargs; p_target_path : string;
    p_variables : list string; p_levels : list Z;
    p_times : time_chunks; p_probabilistic : bool; p_metrics : list (string * list string);
    p_reduce_dims : list string; p_skipna : bool; p_file : string }.
  (** 379-385: the file, below output_dir *)
  Definition out_file (f : flags) (init_time_str : string) : string :=
    (f_prediction f ++ "_vs_" ++ f_target f ++ "_" ++ f_resolution f ++ "_" ++ init_time_str
     ++ (if f_temporal f then "_temporal" else "") ++ ".nc")%string.
  (** 134-401 main *)
  Definition run (cs : configs) (f : flags) (file_leads : result (list Z)) : result plan :=
    do pc <- prediction_config cs f;
    do tc <- dgetE (target cs) (f_target f ++ "_" ++ f_resolution f)%string;                   (* 160 *)
    do _ <- dgetE (climatology cs) ("era5_" ++ f_resolution f ++ "_" ++ f_year f)%string;      (* 161-163 *)
    let variables := intersect (c_variables (fst pc)) (c_variables tc) in
    do it <- init_times f;
    do leads <- lead_times f file_leads;
    do times <- make_time_chunks (fst it) (LeadArr leads) (Some (f_init_chunk f)) (Some (f_lead_chunk f));   (* 280-285 *)
    do _ <- dgetE (target cs) ("era5_" ++ f_resolution f)%string;                              (* 358-360 *)
    Ok (mkPlan (prediction_class f) (c_path (fst pc)) (match c_kwargs (fst pc) with Some k => k | None => no_kwargs end) (c_path tc)
         variables (match c_levels (fst pc) with Some l => l | None => DEFAULT_LEVELS end)
         times (snd pc) (all_metrics (snd pc) variables)
         (if f_temporal f then ["latitude"; "longitude"] else ["init_time"; "latitude"; "longitude"])   (* 363-366 *)
         (String.eqb (f_prediction f) "keisler") (out_file f (snd it))).                       (* 367-385 *)
End Run.
