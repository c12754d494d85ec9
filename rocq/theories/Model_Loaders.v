(** Model of weatherbenchX/data_loaders/base.py and xarray_loaders.py.
    A dataset is a dictionary of arrays; opening, renaming and preprocessing of the source
    (xarray_loaders.py 25-157) is in Model_Prepare.v: the datasets here are the prepared ones. *)
From Coq Require Import String ZArith List Bool Reals.
Import ListNotations.
From Verif Require Import Prelude Values Model_XArray Model_MetricsBase Model_Calendar Model_TimeChunks Model_Deterministic
  Model_Ensemble Model_Binning.
Local Open Scope Z_scope.
Local Open Scope string_scope.
Local Open Scope list_scope.

(** base.py 103-109 _load_chunk_from_source: init times, lead times (array, slice or None). *)
Definition source := list Z -> option lead_chunk -> result (vars da).

(** ** base.py 25-56 add_nan_mask_to_data: the coordinate "mask" of the listed variables (all if None) *)
Definition nan_mask (a : da) : da :=
  mkDa (dims a) (get a) (dset (aux a) "mask" (mkCoord (dnames a) (fun e => LB (negb (isnan (get a e)))))).
Definition add_nan_mask_to_data (subset : option (list string)) (data : vars da) : vars da :=
  map (fun kv => (fst kv, if match subset with None => true | Some l => memb (fst kv) l end then nan_mask (snd kv) else snd kv)) data.

(** ** base.py 70-101, 111-163 load_chunk.  [cfg_compute] loads into memory and keeps the dtype: no
    effect on values.  The option add_values_to_coords is not modelled (labels are not values). *)
Record loader_config := mkCfg {
  cfg_process : option (vars da -> result (vars da));
  cfg_interpolation : option (vars da -> option (vars da) -> result (vars da));
  cfg_compute : bool;
  cfg_nan_mask : bool }.
Definition load_chunk (cfg : loader_config) (src : source) (init_times : list Z) (lead_times : option lead_chunk)
    (reference : option (vars da)) : result (vars da) :=
  do chunk <- src init_times lead_times;
  do chunk <- match cfg_process cfg with Some f => f chunk | None => Ok chunk end;
  do chunk <- match cfg_interpolation cfg with Some f => f chunk reference | None => Ok chunk end;
  let chunk := if cfg_compute cfg then chunk else chunk in
  Ok (if cfg_nan_mask cfg then add_nan_mask_to_data None chunk else chunk).

(** ** Dataset.sel *)
Definition has_dim (ds : vars da) (d : string) : bool := existsb (fun kv => memb d (dnames (snd kv))) ds.
(** [ds.sel(d=[...])]: KeyError if a label is missing or no variable has the dimension; variables
    without it are unchanged. *)
Definition sel_labels (d : string) (ls : list label) (ds : vars da) : result (vars da) :=
  if has_dim ds d then
    mapM (fun kv => match dget (dims (snd kv)) d with
                    | None => Ok kv
                    | Some have => if forallb (fun l => memb l have) ls then Ok (fst kv, restrict [(d, ls)] (snd kv)) else Err KeyError
                    end) ds
  else Err KeyError.
(** [ds.sel(d=slice(start, stop))] for an increasing index: both ends included. *)
Definition sel_slice (d : string) (start stop : Z) (ds : vars da) : result (vars da) :=
  if has_dim ds d then
    Ok (map (fun kv => match dget (dims (snd kv)) d with
                       | None => kv
                       | Some have => (fst kv, restrict [(d, filter (fun l => Z.leb start (time_value l) && Z.leb (time_value l) stop) have)] (snd kv))
                       end) ds)
  else Err KeyError.
(** [ds.sel({d: indexer, ...})] with array indexers over the dimensions [ids]; each indexer stays
    as a coordinate. *)
Definition sel_arrays (ids : dimlist) (idx : list (string * (env -> label))) (ds : vars da) : result (vars da) :=
  if forallb (fun df => has_dim ds (fst df)) idx then
    mapM (fun kv =>
      let mine := filter (fun df => memb (fst df) (dnames (snd kv))) idx in
      match mine with
      | [] => Ok kv
      | _ => do a <- sel_points (snd kv) ids (map (fun df => (fst df, mkCoord (map fst ids) (snd df))) mine) mine; Ok (fst kv, a)
      end) ds
  else Err KeyError.

Definition times (ts : list Z) : list label := map LZ ts.

(** ** xarray_loaders.py 191-206 PredictionsFromXarray *)
Definition PredictionsFromXarray (ds : vars da) : source := fun init_times lead_times =>
  match lead_times with
  | Some (ChunkArr leads) => do c <- sel_labels "init_time" (times init_times) ds; sel_labels "lead_time" (times leads) c
  | Some (ChunkSlice a b) => do c <- sel_labels "init_time" (times init_times) ds; sel_slice "lead_time" a b c
  | None => sel_labels "init_time" (times init_times) ds
  end.

(** xr.DataArray(init_times, coords) + xr.DataArray(lead_times, coords): 253-255, 298-300 *)
Definition init_lead (init_times leads : list Z) : dimlist := [("init_time", times init_times); ("lead_time", times leads)].
Definition valid_time (e : env) : Z := time_value (e "init_time") + time_value (e "lead_time").

(** ** 242-263 TargetsFromXarray *)
Definition TargetsFromXarray (ds : vars da) : source := fun init_times lead_times =>
  match lead_times with
  | Some (ChunkArr leads) => sel_arrays (init_lead init_times leads) [("valid_time", fun e => LZ (valid_time e))] ds
  | Some (ChunkSlice _ _) => Err ValueError
  | None => sel_labels "valid_time" (times init_times) ds
  end.

(** ** 266-316 ClimatologyFromXarray; [getattr(valid_time.dt, coord)] as in ByTimeUnit. *)
Definition ClimatologyFromXarray (coords : list string) (ds : vars da) : source := fun init_times lead_times =>
  match lead_times with
  | Some (ChunkArr leads) =>
      do idx <- mapM (fun c => do f <- extract_time_unit false c; Ok (c, fun e => f (valid_time e))) coords;
      sel_arrays (init_lead init_times leads) idx ds
  | Some (ChunkSlice _ _) => Err ValueError
  | None =>
      do idx <- mapM (fun c => do f <- extract_time_unit false c; Ok (c, fun e => f (time_value (e "init_time")))) coords;
      sel_arrays [("init_time", times init_times)] idx ds
  end.

(** [ds.expand_dims({d: labels})]: ValueError if a variable has the dimension. *)
Definition expand_dims (d : string) (ls : list label) (ds : vars da) : result (vars da) :=
  if has_dim ds d then Err ValueError
  else Ok (map (fun kv => (fst kv, mkDa ((d, ls) :: dims (snd kv)) (get (snd kv)) (aux (snd kv)))) ds).
(** [ds.rename({d: d2})]: ValueError if the data set lacks [d] or has [d2]. *)
Definition ds_rename (d d2 : string) (ds : vars da) : result (vars da) :=
  if has_dim ds d && negb (has_dim ds d2) then
    mapM (fun kv => if memb d (dnames (snd kv)) then do a <- rename_dim d d2 (snd kv); Ok (fst kv, a) else Ok kv) ds
  else Err ValueError.

(** ** 319-337 PersistenceFromXarray *)
Definition PersistenceFromXarray (ds : vars da) : source := fun init_times lead_times =>
  match lead_times with
  | Some (ChunkArr leads) =>
      do c <- sel_labels "valid_time" (times init_times) ds;
      do c <- expand_dims "lead_time" (times leads) c;
      ds_rename "valid_time" "init_time" c
  | _ => Err ValueError
  end.

(** ** 340-410 ProbabilisticClimatologyFromXarray.  [np.datetime64(str(year))] is 1 January. *)
Definition cat_time (year t : Z) : Z := year_start year * ns_day + ((dayofyear t - 1) * 24 + hour_of t) * ns_hour.
Definition zrange (a b : Z) : list Z := map (fun k => a + Z.of_nat k) (seq 0 (Z.to_nat (b - a))).
Definition ProbabilisticClimatologyFromXarray (start_year end_year : Z) (ensemble_dim : string) (ds : vars da) : source :=
  fun init_times lead_times =>
  match lead_times with
  | Some (ChunkArr leads) =>
      let years := zrange start_year (end_year + 1) in
      match years with
      | [] => Err ValueError
      | _ => sel_arrays ((ensemble_dim, times (map Z.of_nat (seq 0 (length years)))) :: init_lead init_times leads)
               [("valid_time", fun e => LZ (cat_time (nth (Z.to_nat (time_value (e ensemble_dim))) years 0) (valid_time e)))] ds
      end
  | _ => Err ValueError
  end.
