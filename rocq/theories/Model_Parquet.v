(** Model of weatherbenchX/data_loaders/sparse_parquet.py.
    Data frames are a list of column names and a list of rows; pandas' index is the position.
    Files are an arbitrary map from names to frames.  Times and time differences are integers (ns).
    The steps of DataLoader.load_chunk around _load_chunk_from_source are in Model_Loaders. *)
From Coq Require Import Ascii String ZArith List Bool Reals DecimalString.
Import ListNotations.
From Verif Require Import Prelude Values Model_XArray Model_Calendar Model_Spatial.
Local Open Scope string_scope.
Local Open Scope list_scope.

(** ** Partitions, 27-69 *)
Inductive part := Month | Day | Hour.
(** 34-41 *)
Definition part_of (partition_by : string) : result part :=
  if eqb partition_by "month" then Ok Month else if eqb partition_by "day" then Ok Day
  else if eqb partition_by "hour" then Ok Hour else Err NotImplementedError.
(** [np.datetime64(t, unit)]: the number of whole units since 1970 (rounded down). *)
Definition to_unit (u : part) (t : Z) : Z :=
  (match u with Month => (year_of t - 1970) * 12 + (month_of t - 1) | Day => day_of t | Hour => t / ns_hour end)%Z.
(** [np.arange(a, b + 1, 1)] *)
Definition arange (a b : Z) : list Z := map (fun k => a + Z.of_nat k)%Z (seq 0 (Z.to_nat (b + 1 - a))).
(** [str(n).zfill(2)] of a number that is not negative *)
Definition zfill2 (s : string) : string := if Nat.ltb (String.length s) 2 then ("0" ++ s)%string else s.
(** [os.path.join(path, fn)] for a relative [fn] *)
Definition ends_with_slash (s : string) : bool := match String.length s with O => false | S n => match String.get n s with Some c => Ascii.eqb c "/"%char | None => false end end.
Definition path_join (path fn : string) : string :=
  if eqb path "" then fn else if ends_with_slash path then (path ++ fn)%string else (path ++ "/" ++ fn)%string.
(** 53-69 parquet_filename_for_time; [time.item()] of a datetime64 with unit month, day or hour
    gives the date (years outside 1..9999, which nanosecond times never have, not modelled). *)
Definition partition_name (u : part) (year month day hour : Z) : string :=
  let y := str_int year in let m := str_int month in let d := str_int day in let h := str_int hour in
  (match u with
   | Month => "year=" ++ y ++ "/month=" ++ m ++ "/" ++ y ++ "-" ++ zfill2 m ++ ".parquet"
   | Day => "year=" ++ y ++ "/month=" ++ m ++ "/day=" ++ d ++ "/" ++ y ++ "-" ++ zfill2 m ++ "-" ++ zfill2 d ++ ".parquet"
   | Hour => "year=" ++ y ++ "/month=" ++ m ++ "/day=" ++ d ++ "/hour=" ++ h ++ "/" ++ y ++ "-" ++ zfill2 m ++ "-" ++ zfill2 d ++ "T" ++ zfill2 h ++ ".parquet"
   end)%string.
Definition parquet_filename_for_time (path : string) (n : Z) (u : part) : string :=
  path_join path
    (match u with
     | Month => partition_name u (1970 + n / 12) (n mod 12 + 1) 0 0
     | Day => let t := (n * ns_day)%Z in partition_name u (year_of t) (month_of t) (dom_of t) 0
     | Hour => let t := (n * ns_hour)%Z in partition_name u (year_of t) (month_of t) (dom_of t) (hour_of t)
     end)%Z.
(** 27-50 *)
Definition get_parquet_files_subset (path : string) (time_start time_end : Z) (partition_by : string) : result (list string) :=
  do u <- part_of partition_by;
  Ok (map (fun n => parquet_filename_for_time path n u) (arange (to_unit u time_start) (to_unit u time_end))).

(** ** Data frames *)
Inductive cell := CTime (t : Z) | CDelta (d : Z) | CNaT | CStr (s : string) | CNum (v : val).
Definition row := string -> cell.
Record frame := mkFrame { cols : list string; rows : list row }.
Definition missing : cell := CNum NaN.
Definition isna (c : cell) : bool := match c with CNaT => true | CNum v => isnan v | _ => false end.
Definition set (r : row) (k : string) (c : cell) : row := fun k' => if eqb k' k then c else r k'.
(** [df[k] = ...] *)
Definition add_col (k : string) (f : row -> cell) (df : frame) : frame :=
  mkFrame (if memb k (cols df) then cols df else cols df ++ [k]) (map (fun r => set r k (f r)) (rows df)).
(** [pd.concat]: the union of the columns; ValueError for no frames. *)
Definition fit (cs : list string) (r : row) : row := fun k => if memb k cs then r k else missing.
Definition union_cols (fs : list frame) : list string :=
  fold_left (fun acc f => acc ++ filter (fun c => negb (memb c acc)) (cols f)) fs [].
Definition pd_concat (fs : list frame) : result frame :=
  match fs with [] => Err ValueError | _ => Ok (mkFrame (union_cols fs) (flat_map (fun f => map (fit (cols f)) (rows f)) fs)) end.
(** [df.rename(columns=m)]; if two columns get the same name the first one is read (pandas keeps both). *)
Definition renamed (m : dict string string) (c : string) : string := match dget m c with Some n => n | None => c end.
Definition rename_columns (m : dict string string) (df : frame) : frame :=
  mkFrame (map (renamed m) (cols df))
    (map (fun r k => match find (fun c => eqb (renamed m c) k) (cols df) with Some c => r c | None => missing end) (rows df)).
(** [df.loc[:, cs]] *)
Definition loc (cs : list string) (df : frame) : result frame :=
  if forallb (fun c => memb c (cols df)) cs then Ok (mkFrame cs (rows df)) else Err KeyError.

(** ** Reading a file with filters, 235-272.  The filter compares the time column, which must hold
    times (NaT passes no filter); pyarrow fails on a column of another type, which is accepted for
    an empty file only. *)
Inductive window := Exactly (t : Z) | Between (t_start t_stop : Z) (closed : bool).
Definition passes (w : window) (c : cell) : bool :=
  match c with
  | CTime t => match w with
               | Exactly x => (t =? x)%Z
               | Between a b closed => ((a <=? t) && (if closed then t <=? b else t <? b))%Z
               end
  | _ => false
  end.
Definition is_time (c : cell) : bool := match c with CTime _ | CNaT => true | _ => false end.
Definition read_parquet (files : string -> option frame) (w : window) (time_dim fn : string) : result frame :=
  match files fn with
  | None => Err FileNotFoundError
  | Some f =>
      if negb (memb time_dim (cols f)) then Err ValueError
      else if forallb (fun r => is_time (r time_dim)) (rows f) then Ok (mkFrame (cols f) (filter (fun r => passes w (r time_dim)) (rows f)))
      else Err AssertionError
  end.

(** ** SparseObservationsFromParquet.__init__, 85-190 *)
Inductive tolerance_arg := NoTolerance | PlusMinus (t : Z) | Tolerances (a b : Z).
Record config := mkConfig {
  c_path : string; c_partitioned_by : string; c_time_dim : string; c_variables : list string;
  c_coordinates : list string; c_split : bool; c_dropna : bool; c_tolerance : option (Z * Z);
  c_rename : option (dict string string); c_include_end : bool; c_remove_duplicates : bool;
  c_pick_by : option string; c_observation_dim : option string; c_file_tolerance : Z;
  c_preprocess : option (frame -> result frame) }.
Definition check_tolerance (t : tolerance_arg) : result (option (Z * Z)) :=
  match t with
  | NoTolerance => Ok None
  | PlusMinus t => if (t - - t <=? 0)%Z then Err ValueError else Ok (Some (- t, t)%Z)
  | Tolerances a b => if (b - a <=? 0)%Z then Err ValueError else Ok (Some (a, b))
  end.
Definition SparseObservationsFromParquet (path partitioned_by time_dim : string) (variables coordinate_variables : list string)
    (split_variables dropna : bool) (tolerance : tolerance_arg) (rename_variables : option (dict string string))
    (include_slice_end_time remove_duplicates : bool) (pick_closest_duplicate_by observation_dim : option string)
    (file_tolerance : Z) (preprocessing_fn : option (frame -> result frame)) : result config :=
  if negb (memb partitioned_by ["hour"; "day"; "month"]) then Err ValueError
  else
    do tol <- check_tolerance tolerance;
    if remove_duplicates && (match observation_dim with None => true | Some _ => false end) then Err ValueError
    else Ok (mkConfig path partitioned_by time_dim variables (coordinate_variables ++ ["valid_time"]) split_variables dropna tol
               rename_variables include_slice_end_time remove_duplicates pick_closest_duplicate_by observation_dim file_tolerance preprocessing_fn).

(** ** _pick_closest_from_duplicates, 192-200 *)
Definition cell_eqb (x y : cell) : bool :=
  match x, y with
  | CTime a, CTime b => (a =? b)%Z
  | CDelta a, CDelta b => (a =? b)%Z
  | CNaT, CNaT => true
  | CStr a, CStr b => eqb a b
  | CNum a, CNum b => (isnan a && isnan b) || veqb a b
  | _, _ => false
  end.
(** [df[~df[k].duplicated(keep='first')]] *)
Fixpoint first_of_each (k : string) (seen : list cell) (rs : list row) : list row :=
  match rs with
  | [] => []
  | r :: rs' => if existsb (cell_eqb (r k)) seen then first_of_each k seen rs' else r :: first_of_each k (r k :: seen) rs'
  end.
Section Sort.
  (** [df.sort_values(key)], ascending, missing keys last: pandas' default sort is not stable, so
      the order of rows with equal keys is arbitrary.  The column time_diff that the code adds to
      the frame is the key (not kept: it is not among the columns selected later). *)
  Variable sort_values : (row -> option Z) -> list row -> list row.
  Definition time_diff (k : string) (valid_time : Z) (r : row) : option Z :=
    match r k with CTime t => Some (Z.abs (t - valid_time)) | _ => None end.
  Definition pick_closest_from_duplicates (cfg : config) (df : frame) (valid_time : Z) : result frame :=
    do sorted <- match c_pick_by cfg with
                 | None => Ok (rows df)
                 | Some k =>
                     if negb (memb k (cols df)) then Err KeyError
                     else if forallb (fun r => is_time (r k)) (rows df) then Ok (sort_values (time_diff k valid_time) (rows df)) else Err TypeError
                 end;
    match c_observation_dim cfg with
    | Some k => if memb k (cols df) then Ok (mkFrame (cols df) (first_of_each k [] sorted)) else Err KeyError
    | None => Err KeyError
    end.

  (** ** _load_data_for_single_time, 202-291 *)
  Record time_slice := mkSlice { sl_start : option Z; sl_stop : option Z }.
  (** 221-256: the times asked for. *)
  Definition time_window (cfg : config) (valid_time : Z) (lead_time_slice : option time_slice) : result window :=
    match c_tolerance cfg with
    | None =>
        match lead_time_slice with
        | None => Ok (Exactly valid_time)
        | Some sl => match sl_start sl, sl_stop sl with
                     | Some a, Some b => Ok (Between (valid_time - a) (valid_time + b) (c_include_end cfg))
                     | _, _ => Err TypeError
                     end
        end
    | Some (a, b) => Ok (Between (valid_time + a) (valid_time + b) (c_include_end cfg))
    end.
  Definition file_range (cfg : config) (w : window) : Z * Z :=
    (match w with
     | Exactly t => (t - c_file_tolerance cfg, t + c_file_tolerance cfg)
     | Between a b _ => (a - c_file_tolerance cfg, b + c_file_tolerance cfg)
     end)%Z.
  Definition read_window (cfg : config) (files : string -> option frame) (w : window) : result frame :=
    do fns <- get_parquet_files_subset (c_path cfg) (fst (file_range cfg w)) (snd (file_range cfg w)) (c_partitioned_by cfg);
    do dfs <- mapM (read_parquet files w (c_time_dim cfg)) fns;
    pd_concat dfs.
  Definition load_data_for_single_time (cfg : config) (files : string -> option frame) (valid_time : Z) (lead_time_slice : option time_slice) : result frame :=
    do w <- time_window cfg valid_time lead_time_slice;
    do df <- read_window cfg files w;
    do df <- match c_preprocess cfg with None => Ok df | Some f => f df end;
    do df <- (if c_remove_duplicates cfg then
                match lead_time_slice with
                | Some _ => Err AssertionError
                | None => pick_closest_from_duplicates cfg df valid_time
                end
              else Ok df);
    let df := match c_rename cfg with None => df | Some m => rename_columns m df end in
    let df := rename_columns [(c_time_dim cfg, "valid_time")] df in
    loc (c_variables cfg ++ c_coordinates cfg) df.

  (** ** _load_chunk_from_source, 293-358 *)
  Inductive lead_times := NoLeads | Leads (ls : list Z) | LeadSlice (sl : time_slice).
  (** [df.valid_time - df.init_time] *)
  Definition minus_time (c : cell) (t : Z) : result cell :=
    match c with CTime x => Ok (CDelta (x - t)) | CNaT => Ok CNaT | _ => Err TypeError end.
  Definition lead_of (c : cell) (t : Z) : cell := match minus_time c t with Ok x => x | Err _ => missing end.
  Definition load_tables (cfg : config) (files : string -> option frame) (init_times : list Z) (leads : lead_times) : result (list frame) :=
    match leads with
    | NoLeads => mapM (fun t => load_data_for_single_time cfg files t None) init_times
    | Leads ls =>
        mapM (fun il => do df <- load_data_for_single_time cfg files (fst il + snd il) None;
                        Ok (add_col "lead_time" (fun _ => CDelta (snd il)) (add_col "init_time" (fun _ => CTime (fst il)) df)))
             (list_prod init_times ls)
    | LeadSlice sl =>
        match c_tolerance cfg with
        | Some _ => Err AssertionError
        | None =>
            mapM (fun t => do df <- load_data_for_single_time cfg files t (Some sl);
                           do _ <- mapM (fun r => minus_time (r "valid_time") t) (rows df);
                           Ok (add_col "lead_time" (fun r => lead_of (r "valid_time") t) (add_col "init_time" (fun _ => CTime t) df)))
                 init_times
        end
    end.
  (** The result: an indexed table (a Dataset), or one per variable. *)
  Definition indexed := list (nat * row).
  Inductive observations := Dataset (coords : list string) (t : indexed) | Variables (coords : list string) (vs : dict string indexed).
  Definition with_index (rs : list row) : indexed := combine (seq 0 (length rs)) rs.
  Definition drop_if (bad : row -> bool) (t : indexed) : indexed := filter (fun ir => negb (bad (snd ir))) t.
  Definition load_chunk_from_source (cfg : config) (files : string -> option frame) (init_times : list Z) (leads : lead_times) : result observations :=
    do dfs <- load_tables cfg files init_times leads;
    do df <- pd_concat dfs;
    let coords := c_coordinates cfg ++ match leads with NoLeads => [] | _ => ["init_time"; "lead_time"] end in
    let t := with_index (rows df) in
    let data := filter (fun c => negb (memb c coords)) (cols df) in
    if c_split cfg then
      Ok (Variables coords (map (fun v => (v, if c_dropna cfg then drop_if (fun r => isna (r v)) t else t)) data))
    else
      Ok (Dataset coords (if c_dropna cfg then drop_if (fun r => existsb (fun v => isna (r v)) data) t else t)).
End Sort.

(** ** METAR, 361-523 *)
Definition METAR_TO_ERA5_NAMES : dict string string :=
  [("seaLevelPress", "mean_sea_level_pressure"); ("temperature", "2m_temperature"); ("dewpoint", "2m_dewpoint_temperature");
   ("windSpeed", "10m_wind_speed"); ("windGust", "10m_wind_gust"); ("windDir", "10m_wind_direction");
   ("minTemp24Hour", "min_2m_temperature_24hr"); ("maxTemp24Hour", "max_2m_temperature_24hr");
   ("precip1Hour", "total_precipitation_1hr"); ("precip3Hour", "total_precipitation_3hr"); ("precip6Hour", "total_precipitation_6hr");
   ("precip24Hour", "total_precipitation_24hr"); ("precipRate", "precipitation_rate")].
Definition ERA5_TO_METAR_NAMES : dict string string := map (fun kv => (snd kv, fst kv)) METAR_TO_ERA5_NAMES.
Definition METAR_BAD_QUALITY_FLAGS : list string := ["Z"; "B"; "X"; "Q"; "k"].
Definition METAR_COORDINATE_VARIABLES : list string := ["latitude"; "longitude"; "elevation"; "stationName"].
(** 392-402 set_bad_quality_to_nan *)
Definition bad_flag (flags : list string) (c : cell) : bool := match c with CStr s => memb s flags | _ => false end.
Definition set_bad_quality_to_nan (variables : list string) (suffix : string) (flags : list string) (df : frame) : result frame :=
  fold_left (fun acc v => do df <- acc;
    if memb v (cols df) && memb (v ++ suffix)%string (cols df)
    then Ok (add_col v (fun r => if bad_flag flags (r (v ++ suffix)%string) then missing else r v) df)
    else Err KeyError) variables (Ok df).
(** 405-409 np.mod(x, 360) *)
Definition mod360 (v : val) : val :=
  match v with Fin x => Fin (x - 360 * IZR (Int_part (x / 360)))%R | _ => NaN end.
Definition num_col (k : string) (f : val -> val) (df : frame) : result frame :=
  if negb (memb k (cols df)) then Err KeyError
  else if forallb (fun r => match r k with CNum _ => true | _ => false end) (rows df)
  then Ok (add_col k (fun r => match r k with CNum v => CNum (f v) | c => c end) df) else Err TypeError.
Definition convert_longitude_to_0_to_360 (df : frame) : result frame := num_col "longitude" mod360 df.
(** 499-501 *)
Definition known_elevation (v : val) : val := if vltb v (Fin 9999) then v else NaN.
(** 482-502 *)
Definition metar_preprocessing_fn (variables : list string) (preprocessing_fn : option (frame -> result frame)) (df : frame) : result frame :=
  do df <- match preprocessing_fn with None => Ok df | Some f => f df end;
  do raw <- mapM (dgetE ERA5_TO_METAR_NAMES) variables;
  do df <- set_bad_quality_to_nan raw "DD" METAR_BAD_QUALITY_FLAGS df;
  do df <- convert_longitude_to_0_to_360 df;
  num_col "elevation" known_elevation df.
(** 465-523 (the argument rename_variables is not used) *)
Definition METARFromParquet (path : string) (variables : list string) (time_dim : string) (split_variables dropna : bool) (tolerance : tolerance_arg)
    (partitioned_by : string) (include_slice_end_time remove_duplicates : bool) (pick_closest_duplicate_by : option string)
    (file_tolerance : Z) (preprocessing_fn : option (frame -> result frame)) : result config :=
  SparseObservationsFromParquet path partitioned_by time_dim variables METAR_COORDINATE_VARIABLES split_variables dropna tolerance
    (Some METAR_TO_ERA5_NAMES) include_slice_end_time remove_duplicates pick_closest_duplicate_by (Some "stationName") file_tolerance
    (Some (metar_preprocessing_fn variables preprocessing_fn)).
