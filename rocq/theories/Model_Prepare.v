(** Model of the preparation of a dataset in weatherbenchX/data_loaders/xarray_loaders.py 25-157 and
    of the state it leaves in a loader, and of latency_wrappers.py 173-215.
    Simplifications: every dimension has a coordinate; the labels of a sliced dimension are
    increasing; [variables] is a list (not a one-shot iterator) of data variables. *)
From Coq Require Import String Ascii ZArith QArith Qcanon List Bool.
Import ListNotations.
From Verif Require Import Prelude Values Model_XArray Model_MetricsBase Model_Aggregation Model_TimeChunks Model_Deterministic Model_Loaders Model_Latency.
Local Open Scope Z_scope.
Local Open Scope string_scope.
Local Open Scope list_scope.

(** ** Dataset.rename *)
(** [ds.coords]: dimensions and other coordinates. *)
Definition coord_names (ds : vars da) : list string :=
  flat_map (fun kv => dnames (snd kv) ++ keys (aux (snd kv))) ds.
Definition is_coord (ds : vars da) (n : string) : bool := memb n (coord_names ds).
(** All names of a dataset, each once. *)
Definition ds_names (ds : vars da) : list string := nodup string_dec (keys ds ++ coord_names ds).
Definition new_name (m : dict string string) (n : string) : string := match dget m n with Some n' => n' | None => n end.
Definition rename_da (m : dict string string) (a : da) : da :=
  mkDa (map (fun p => (new_name m (fst p), snd p)) (dims a))
       (fun e => get a (fun d => e (new_name m d)))
       (map (fun c => (new_name m (fst c), mkCoord (map (new_name m) (c_dims (snd c))) (fun e => c_get (snd c) (fun d => e (new_name m d))))) (aux a)).
(** [ds.rename(m)]: variables, coordinates and dimensions; ValueError if a name does not exist or two
    names become equal. *)
Definition rename_ds (m : dict string string) (ds : vars da) : result (vars da) :=
  if forallb (fun n => memb n (ds_names ds)) (keys m) && nodupb (map (new_name m) (ds_names ds))
  then Ok (map (fun kv => (new_name m (fst kv), rename_da m (snd kv))) ds)
  else Err ValueError.

(** ** 25-52 _rename_dataset *)
Inductive rename_arg := Ecmwf | RenameMap (m : dict string string) | RenameNone | RenameOther.
Definition rename_dataset (ds : vars da) (rename_dimensions : rename_arg) (rename_variables : option (dict string string))
    (convert_lat_lon : bool) : result (vars da) :=
  (* 33-35 *)
  do ds <- (if convert_lat_lon && (is_coord ds "lat" && is_coord ds "lon")
            then rename_ds [("lat", "latitude"); ("lon", "longitude")] ds else Ok ds);
  (* 36-48 *)
  do ds <- match rename_dimensions with
           | Ecmwf => if is_coord ds "prediction_timedelta"
                      then rename_ds [("time", "init_time"); ("prediction_timedelta", "lead_time")] ds
                      else rename_ds [("time", "valid_time")] ds
           | RenameMap m => rename_ds m ds
           | RenameNone => Ok ds
           | RenameOther => Err ValueError
           end;
  (* 50-51 *)
  match rename_variables with Some m => rename_ds m ds | None => Ok ds end.

(** [ds[list(variables)]]: a dataset with these variables; KeyError if one is missing. *)
Definition select_variables (names : list string) (ds : vars da) : result (vars da) :=
  mapM (fun v => do a <- dgetE ds v; Ok (v, a)) (nodup string_dec names).

(** ** [ds.sel(d=indexer, ...)] with a label, a list of labels or a slice (both ends included). *)
Inductive indexer := IxLabel (l : label) | IxList (ls : list label) | IxSlice (a b : label).
Definition label_leb (x y : label) : bool :=
  match x, y with
  | LZ a, LZ b => Z.leb a b
  | LQ a, LQ b => Qle_bool (this a) (this b)
  | LS a, LS b => String.leb a b
  | LB a, LB b => implb a b
  | _, _ => false
  end.
(** A label: the dimension goes, the label stays as a coordinate. *)
Definition sel_scalar (d : string) (l : label) (ds : vars da) : result (vars da) :=
  if has_dim ds d then
    mapM (fun kv => match dget (dims (snd kv)) d with
                    | None => Ok kv
                    | Some have =>
                        if memb l have
                        then Ok (fst kv, mkDa (keep (fun n => negb (eqb n d)) (dims (snd kv)))
                                   (fun e => get (snd kv) (upd e d l))
                                   (dset (map (fun c => (fst c, mkCoord (filter (fun n => negb (eqb n d)) (c_dims (snd c)))
                                                                 (fun e => c_get (snd c) (upd e d l)))) (aux (snd kv)))
                                         d (mkCoord [] (fun _ => l))))
                        else Err KeyError
                    end) ds
  else Err KeyError.
Definition sel_range (d : string) (lo hi : label) (ds : vars da) : result (vars da) :=
  if has_dim ds d then
    Ok (map (fun kv => match dget (dims (snd kv)) d with
                       | None => kv
                       | Some have => (fst kv, restrict [(d, filter (fun l => label_leb lo l && label_leb l hi) have)] (snd kv))
                       end) ds)
  else Err KeyError.
Definition sel_indexer (d : string) (ix : indexer) (ds : vars da) : result (vars da) :=
  match ix with
  | IxLabel l => sel_scalar d l ds
  | IxList ls => sel_labels d ls ds
  | IxSlice lo hi => sel_range d lo hi ds
  end.
Fixpoint sel_kwargs (kw : dict string indexer) (ds : vars da) : result (vars da) :=
  match kw with
  | [] => Ok ds
  | (d, ix) :: kw' => do ds' <- sel_indexer d ix ds; sel_kwargs kw' ds'
  end.

(** ** 58-114 XarrayDataLoader.__init__ *)
Record loader_options := mkOptions {
  o_path : option string;
  o_variables : option (list string);
  o_sel_kwargs : option (dict string indexer);
  o_rename_dimensions : rename_arg;
  o_convert_lat_lon : bool;
  o_rename_variables : option (dict string string);
  o_preprocessing_fn : option (vars da -> result (vars da)) }.
(** The mutable fields: [_ds] and [_preprocessed]. *)
Record loader_state := mkState { st_ds : option (vars da); st_done : bool }.
(** 96-113: ValueError unless exactly one of the two is given. *)
Definition init_loader (path : option string) (ds : option (vars da)) : result loader_state :=
  match path, ds with
  | Some _, Some _ => Err ValueError
  | None, None => Err ValueError
  | _, _ => Ok (mkState ds false)
  end.

(** ** 116-141 maybe_prepare_dataset *)
(** The stored files at some moment, as read by xr.open_zarr and xr.open_dataset. *)
Record files := mkFiles { open_zarr : string -> result (vars da); open_dataset : string -> result (vars da) }.
(** [path.rstrip('/').endswith('.zarr')] *)
Fixpoint rev_string (s acc : string) : string :=
  match s with EmptyString => acc | String c s' => rev_string s' (String c acc) end.
Fixpoint lstrip (c : ascii) (s : string) : string :=
  match s with String c' s' => if Ascii.eqb c' c then lstrip c s' else s | EmptyString => EmptyString end.
Definition is_zarr (path : string) : bool := String.prefix (rev_string ".zarr" "") (lstrip "/" (rev_string path "")).
Definition open_path (w : files) (path : string) : result (vars da) :=
  if is_zarr path then open_zarr w path else open_dataset w path.

(** An assignment [self._ds = f(self._ds)]; on an error the old value stays. *)
Definition assign (f : vars da -> result (vars da)) (s : loader_state) : loader_state * result unit :=
  match st_ds s with
  | None => (s, Err AssertionError)
  | Some d => match f d with Ok d' => (mkState (Some d') (st_done s), Ok tt) | Err e => (s, Err e) end
  end.
Definition and_then (r : loader_state * result unit) (k : loader_state -> loader_state * result unit) : loader_state * result unit :=
  match r with (s, Ok _) => k s | (s, Err e) => (s, Err e) end.
Definition optional {A} (o : option A) (f : A -> vars da -> result (vars da)) (s : loader_state) : loader_state * result unit :=
  match o with Some x => assign (f x) s | None => (s, Ok tt) end.
Definition maybe_prepare_dataset (o : loader_options) (w : files) (s : loader_state) : loader_state * result unit :=
  if st_done s then (s, Ok tt) else                                                        (* 118-119 *)
  and_then match st_ds s with                                                              (* 121-127 *)
           | Some _ => (s, Ok tt)
           | None => match o_path o with
                     | None => (s, Err AssertionError)
                     | Some path => match open_path w path with
                                    | Ok d => (mkState (Some d) (st_done s), Ok tt) | Err e => (s, Err e) end
                     end
           end (fun s =>
  and_then (optional (o_preprocessing_fn o) (fun f => f) s) (fun s =>                      (* 129-130 *)
  and_then (assign (fun d => rename_dataset d (o_rename_dimensions o) (o_rename_variables o) (o_convert_lat_lon o)) s) (fun s =>  (* 131-136 *)
  and_then (optional (o_variables o) select_variables s) (fun s =>                         (* 137-138 *)
  and_then (optional (o_sel_kwargs o) sel_kwargs s) (fun s =>                              (* 139-140 *)
  (mkState (st_ds s) true, Ok tt)))))).                                                    (* 141 *)

(** ** 150-157 load_chunk; [source_of] is the subclass's _load_chunk_from_source on the prepared dataset. *)
Record request := mkRequest { r_inits : list Z; r_leads : option lead_chunk; r_reference : option (vars da) }.
Definition loader_load_chunk (o : loader_options) (cfg : loader_config) (source_of : vars da -> source)
    (w : files) (r : request) (s : loader_state) : loader_state * result (vars da) :=
  match maybe_prepare_dataset o w s with
  | (s', Err e) => (s', Err e)
  | (s', Ok _) => match st_ds s' with
                  | Some d => (s', load_chunk cfg (source_of d) (r_inits r) (r_leads r) (r_reference r))
                  | None => (s', Err AssertionError)
                  end
  end.
(** A history of calls on one loader, each with the files as they are at that moment. *)
Fixpoint run_loads (o : loader_options) (cfg : loader_config) (source_of : vars da -> source)
    (calls : list (files * request)) (s : loader_state) : list (result (vars da)) :=
  match calls with
  | [] => []
  | (w, r) :: calls' => let (s', x) := loader_load_chunk o cfg source_of w r s in x :: run_loads o cfg source_of calls' s'
  end.

(** ** latency_wrappers.py 173-215 XarrayConstantLatencyWrapper *)
(** 202 [ds[init_time_dim].values]; KeyError if there is no such coordinate.  Only dimensions. *)
Definition nominal_times (init_dim : string) (ds : vars da) : result (list Z) :=
  match find (fun kv => memb init_dim (dnames (snd kv))) ds with
  | Some kv => Ok (map time_value (labels_of (dims (snd kv)) init_dim))
  | None => Err KeyError
  end.
(** The wrapped loader's state and [nominal_init_times] (None until set: 188, 203). *)
Record wrapper_state := mkWState { ws_loader : loader_state; ws_nominal : option (list Z) }.
Record wrapper_options := mkWOptions { wo_latency : Z; wo_init_dim : string; wo_concat_dim : string }.
(** 197-203 *)
Definition maybe_set_nominal_init_times (o : loader_options) (wo : wrapper_options) (w : files) (s : wrapper_state) : wrapper_state * result unit :=
  match ws_nominal s with
  | Some _ => (s, Ok tt)
  | None =>
      match maybe_prepare_dataset o w (ws_loader s) with
      | (s', Err e) => (mkWState s' None, Err e)
      | (s', Ok _) => match st_ds s' with
                      | None => (mkWState s' None, Err TypeError)
                      | Some d => match nominal_times (wo_init_dim wo) d with
                                  | Ok ts => (mkWState s' (Some ts), Ok tt)
                                  | Err e => (mkWState s' None, Err e)
                                  end
                      end
      end
  end.
(** 205-211 with base.load_chunk (the options are those of the wrapped loader: 87-92), and 119-123:
    the loader is prepared before its source is used. *)
Definition wrapper_load_chunk (o : loader_options) (cfg : loader_config) (source_of : vars da -> source) (wo : wrapper_options)
    (w : files) (r : request) (s : wrapper_state) : wrapper_state * result (vars da) :=
  match maybe_set_nominal_init_times o wo w s with
  | (s1, Err e) => (s1, Err e)
  | (s1, Ok _) =>
      match maybe_prepare_dataset o w (ws_loader s1) with
      | (l, Err e) => (mkWState l (ws_nominal s1), Err e)
      | (l, Ok _) =>
          match st_ds l, ws_nominal s1 with
          | Some d, Some ts =>
              (mkWState l (Some ts), load_chunk cfg (ConstantLatencyWrapper ts (wo_latency wo) (wo_concat_dim wo) (source_of d)) (r_inits r) (r_leads r) (r_reference r))
          | _, n => (mkWState l n, Err AssertionError)
          end
      end
  end.
(** 213-215 *)
Definition wrapper_available (o : loader_options) (wo : wrapper_options) (w : files) (t : Z) (s : wrapper_state) : wrapper_state * result Z :=
  match maybe_set_nominal_init_times o wo w s with
  | (s1, Err e) => (s1, Err e)
  | (s1, Ok _) => (s1, get_available_init_time (match ws_nominal s1 with Some ts => ts | None => [] end) (wo_latency wo) t)
  end.
(** A history of calls on the wrapper and, directly, on the loader it wraps. *)
Inductive call := CallWrapper (r : request) | CallLoader (r : request) | CallAvailable (t : Z).
Inductive answer := Chunk (x : result (vars da)) | Time (x : result Z).
Definition run_call (o : loader_options) (cfg : loader_config) (source_of : vars da -> source) (wo : wrapper_options)
    (w : files) (c : call) (s : wrapper_state) : wrapper_state * answer :=
  match c with
  | CallWrapper r => let (s', x) := wrapper_load_chunk o cfg source_of wo w r s in (s', Chunk x)
  | CallLoader r => let (l, x) := loader_load_chunk o cfg source_of w r (ws_loader s) in (mkWState l (ws_nominal s), Chunk x)
  | CallAvailable t => let (s', x) := wrapper_available o wo w t s in (s', Time x)
  end.
Fixpoint run_calls (o : loader_options) (cfg : loader_config) (source_of : vars da -> source) (wo : wrapper_options)
    (calls : list (files * call)) (s : wrapper_state) : list answer :=
  match calls with
  | [] => []
  | (w, c) :: calls' => let (s', x) := run_call o cfg source_of wo w c s in x :: run_calls o cfg source_of wo calls' s'
  end.
