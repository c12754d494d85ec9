(** Model of weatherbenchX/data_loaders/latency_wrappers.py.  Times are integers (ns). *)
From Coq Require Import String ZArith List Bool Reals.
Import ListNotations.
From Verif Require Import Prelude Values Model_XArray Model_MetricsBase Model_TimeChunks Model_Deterministic Model_Loaders.
Local Open Scope Z_scope.
Local Open Scope string_scope.
Local Open Scope list_scope.

(** np.nanargmax: the first index of the largest number, ValueError if there is none. *)
Fixpoint nanargmax_from (i : nat) (best : option (nat * Z)) (l : list (option Z)) : option (nat * Z) :=
  match l with
  | [] => best
  | None :: l' => nanargmax_from (S i) best l'
  | Some x :: l' => nanargmax_from (S i) (match best with Some (_, y) => if Z.ltb y x then Some (i, x) else best | None => Some (i, x) end) l'
  end.
Definition nanargmax (l : list (option Z)) : result nat :=
  match nanargmax_from 0 None l with Some (i, _) => Ok i | None => Err ValueError end.

(** 94-102 get_available_init_time.  The comparison of the differences as float64 (rounding above
    2^53 ns) is not modelled. *)
Definition get_available_init_time (nominal : list Z) (latency init_time : Z) : result Z :=
  do i <- nanargmax (map (fun n => let diff := n + latency - init_time in if Z.leb diff 0 then Some diff else None) nominal);
  Ok (nth i nominal 0).

(** [x.assign_coords(d = x[d] + off)] for a dimension or another coordinate; AttributeError if missing. *)
Definition shift_label (off : Z) (l : label) : label := LZ (time_value l + off).
Definition shift_coord (d : string) (off : Z) (a : da) : result da :=
  match dget (dims a) d with
  | Some ls =>
      Ok (mkDa (map (fun p => if eqb (fst p) d then (d, map (shift_label off) (snd p)) else p) (dims a))
               (fun e => get a (upd e d (shift_label (- off) (e d))))
               (map (fun c => (fst c, mkCoord (c_dims (snd c)) (fun e => c_get (snd c) (upd e d (shift_label (- off) (e d)))))) (aux a)))
  | None =>
      match dget (aux a) d with
      | Some c => Ok (mkDa (dims a) (get a) (dset (aux a) d (mkCoord (c_dims c) (fun e => shift_label off (c_get c e)))))
      | None => Err AttributeError
      end
  end.
(** 150-153 *)
Definition adjust_init_and_lead_times (off : Z) (a : da) : result da :=
  do x <- shift_coord "init_time" off a; shift_coord "lead_time" (- off) x.

(** [xr.concat(arrays, dim=d)] along a dimension of all arrays: labels one after the other (a label
    that occurs twice is looked up in its first array), the other dimensions joined with NaN where
    missing; a non-dimension coordinate is kept if the arrays agree on it and it does not have the
    dimension, else concatenated (ValueError if an array lacks it).  Concatenation along a dimension
    the arrays do not have is not modelled. *)
Definition piece_at (d : string) (arrs : list da) (e : env) : option da :=
  find (fun a => memb (e d) (labels_of (dims a) d)) arrs.
Definition concat_coord (d : string) (arrs : list da) (n : string) (c : coord) : result (string * coord) :=
  do cs <- mapM (fun a => match dget (aux a) n with Some c' => Ok c' | None => Err ValueError end) arrs;
  let J := fold_left (merge_dims union_labels) (map dims arrs) [] in
  if negb (memb d (c_dims c)) && forallb (coord_eqb J c) cs then Ok (n, c)
  else Ok (n, mkCoord (if memb d (c_dims c) then c_dims c else d :: c_dims c)
                (fun e => match piece_at d arrs e with
                          | Some a => match dget (aux a) n with Some c' => c_get c' e | None => c_get c e end
                          | None => c_get c e end)).
Definition concat (d : string) (arrs : list da) : result da :=
  match arrs with
  | [] => Err ValueError
  | first :: _ =>
      if forallb (fun a => memb d (dnames a)) arrs then
        do cs <- mapM (fun nc => concat_coord d arrs (fst nc) (snd nc)) (aux first);
        let J := fold_left (merge_dims union_labels) (map dims arrs) [] in
        Ok (mkDa (map (fun p => if eqb (fst p) d then (d, flat_map (fun a => labels_of (dims a) d) arrs) else p) J)
                 (fun e => match piece_at d arrs e with
                           | Some a => if in_box (dims a) e then get a e else NaN
                           | None => NaN end)
                 cs)
      else Err ValueError
  end.
(** 167-169, 307-309: map_structure over the chunks (ValueError for no chunk, KeyError if a chunk
    lacks a variable of the first). *)
Definition concat_chunks (d : string) (chunks : list (vars da)) : result (vars da) :=
  match chunks with
  | [] => Err ValueError
  | first :: rest =>
      mapM (fun kv => do others <- mapM (fun c => dgetE c (fst kv)) rest;
                      do a <- concat d (snd kv :: others); Ok (fst kv, a)) first
  end.

(** 104-170 ConstantLatencyWrapper._load_chunk_from_source; adding a time to a slice is a TypeError. *)
Definition load_at_init (nominal : list Z) (latency : Z) (src : source) (leads : lead_chunk) (t : Z) : result (vars da) :=
  do n <- get_available_init_time nominal latency t;
  let off := t - n in
  match leads with
  | ChunkSlice _ _ => Err TypeError
  | ChunkArr l =>
      do raw <- src [n] (Some (ChunkArr (map (fun x => x + off) l)));
      mapM (fun kv => do a <- adjust_init_and_lead_times off (snd kv); Ok (fst kv, a)) raw
  end.
Definition ConstantLatencyWrapper (nominal : list Z) (latency : Z) (concat_dim : string) (src : source) : source :=
  fun init_times lead_times =>
  match lead_times with
  | None => Err ValueError
  | Some leads => do chunks <- mapM (load_at_init nominal latency src leads) init_times; concat_chunks concat_dim chunks
  end.

(** A wrapped loader (83-92: the wrapper takes over the options of the loader it wraps).
    173-215 XarrayConstantLatencyWrapper: the nominal times are the labels of the dataset. *)
Record wrapped_loader := mkWrapped {
  wl_nominal : list Z; wl_latency : Z; wl_concat : string; wl_source : source; wl_config : loader_config }.
Definition wrapped_load_chunk (w : wrapped_loader) : list Z -> option lead_chunk -> option (vars da) -> result (vars da) :=
  load_chunk (wl_config w) (ConstantLatencyWrapper (wl_nominal w) (wl_latency w) (wl_concat w) (wl_source w)).
Definition XarrayConstantLatencyWrapper (latency : Z) (init_dim concat_dim : string) (ds : vars da) (src : source) (cfg : loader_config) : wrapped_loader :=
  mkWrapped (match find (fun kv => memb init_dim (dnames (snd kv))) ds with
             | Some kv => map time_value (labels_of (dims (snd kv)) init_dim) | None => [] end) latency concat_dim src cfg.

(** ** 218-310 MultipleConstantLatencyWrapper *)
Section Argsort.
  (** np.argsort of the pairs (seconds of the offset, minus seconds of the latency). *)
  Variable argsort : list (Z * Z) -> list nat.
  Definition seconds (t : Z) : Z := t / 1000000000.
  (** 258-286 _get_data_loader; IndexError without loaders. *)
  Definition get_data_loader (loaders : list wrapped_loader) (init_time : Z) : result wrapped_loader :=
    do keys <- mapM (fun w => do n <- get_available_init_time (wl_nominal w) (wl_latency w) init_time;
                              Ok (seconds (init_time - n), seconds (- wl_latency w))) loaders;
    match argsort keys with
    | [] => Err IndexError
    | i :: _ => match nth_error loaders i with Some w => Ok w | None => Err IndexError end
    end.
  (** 288-310 *)
  Definition MultipleConstantLatencyWrapper (loaders : list wrapped_loader) (concat_dim : string)
      (init_times : list Z) (lead_times : option lead_chunk) (reference : option (vars da)) : result (vars da) :=
    do chunks <- mapM (fun t => do w <- get_data_loader loaders t; wrapped_load_chunk w [t] lead_times reference) init_times;
    concat_chunks concat_dim chunks.
End Argsort.
