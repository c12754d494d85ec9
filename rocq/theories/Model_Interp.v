(** Model of weatherbenchX/interpolations.py (NeighborhoodThresholdProbabilities is in
    Model_Spatial).  Coordinates are exact rationals (or integers, for times), without float
    rounding.  xarray's DataArray.interp is modelled for the methods "linear" and "nearest". *)
From Coq Require Import String ZArith QArith Qreals Qcanon Bool List.
Import ListNotations.
From Verif Require Import Prelude Values Model_XArray Model_Tree Model_MetricsBase Model_Deterministic Model_Binning.
From Coq Require Import Reals.
Local Open Scope R_scope.
Local Open Scope string_scope.
Local Open Scope list_scope.

(** An interpolation object: interpolate_data_array(da, reference), given the name of the array
    (interpolations.py 27-36). *)
Definition interpolation := string -> da -> option da -> result da.

(** Interpolation.interpolate (38-58): map_structure over the dictionary of arrays, or over it and
    the dictionary of references.  The name of an array is its key. *)
Definition named_leaves (ds : vars da) : tree (string * da) := Dict (map (fun kv => (fst kv, Leaf kv)) ds).
Definition unnamed (t : tree da) : vars da :=
  match t with Dict kvs => flat_map (fun kv => match snd kv with Leaf a => [(fst kv, a)] | _ => [] end) kvs | _ => [] end.
Definition interpolate (self : interpolation) (ds : vars da) (reference : option (vars da)) : result (vars da) :=
  let func (l : list (tree (string * da))) : result da :=
    match l with
    | [Leaf (name, a)] => self name a None
    | [Leaf (name, a); Leaf (_, r)] => self name a (Some r)
    | _ => Err TypeError
    end in
  do t <- map_structure func (fun _ => Dict []) (named_leaves ds :: match reference with None => [] | Some r => [named_leaves r] end);
  Ok (unnamed t).

(** MultipleInterpolation.interpolate_data_array (61-77). *)
Fixpoint MultipleInterpolation (interpolations : list interpolation) : interpolation :=
  fun name a reference =>
  match interpolations with
  | [] => Ok a
  | i :: rest => do a' <- i name a reference; MultipleInterpolation rest name a' reference
  end.

(** ** pad_longitude (80-86).  Labels other than numbers cannot be shifted (TypeError). *)
Definition shift_label (x : Z) (l : label) : result label :=
  match l with
  | LZ z => Ok (LZ (z + x))
  | LQ q => Ok (LQ (Q2Qc (this q + inject_Z x)))
  | _ => Err TypeError
  end.
Definition pad_longitude (a : da) : result da :=
  match dget (dims a) "longitude" with
  | None => Err ValueError
  | Some [] => Err IndexError
  | Some ((first :: _) as ls) =>
      let last_ := last ls first in
      do left_ <- shift_label (-360) last_;
      do right_ <- shift_label 360 first;
      (* the padded points are copies of the last and of the first point, with all coordinates *)
      let source (e : env) : env :=
        if memb (e "longitude") ls then e
        else if eqb (e "longitude") left_ then upd e "longitude" last_
        else if eqb (e "longitude") right_ then upd e "longitude" first else e in
      Ok (mkDa (map (fun p => if eqb (fst p) "longitude" then (fst p, left_ :: ls ++ [right_]) else p) (dims a))
               (fun e => get a (source e))
               (map (fun kc => (fst kc, mkCoord (c_dims (snd kc)) (fun e => c_get (snd kc) (source e)))) (aux a)))
  end.

(** ** DataArray.interp *)
Inductive method := Linear | Nearest.
(** Sorting labels by their numbers ([sortby], stable). *)
Fixpoint insert_label (l : label) (ls : list label) : list label :=
  match ls with
  | [] => [l]
  | m :: ls' => if Qle_bool (lnum l) (lnum m) then l :: ls else m :: insert_label l ls'
  end.
Definition sort_labels (ls : list label) : list label := fold_right insert_label [] ls.
Definition is_numeric (l : label) : bool := match l with LZ _ | LQ _ => true | _ => false end.
(** The coordinate as a float: NaN if it is not a number. *)
Definition coord_val (l : label) : val := if is_numeric l then Fin (Q2R (lnum l)) else NaN.

(** The line through two points (scipy.interpolate.interp1d, kind "linear"). *)
Definition line (p q : R * val) (t : R) : val :=
  vadd (vmul (vdiv (vsub (snd q) (snd p)) (Fin (fst q - fst p))) (Fin (t - fst p))) (snd p).
(** Between the first two points that enclose [t]; the first and the last interval also serve the
    points beyond.  A single point has no line. *)
Fixpoint linear_between (p : R * val) (rest : list (R * val)) (t : R) : val :=
  match rest with
  | [] => NaN
  | [q] => line p q t
  | q :: rest' => if Rleb t (fst q) then line p q t else linear_between q rest' t
  end.
(** The nearest point, the lower one if there are two. *)
Fixpoint nearest_of (p : R * val) (rest : list (R * val)) (t : R) : val :=
  match rest with
  | [] => snd p
  | q :: rest' => if Rleb t ((fst p + fst q) / 2) then snd p else nearest_of q rest' t
  end.
(** Interpolation at [t] of points sorted by their coordinates; beyond the first and the last
    coordinate NaN, unless [extrapolate]. *)
Definition interp1 (m : method) (extrapolate : bool) (points : list (R * val)) (t : val) : val :=
  match t, points with
  | Fin t, p :: rest =>
      if orb extrapolate (andb (Rleb (fst p) t) (Rleb t (fst (last points p)))) then
        match m with Linear => linear_between p rest t | Nearest => nearest_of p rest t end
      else NaN
  | _, _ => NaN
  end.

(** Where to interpolate to, along one dimension: an array of coordinate values, with the
    coordinates it carries along. *)
Record target := mkTarget { t_dims : dimlist; t_get : env -> label; t_aux : dict string coord }.
(** A one-dimensional array of values for the dimension itself. *)
Definition target_values (d : string) (ls : list label) : target := mkTarget [(d, ls)] (fun e => e d) [].

Definition points_along (d : string) (a : da) (e : env) : list (R * val) :=
  map (fun l => (Q2R (lnum l), get a (upd e d l))) (sort_labels (labels_of (dims a) d)).
(** Interpolation along one dimension.  Numbers only (TypeError).  Non-dimension coordinates along
    the dimension are not kept (xarray interpolates the numeric ones: see the altitude adjustment). *)
Definition interp_dim (m : method) (extrapolate : bool) (d : string) (t : target) (a : da) : result da :=
  match dget (dims a) d with
  | None => Err ValueError
  | Some ls =>
      if forallb is_numeric ls then
        let kept := keep (fun k => negb (eqb k d)) (dims a) in
        Ok (mkDa (kept ++ keep (fun k => negb (memb k (map fst kept))) (t_dims t))
                 (fun e => interp1 m extrapolate (points_along d a e) (coord_val (t_get t e)))
                 (merge_aux (dims a) (aux_without [d] (aux a)) (t_aux t)))
      else Err TypeError
  end.
(** interpolate_to_coords (89-113): [da.interp] with several dimensions interpolates along one after
    the other, which for "linear" is the multilinear interpolation.  Beyond the coordinates the
    documented behaviour is modelled: extrapolation iff [extrapolate]. *)
Fixpoint interpolate_to_coords (a : da) (dim_args : dict string target) (m : method) (extrapolate : bool) : result da :=
  match dim_args with
  | [] => Ok a
  | (d, t) :: rest => do a' <- interp_dim m extrapolate d t a; interpolate_to_coords a' rest m extrapolate
  end.

(** InterpolateToFixedCoords (166-211). *)
Definition InterpolateToFixedCoords (m : method) (coords : dict string target) (wrap_longitude extrapolate : bool) : interpolation :=
  fun _ a _ =>
    do a <- (if wrap_longitude then pad_longitude a else Ok a);
    interpolate_to_coords a coords m extrapolate.

(** ** Selections *)
(** [a.sel(d=slice(lo, hi))]: pandas looks up both ends in an index that is ascending or
    descending; in a descending one the slice goes from the first label at or below [lo] to the
    last one at or above [hi].  KeyError if the index is neither (unless both ends are labels: not
    modelled) or if there is no such dimension. *)
Fixpoint ascendingb (ls : list label) : bool :=
  match ls with
  | x :: ((y :: _) as rest) => Qle_bool (lnum x) (lnum y) && ascendingb rest
  | _ => true
  end.
Fixpoint drop_while (f : label -> bool) (ls : list label) : list label :=
  match ls with x :: ls' => if f x then drop_while f ls' else ls | [] => [] end.
Fixpoint take_while (f : label -> bool) (ls : list label) : list label :=
  match ls with x :: ls' => if f x then x :: take_while f ls' else [] | [] => [] end.
Definition slice_labels (lo hi : Q) (ls : list label) : result (list label) :=
  if ascendingb ls then Ok (filter (fun l => Qle_bool lo (lnum l) && Qle_bool (lnum l) hi) ls)
  else if ascendingb (rev ls) then
    let start := length (take_while (fun l => negb (Qle_bool (lnum l) lo)) ls) in
    let stop := length (take_while (fun l => Qle_bool hi (lnum l)) ls) in
    Ok (firstn (stop - start) (skipn start ls))
  else Err KeyError.
Definition sel_slice (d : string) (lo hi : Q) (a : da) : result da :=
  match dget (dims a) d with
  | None => Err KeyError
  | Some ls => do kept <- slice_labels lo hi ls; Ok (restrict [(d, kept)] a)
  end.
(** [a.sortby(d)] for a dimension with numeric labels; [KeyError] if there is none. *)
Definition sortby (d : string) (a : da) : result da :=
  match dget (dims a) d with None => Err KeyError | Some ls => Ok (restrict [(d, sort_labels ls)] a) end.

(** CropToBox (116-163). *)
Definition CropToBox (lat_min lat_max lon_min lon_max : Q) : result interpolation :=
  if negb (Qle_bool lat_min lat_max) then Err ValueError                      (* 141-142 *)
  else if negb (Qle_bool lon_min lon_max) then Err ValueError                 (* 143-144 *)
  else Ok (fun _ a _ =>
    do a <- sortby "longitude" a;                                             (* 157 *)
    do a <- sortby "latitude" a;                                              (* 158 *)
    do a <- sel_slice "latitude" lat_min lat_max a;                           (* 159-162 *)
    sel_slice "longitude" lon_min lon_max a).

(** Subsample (438-471): [slice(None, None, stride)] along those of the dimensions that exist. *)
Fixpoint every_nth {A} (k i : nat) (l : list A) : list A :=
  match l with
  | [] => []
  | x :: l' => if Nat.eqb i 0 then x :: every_nth k k l' else every_nth k (i - 1) l'
  end.
Definition Subsample (ds : list string) (stride : Z) : result interpolation :=
  if (stride <? 1)%Z then Err ValueError                                      (* 456-457 *)
  else Ok (fun _ a _ =>
    Ok (mkDa (map (fun p => if memb (fst p) ds then (fst p, every_nth (Z.to_nat stride - 1) 0 (snd p)) else p) (dims a))
             (get a) (aux a))).

(** ** InterpolateToReferenceCoords (214-290) *)
(** [reference[name]]: the coordinate with the coordinates defined along it. *)
Definition reference_coord (r : da) (name : string) : result target :=
  match coord_of r name with
  | None => Err KeyError
  | Some (ds, f) => Ok (mkTarget ds f (filter (fun kc => subsetb (c_dims (snd kc)) (map fst ds)) (aux r)))
  end.
Definition has_coord (r : da) (name : string) : bool := match coord_of r name with Some _ => true | None => false end.
(** Smallest and largest label (da[coord].min(), .max()). *)
Definition extent (ls : list label) : result (Q * Q) :=
  match sort_labels ls with [] => Err ValueError | l :: rest => Ok (lnum l, lnum (last rest l)) end.
Fixpoint clip_reference (coords : list string) (a r : da) : result da :=
  match coords with
  | [] => Ok r
  | c :: rest =>
      match dget (dims a) c with
      | None => Err KeyError
      | Some ls => do lohi <- extent ls; do r' <- sel_slice c (fst lohi) (snd lohi) r; clip_reference rest a r'
      end
  end.
(** [reference.copy().expand_dims({d: da[d] ...})] for a reference without elements (275-280). *)
Definition expand_reference (retain : dimlist) (r : da) : result da :=
  if existsb (fun p => memb (fst p) (dnames r)) retain then Err ValueError
  else Ok (mkDa (retain ++ dims r) (get r) (aux r)).
Record reference_config := mkRefConfig {
  rc_method : method; rc_dims : option (list string); rc_wrap_longitude : bool;
  rc_clip : option (list string); rc_extrapolate : bool }.
(** The dictionary of targets (268-273, 282). *)
Definition reference_dims (c : reference_config) (a r : da) : list string :=
  match rc_dims c with None => filter (has_coord r) (dnames a) | Some ds => ds end.
Definition dim_args (ds : list string) (r : da) : result (dict string target) :=
  mapM (fun d => do t <- reference_coord r d; Ok (d, t)) ds.
Definition InterpolateToReferenceCoords (c : reference_config) : interpolation :=
  fun _ a reference =>
  match reference with
  | None => Err TypeError
  | Some r =>
      do a <- (if rc_wrap_longitude c then pad_longitude a else Ok a);        (* 259-260 *)
      do r <- match rc_clip c with None => Ok r | Some l => clip_reference l a r end;   (* 262-266 *)
      let ds := reference_dims c a r in
      if Nat.eqb (da_size r) 0 then                                           (* 276-280 *)
        expand_reference (keep (fun d => negb (memb d ds)) (dims a)) r
      else
        do args <- dim_args ds r;                                             (* 282 *)
        interpolate_to_coords a args (rc_method c) (rc_extrapolate c)         (* 284-290 *)
  end.

(** ** GridToSparseWithAltitudeAdjustment (293-380) *)
Definition lapse_rate : R := - (65 / 10000).
Definition adjusted_name (name : string) : bool := eqb name "2m_temperature" || eqb name "10m_wind_speed".
(** [da.coords['grid_elevation'] = grid_elevation] (351): the grid elevation on the points of [da];
    ValueError for a dimension [da] does not have. *)
Definition assign_grid_elevation (g a : da) : result da :=
  if subsetb (dnames g) (dnames a) then
    Ok (mkDa (keep (fun d => memb d (dnames g)) (dims a)) (fun e => if in_box (dims g) e then get g e else NaN) [])
  else Err ValueError.
(** Interpolating an array that has only some of the dimensions, as xarray does for the numeric
    non-dimension coordinates of the interpolated array. *)
Definition interpolate_coordinate (args : dict string target) (m : method) (extrapolate : bool) (g : da) : result da :=
  interpolate_to_coords g (filter (fun p => memb (fst p) (dnames g)) args) m extrapolate.
(** The station is this much higher than the grid; 0 where this is not below the limit (355-362). *)
Definition elevation_difference (limit : R) (elevation grid : val) : val :=
  let d := vsub elevation grid in if vltb (vabs d) (Fin limit) then d else Fin 0.
Definition temperature_adjustment (t d : val) : val := vadd t (vmul d (Fin lapse_rate)).   (* 363-365 *)
(** (366-379) *)
Definition wind_factor (d : val) : val :=
  let dz := vsub d (Fin 100) in
  let factor := if vltb d (Fin 100) then Fin 1 else vadd (Fin 1) (vmul (Fin (2 / 1000)) dz) in
  if vltb d (Fin 1100) then factor else Fin 3.
Definition wind_adjustment (w d : val) : val := vmul w (wind_factor d).
(** [da_like_reference['elevation']] as an array. *)
Definition coord_da (a : da) (name : string) : result da :=
  match coord_of a name with
  | None => Err KeyError
  | Some (ds, f) => Ok (mkDa ds (fun e => coord_val (f e)) [])
  end.
(** [out op= x]: in place, [x] must not have further dimensions (ValueError). *)
Definition inplace (f : val -> val -> val) (out x : da) : result da :=
  if subsetb (dnames x) (dnames out) then Ok (mkDa (dims out) (fun e => f (get out e) (get x e)) (aux out)) else Err ValueError.
Definition GridToSparseWithAltitudeAdjustment (m : method) (grid_elevation : da) (ds : option (list string))
    (wrap_longitude extrapolate : bool) (limit : R) : interpolation :=
  fun name a reference =>
  let c := mkRefConfig m ds wrap_longitude None extrapolate in
  if adjusted_name name then
    do g <- assign_grid_elevation grid_elevation a;                                        (* 350-351 *)
    do out <- InterpolateToReferenceCoords c name a reference;                             (* 353 *)
    do elevation <- coord_da out "elevation";                                              (* 356-358 *)
    match reference with
    | None => Err TypeError
    | Some r =>
        if Nat.eqb (da_size r) 0 then Err KeyError   (* the copied reference has no 'grid_elevation' *)
        else
          (* the coordinate 'grid_elevation' of the interpolated array *)
          do a' <- (if wrap_longitude then pad_longitude a else Ok a);
          do g' <- (if andb wrap_longitude (memb "longitude" (dnames g)) then pad_longitude g else Ok g);
          do args <- dim_args (reference_dims c a' r) r;
          do grid <- interpolate_coordinate args m extrapolate g';
          let diff := binop (elevation_difference limit) elevation grid in                 (* 356-362 *)
          if eqb name "2m_temperature" then inplace temperature_adjustment out diff        (* 363-365 *)
          else inplace wind_adjustment out diff                                            (* 366-379 *)
    end
  else InterpolateToReferenceCoords c name a reference.
