(** Model of weatherbenchX/binning.py: the classes deriving bin masks from the coordinates of
    a statistic.  Masks are arrays of 0/1.  Numbers are exact rationals (float rounding is not
    modelled), coordinate values are never NaN/NaT, and non-dimension coordinates of the masks
    (dropped by the dot product that consumes them) are not modelled. *)
From Coq Require Import String ZArith QArith Qround Qcanon Bool List.
Import ListNotations.
From Verif Require Import Prelude Values Model_XArray Model_Deterministic Model_Calendar Model_Aggregation.
From Coq Require Import Reals.
Local Open Scope string_scope.
Local Open Scope list_scope.

(** Numeric value of a coordinate label. *)
Definition lnum (l : label) : Q :=
  match l with LZ z => inject_Z z | LQ q => this q | _ => 0%Q end.
(** Element equality of numpy: numbers by value, everything else exactly. *)
Definition value_eqb (a b : label) : bool :=
  match a, b with
  | (LZ _ | LQ _), (LZ _ | LQ _) => Qeq_bool (lnum a) (lnum b)
  | _, _ => eqb a b
  end.

(** The coordinate array [statistic[name]]: its dimensions and its value at each point. *)
Definition project (ds : dimlist) (e : env) : env := fun d => if memb d (map fst ds) then e d else LZ 0.
Definition coord_array (st : da) (name : string) : option (dimlist * (env -> label)) :=
  match coord_of st name with
  | Some (ds, f) => Some (ds, fun e => f (project ds e))
  | None => None
  end.
Definition get_coord (k : err) (st : da) (name : string) : result (dimlist * (env -> label)) :=
  match coord_array st name with Some c => Ok c | None => Err k end.

(** A list of masks over the dimensions [ds], each expanded by (or concatenated along) the new
    dimension [d] with its own label: ValueError if there is already such a dimension. *)
Definition stack_parts (d : string) (ds : dimlist) (parts : list (label * (env -> val))) : result da :=
  if memb d (map fst ds) then Err ValueError
  else Ok (mkDa ((d, map fst parts) :: ds)
                (fun e => match dget parts (e d) with Some f => f e | None => NaN end) []).
Definition bits (parts : list (label * (env -> bool))) : list (label * (env -> val)) :=
  map (fun p => (fst p, fun e => b2v (snd p e))) parts.
(** [xr.concat(masks, d)]: ValueError for an empty list. *)
Definition stack (d : string) (ds : dimlist) (parts : list (label * (env -> bool))) : result da :=
  match parts with [] => Err ValueError | _ => stack_parts d ds (bits parts) end.

(** np.mod *)
Definition qmod (x m : Q) : Q := (x - m * inject_Z (Qfloor (x / m)))%Q.
Definition Qltb (x y : Q) : bool := negb (Qle_bool y x).
Notation lims := (Q * Q)%type.

(** 52-60 *)
Definition create_lat_mask (lat_lims : lims) : result (Q -> bool) :=
  if Qle_bool (snd lat_lims) (fst lat_lims) then Err ValueError
  else Ok (fun lat => Qle_bool (fst lat_lims) lat && Qle_bool lat (snd lat_lims)).
(** 63-77 *)
Definition create_lon_mask (lon_lims : lims) : Q -> bool :=
  fun lon =>
    let lon := qmod lon 360 in
    let l0 := qmod (fst lon_lims) 360 in
    let l1 := qmod (snd lon_lims) 360 in
    if Qltb l0 l1 then Qle_bool l0 lon && Qle_bool lon l1
    else Qle_bool lon l1 || Qle_bool l0 lon.
(** 80-89 *)
Definition region_to_mask (lat lon : env -> label) (lat_lims lon_lims : lims) : result (env -> bool) :=
  do f <- create_lat_mask lat_lims;
  Ok (fun e => f (lnum (lat e)) && create_lon_mask lon_lims (lnum (lon e))).

(** ** LandSea, 92-144.  If the fraction already has the bin dimension xr.concat would act along
    it and the label assignment fail; modelled as ValueError. *)
Definition LandSea (fraction : da) (threshold : R) (d : string) (include_global_mask : bool) : binning :=
  let land := fun e => vleb (Fin threshold) (get fraction e) in
  mkBinning d (fun _ =>
    stack d (dims fraction)
      ([(LS "land", land); (LS "sea", fun e => negb (land e))]
       ++ if include_global_mask then [(LS "global", fun _ => true)] else [])).

(** ** Regions, 147-201.  np.sort(a) == np.sort(b): equal as multisets.  A statistic whose
    latitude and longitude are not dimensions is taken to fail the coordinate comparison, and
    the land-sea mask to have no dimensions other than latitude and longitude. *)
Definition same_multiset (a b : list label) : bool :=
  forallb (fun x => Nat.eqb (count_occ eq_dec a x) (count_occ eq_dec b x)) (a ++ b).
Definition labels_eqb (a b : list label) : bool := if list_eq_dec eq_dec a b then true else false.
Definition regions_to_masks (regions : list (string * (lims * lims))) (d : string) (st : da) : result da :=
  do lat <- get_coord AttributeError st "latitude";
  do lon <- get_coord AttributeError st "longitude";
  do parts <- mapM (fun r => do f <- region_to_mask (snd lat) (snd lon) (fst (snd r)) (snd (snd r));
                             Ok (LS (fst r), f)) regions;
  stack d (merge_dims inter_labels (fst lat) (fst lon)) parts.
Definition land_name (l : label) : label := match l with LS s => LS (s ++ "_land") | _ => l end.
Definition Regions (regions : list (string * (lims * lims))) (d : string) (land_sea_mask : option da) : binning :=
  mkBinning d (fun st =>
    do masks <- regions_to_masks regions d st;
    match land_sea_mask with
    | None => Ok masks
    | Some lm =>
        if memb "latitude"%string (dnames masks) && memb "longitude"%string (dnames masks)
           && same_multiset (labels_of (dims masks) "latitude") (labels_of (dims lm) "latitude")
           && labels_eqb (labels_of (dims masks) "longitude") (labels_of (dims lm) "longitude") then
          let land_masks := binop vmul masks (da_map (fun x => b2v (vtruthy x)) lm) in
          let names := labels_of (dims masks) d in
          stack_parts d (filter (fun p => negb (String.eqb (fst p) d)) (dims land_masks))
            (map (fun l => (l, fun e => get masks (upd e d l))) names
             ++ map (fun l => (land_name l, fun e => get land_masks (upd e d l))) names)
        else Err AssertionError
    end).

(** np.arange *)
Definition arange (start stop step : Q) : result (list Q) :=
  if Qeq_bool step 0 then Err ZeroDivisionError
  else Ok (map (fun i => (start + inject_Z (Z.of_nat i) * step)%Q)
               (seq 0 (Z.to_nat (Qceiling ((stop - start) / step))))).

(** ** LatitudeBins, 204-243.  The masks are broadcast to all dimensions of the statistic. *)
Definition LatitudeBins (degrees : Q) (lat_range : lims) (d : string) : result binning :=
  do bins <- arange (fst lat_range) (snd lat_range + degrees)%Q degrees;
  Ok (mkBinning d (fun st =>
    match removelast bins with
    | [] => Err ValueError
    | starts =>
        do lat <- get_coord AttributeError st "latitude";
        do parts <- mapM (fun s => do f <- create_lat_mask (s, s + degrees)%Q;
                                   Ok (LQ (Q2Qc s), fun e => f (lnum (snd lat e)))) starts;
        stack d (dims st) parts
    end)).

(** ** LongitudeBins, 246-288 *)
Definition LongitudeBins (degrees : Q) (lon_range : lims) (d : string) : result binning :=
  let lon_end := if Qle_bool (snd lon_range) (fst lon_range) then (snd lon_range + 360)%Q else snd lon_range in
  do bins <- arange (fst lon_range) (lon_end + degrees)%Q degrees;
  Ok (mkBinning d (fun st =>
    match removelast bins with
    | [] => Err ValueError
    | starts =>
        do lon <- get_coord AttributeError st "longitude";
        stack d (dims st)
          (map (fun s => (LQ (Q2Qc (qmod s 360)),
                          fun e => create_lon_mask (s, s + degrees)%Q (lnum (snd lon e)))) starts)
    end)).

(** ** vectorized_coord_mask, 291-320.  [fmt]: how numpy prints a value when bin labels are
    cast to str.  np.unique sorts; order is not observable. *)
Definition cast_str (fmt : label -> string) (l : label) : label :=
  match l with LS s => LS s | _ => LS (fmt l) end.
Definition vectorized_coord_mask (fmt : label -> string) (c : dimlist * (env -> label)) (d : string)
    (add_global_bin : bool) : result da :=
  let unique := nodup eq_dec (map (snd c) (envs (fst c) env0)) in
  let masks := map (fun v => (v, fun e => eqb (snd c e) v)) unique in
  stack_parts d (fst c) (bits
    (if add_global_bin then (LS "global", fun _ => true) :: map (fun p => (cast_str fmt (fst p), snd p)) masks
     else masks)).

(** ** ByExactCoord, 323-355 *)
Definition ByExactCoord (fmt : label -> string) (name : string) (add_global_bin : bool) : binning :=
  mkBinning name (fun st =>
    if memb name (dnames st) then Err AssertionError
    else do c <- get_coord KeyError st name; vectorized_coord_mask fmt c name add_global_bin).

(** _extract_time_unit, 358-393: [delta] says whether the coordinate holds timedelta64 (else datetime64) values.
    Timedelta values are floats.  Datetime accessors other than these are not modelled
    (AttributeError). *)
Definition ns_second : Z := 1000000000.
Definition ns_minute : Z := 60 * ns_second.
Definition whole (z : Z) : label := LQ (Q2Qc (inject_Z z)).
Definition extract_time_unit (delta : bool) (unit : string) : result (Z -> label) :=
  let is := String.eqb unit in
  if delta then
    if is "second"%string then Ok (fun t => LQ (Q2Qc (inject_Z t / inject_Z ns_second)))
    else if is "minute"%string then Ok (fun t => whole (t / ns_minute))
    else if is "hour"%string then Ok (fun t => whole (t / ns_hour))
    else if is "day"%string then Ok (fun t => whole (t / ns_day))
    else if is "week"%string then Ok (fun t => whole (t / (7 * ns_day)))
    else if is "year"%string then Ok (fun t => whole (t / (365 * ns_day)))
    else Err ValueError
  else
    if is "second"%string then Ok (fun t => LZ (t / ns_second mod 60))
    else if is "minute"%string then Ok (fun t => LZ (t / ns_minute mod 60))
    else if is "hour"%string then Ok (fun t => LZ (hour_of t))
    else if is "day"%string then Ok (fun t => LZ (dom_of t))
    else if is "month"%string then Ok (fun t => LZ (month_of t))
    else if is "year"%string then Ok (fun t => LZ (year_of t))
    else if is "dayofyear"%string then Ok (fun t => LZ (dayofyear t))
    else if is "dayofweek"%string then Ok (fun t => LZ ((day_of t + 3) mod 7))
    else Err AttributeError.

(** ** ByTimeUnit, 396-441 *)
Definition ByTimeUnit (fmt : label -> string) (delta : bool) (unit time_dim : string) (add_global_bin : bool) : binning :=
  let d := (time_dim ++ "_" ++ unit)%string in
  mkBinning d (fun st =>
    do c <- get_coord KeyError st time_dim;
    do f <- extract_time_unit delta unit;
    vectorized_coord_mask fmt (fst c, fun e => f (time_value (snd c e))) d add_global_bin).

(** Membership masks with their names ([s] a sequence, or one value: then a one-element list). *)
Definition isin (s : list label) (l : label) : bool := existsb (value_eqb l) s.

(** ** ByTimeUnitSets, 444-514 *)
Definition ByTimeUnitSets (delta : bool) (sets : list (string * list label)) (unit dim : string)
    (bin_dim : option string) (add_global_bin : bool) : binning :=
  let d := match bin_dim with Some d => d | None => (dim ++ "_" ++ unit ++ "_sets")%string end in
  mkBinning d (fun st =>
    do c <- get_coord KeyError st dim;
    do f <- extract_time_unit delta unit;
    stack d (fst c)
      (map (fun ns => (LS (fst ns), fun e => isin (snd ns) (f (time_value (snd c e))))) sets
       ++ if add_global_bin then [(LS "global", fun _ => true)] else [])).

(** ** ByTimeUnitFromSeconds, 517-567 *)
Definition irange (n : nat) : list label := map (fun i => LZ (Z.of_nat i)) (seq 0 n).
Definition ByTimeUnitFromSeconds (unit time_dim : string) (bins : option (list label)) : binning :=
  let d := (time_dim ++ "_" ++ unit)%string in
  mkBinning d (fun st =>
    do c <- get_coord KeyError st time_dim;
    let per (k : Q) := fun e => inject_Z (Qfloor (lnum (snd c e) / k)) in
    let dflt n := match bins with Some b => b | None => irange n end in
    do fb <- (if String.eqb unit "second" then Ok (fun e => lnum (snd c e), dflt 60%nat)
              else if String.eqb unit "minute" then Ok (per (inject_Z 60), dflt 60%nat)
              else if String.eqb unit "hour" then Ok (per (inject_Z 3600), dflt 24%nat)
              else Err ValueError);
    stack_parts d (fst c) (bits (map (fun b => (b, fun e => Qeq_bool (fst fb e) (lnum b))) (snd fb)))).

(** ** ByCoordBins, 570-637.  On an actual dimension expand_dims raises ValueError. *)
Fixpoint pairs {A} (l : list A) : list (A * A) :=
  match l with
  | a :: (b :: _) as l' => (a, b) :: pairs l'
  | _ => []
  end.
Definition ByCoordBins (fmt : label -> string) (name : string) (bin_edges : list label) (add_global_bin : bool) : binning :=
  mkBinning name (fun st =>
    do c <- get_coord KeyError st name;
    let parts :=
      map (fun ab => ((if add_global_bin then cast_str fmt (fst ab) else fst ab),
                      fun e => Qle_bool (lnum (fst ab)) (lnum (snd c e)) && Qltb (lnum (snd c e)) (lnum (snd ab))))
          (pairs bin_edges)
      ++ (if add_global_bin then [(LS "global", fun _ => true)] else []) in
    match parts with
    | [] => stack_parts name (dims st) []
    | _ => stack name (fst c) parts
    end).

(** ** BySets, 640-706 *)
Definition BySets (sets : list (string * list label)) (coord_name : string) (bin_dim : option string)
    (add_set_complements add_global_bin : bool) : result binning :=
  match bin_dim with
  | None => Err ValueError
  | Some d =>
      if String.eqb d coord_name then Err ValueError
      else Ok (mkBinning d (fun st =>
        match sets, add_global_bin with
        | [], false => Err ValueError
        | _, _ =>
            do c <- get_coord KeyError st coord_name;
            stack d (fst c)
              (flat_map (fun ns =>
                 (LS (fst ns), fun e => isin (snd ns) (snd c e))
                 :: (if add_set_complements
                     then [(LS ("not_in_" ++ fst ns), fun e => negb (isin (snd ns) (snd c e)))] else []))
                 sets
               ++ if add_global_bin then [(LS "global", fun _ => true)] else [])
        end))
  end.
