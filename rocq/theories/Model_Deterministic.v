(** Model of weatherbenchX/metrics/deterministic.py and of
    PerVariableStatisticWithClimatology (metrics/base.py 338-415). *)
From Coq Require Import String ZArith List Bool Reals.
Import ListNotations.
From Verif Require Import Prelude Values Model_XArray Model_MetricsBase Model_Calendar.
Local Open Scope R_scope.
Local Open Scope string_scope.
Local Open Scope list_scope.

(** [x ** 2] *)
Definition vsq (x : val) : val := vmul x x.

(** A boolean array is a 0/1 array. *)
Definition vtruthy (x : val) : bool := negb (veqb x (Fin 0)).
(** [a.where(cond)]: inner join of the coordinates, NaN where the condition is false. *)
Definition da_where_nan (a cond : da) : da := binop (fun x c => if vtruthy c then x else NaN) a cond.
Definition notnull (a : da) : da := da_map (fun x => b2v (negb (isnan x))) a.
Definition zeros_like (a : da) : da := da_map (fun _ => Fin 0) a.

(** deterministic.py 91-100: Error (alias Bias, 305) *)
Definition error_var (p t : da) : da := binop vsub p t.
Definition Error : statistic da := per_variable_statistic "Error" (fun p t => Ok (Some (error_var p t))).
(** 103-112: AbsoluteError (alias MAE, 306) *)
Definition absolute_error_var (p t : da) : da := da_map vabs (binop vsub p t).
Definition AbsoluteError : statistic da := per_variable_statistic "AbsoluteError" (fun p t => Ok (Some (absolute_error_var p t))).
(** 115-123: SquaredError (alias MSE, 307) *)
Definition squared_error_var (p t : da) : da := da_map vsq (binop vsub p t).
Definition SquaredError : statistic da := per_variable_statistic "SquaredError" (fun p t => Ok (Some (squared_error_var p t))).

(** 126-147 PredictionPassthrough, 150-171 TargetPassthrough (the name does not mention
    the copy flag) *)
Definition passthrough_var (copy_nans : bool) (a other : da) : da :=
  let r := binop vadd a (zeros_like other) in
  if copy_nans then da_where_nan r (notnull other) else r.
Definition PredictionPassthrough (copy : bool) : statistic da :=
  per_variable_statistic "PredictionPassthrough" (fun p t => Ok (Some (passthrough_var copy p t))).
Definition TargetPassthrough (copy : bool) : statistic da :=
  per_variable_statistic "TargetPassthrough" (fun p t => Ok (Some (passthrough_var copy t p))).

(** '_'.join(l) *)
Fixpoint join_underscore (l : list string) : string :=
  match l with
  | [] => EmptyString
  | [x] => x
  | x :: l' => (x ++ "_" ++ join_underscore l')%string
  end.

(** 174-219 WindVectorSquaredError *)
Definition wind_var (pu pv tu tv : da) : da :=
  binop vadd (da_map vsq (binop vsub pu tu)) (da_map vsq (binop vsub pv tv)).
Fixpoint wind_compute (us vs ns : list string) (p t out : vars da) : result (vars da) :=
  match us, vs, ns with
  | u :: us', v :: vs', n :: ns' =>
      do pu <- dgetE p u; do pv <- dgetE p v; do tu <- dgetE t u; do tv <- dgetE t v;
      wind_compute us' vs' ns' p t (dset out n (wind_var pu pv tu tv))
  | _, _, _ => Ok out
  end.
Definition same_length3 (us vs ns : list string) : bool :=
  Nat.eqb (length us) (length vs) && Nat.eqb (length vs) (length ns).
Definition WindVectorSquaredError (us vs ns : list string) : result (statistic da) :=
  if same_length3 us vs ns then
    Ok (mkStat ("WindVectorSquaredError_" ++ join_underscore ns) (fun p t => wind_compute us vs ns p t []))
  else Err ValueError.

(** 312-324 RMSE *)
Definition RMSE : metric da :=
  per_variable_metric [("SquaredError", SquaredError)] (fun vals => do x <- dgetE vals "SquaredError"; Ok (da_map vsqrt x)).
(** 327-371 WindVectorRMSE *)
Definition WindVectorRMSE (us vs ns : list string) : result (metric da) :=
  do s <- WindVectorSquaredError us vs ns;
  Ok (mkMetric [("WindVectorSquaredError", s)]
       (fun vals => do x <- dgetE vals "WindVectorSquaredError"; Ok (map (fun va => (fst va, da_map vsqrt (snd va))) x))).

(** ** Climatology, base.py 338-415 *)
(** A coordinate of an array, as a dimension or as a non-dimension coordinate: its
    dimensions (with labels) and its values. *)
Definition coord_of (a : da) (name : string) : option (dimlist * (env -> label)) :=
  match dget (dims a) name with
  | Some ls => Some ([(name, ls)], fun e => e name)
  | None =>
      match dget (aux a) name with
      | Some c => Some (filter (fun p => memb (fst p) (c_dims c)) (dims a), c_get c)
      | None => None
      end
  end.
Definition time_value (l : label) : Z := match l with LZ z => z | _ => 0%Z end.

(** 383-394: valid_time, or init_time + lead_time, else ValueError. *)
Definition valid_time_of (a : da) : result (dimlist * (env -> label)) :=
  match coord_of a "valid_time" with
  | Some c => Ok c
  | None =>
      match coord_of a "init_time", coord_of a "lead_time" with
      | Some (d1, f1), Some (d2, f2) =>
          Ok (merge_dims inter_labels d1 d2, fun e => LZ (time_value (f1 e) + time_value (f2 e)))
      | _, _ => Err ValueError
      end
  end.

(** [a.sel(d1=idx1, ...)] with array-valued indexers over the dimensions [ids]: KeyError if a
    label is missing.  The indexer brings its own non-dimension coordinates [iaux]. *)
Definition sel_points (a : da) (ids : dimlist) (iaux : dict string coord) (idx : list (string * (env -> label))) : result da :=
  if forallb (fun e => forallb (fun df => memb (snd df e) (labels_of (dims a) (fst df))) idx) (envs ids env0) then
    Ok (mkDa (ids ++ filter (fun p => negb (memb (fst p) (map fst idx)) && negb (memb (fst p) (map fst ids))) (dims a))
             (fun e => get a (fun d => match dget idx d with Some f => f e | None => e d end))
             (aux_without (map fst idx) (aux a) ++ iaux))
  else Err KeyError.

(** 397-403 *)
Definition align_climatology (p c : da) : result da :=
  do vt <- valid_time_of p;
  let (ids, f) := vt in
  let iaux := filter (fun q => subsetb (c_dims (snd q)) (map fst ids)) (aux p) in
  match coord_of c "time" with
  | Some _ => sel_points c ids iaux [("time", f)]
  | None =>
      let doy := fun e => LZ (dayofyear (time_value (f e))) in
      let hr := fun e => LZ (hour_of (time_value (f e))) in
      match coord_of c "hour" with
      | Some _ => sel_points c ids iaux [("dayofyear", doy); ("hour", hr)]
      | None => sel_points c ids iaux [("dayofyear", doy)]
      end
  end.

(** 359-372: the climatology must have all prediction variables (KeyError); map_structure over
    the three dicts takes the variables of the predictions, KeyError if a target is missing. *)
Definition climatology_statistic (name : string) (f : da -> da -> da -> da) (clim : vars da) : statistic da :=
  mkStat name (fun p t =>
    do cs <- mapM (fun k => dgetE clim k) (keys p);
    mapM (fun kv => do tv <- dgetE t (fst kv); do cv <- dgetE clim (fst kv);
                    do c <- align_climatology (snd kv) cv;
                    Ok (fst kv, f (snd kv) tv c)) p).

(** deterministic.py 222-232, 235-245, 248-259; the names do not mention the climatology. *)
Definition SquaredPredictionAnomaly := climatology_statistic "SquaredPredictionAnomaly" (fun p t c => da_map vsq (binop vsub p c)).
Definition SquaredTargetAnomaly := climatology_statistic "SquaredTargetAnomaly" (fun p t c => da_map vsq (binop vsub t c)).
Definition AnomalyCovariance := climatology_statistic "AnomalyCovariance" (fun p t c => binop vmul (binop vsub p c) (binop vsub t c)).

(** 374-400 ACC *)
Definition ACC (clim : vars da) : metric da :=
  per_variable_metric [("SquaredPredictionAnomaly", SquaredPredictionAnomaly clim);
                       ("SquaredTargetAnomaly", SquaredTargetAnomaly clim);
                       ("AnomalyCovariance", AnomalyCovariance clim)]
    (fun vals => do sp <- dgetE vals "SquaredPredictionAnomaly";
                 do st <- dgetE vals "SquaredTargetAnomaly";
                 do c <- dgetE vals "AnomalyCovariance";
                 Ok (binop vdiv c (binop vmul (da_map vsqrt sp) (da_map vsqrt st)))).
(** 403-425 PredictionActivity *)
Definition PredictionActivity (clim : vars da) : metric da :=
  per_variable_metric [("SquaredPredictionAnomaly", SquaredPredictionAnomaly clim)]
    (fun vals => do sp <- dgetE vals "SquaredPredictionAnomaly"; Ok (da_map vsqrt sp)).

(** 262-297 ErrorExceedance, thresholds as one DataArray; the per-variable Dataset form
    is not modelled.  The name does not mention the thresholds. *)
Definition exceedance_var (thresholds p t : da) : da :=
  let ae := da_map vabs (binop vsub p t) in
  let out := binop (fun x th => b2v (vltb th x)) ae thresholds in
  da_where_nan (da_where_nan out (notnull ae)) (notnull thresholds).
Definition ErrorExceedance (thresholds : da) : statistic da :=
  per_variable_statistic "ErrorExceedance" (fun p t => Ok (Some (exceedance_var thresholds p t))).

(** 30-87 RelativeIntensity: |(mean p + eps) / (mean t + eps) - 1| over the spatial dimensions;
    with a mask on the targets only unmasked points count.  The name omits spatial_dims. *)
Definition epsilon : val := Fin (1 / 1000000).
Definition da_count (D : list string) (a : da) : R :=
  INR (length (envs (keep (fun d => memb d D) (dims a)) env0)).
Definition da_mean (D : list string) (a : da) : result da :=
  do s <- da_sum D a; Ok (da_map (fun x => vdiv x (Fin (da_count D a))) s).
Definition relative (pm tm : da) : da :=
  da_map (fun r => vabs (vsub r (Fin 1))) (binop vdiv (da_map (fun x => vadd x epsilon) pm) (da_map (fun x => vadd x epsilon) tm)).
Definition label_is_one (l : label) : bool := match l with LB b => b | LZ z => Z.eqb z 1 | _ => false end.
Definition mask_array (t : da) (c : coord) : da :=
  mkDa (filter (fun p => memb (fst p) (c_dims c)) (dims t)) (fun e => b2v (label_is_one (c_get c e)))
       (filter (fun q => subsetb (c_dims (snd q)) (c_dims c)) (aux t)).
Definition where_zero (a cond : da) : da := binop (fun x c => if vtruthy c then x else Fin 0) a cond.
Definition relative_intensity_var (D : list string) (p t : da) : result da :=
  match dget (aux t) "mask" with
  | Some c =>
      let m := mask_array t c in
      do count <- da_sum D m;
      do ps <- da_sum D (where_zero p m);
      do ts <- da_sum D (where_zero t m);
      let safe := fun s => binop (fun x n => if vltb (Fin 0) n then x else Fin 0) (binop vdiv s count) count in
      let r := relative (safe ps) (safe ts) in
      Ok (mkDa (dims r) (get r)
            (dset (aux r) "mask" (mkCoord (dnames count) (fun e => LZ (if vltb (Fin 0) (get count e) then 1 else 0)%Z))))
  | None =>
      do pm <- da_mean D p; do tm <- da_mean D t; Ok (relative pm tm)
  end.
Definition RelativeIntensity (D : list string) : statistic da :=
  per_variable_statistic "RelativeIntensity" (fun p t => do r <- relative_intensity_var D p t; Ok (Some r)).
