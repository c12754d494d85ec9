(** Model of weatherbenchX/metrics/categorical.py (contingency statistics, scores, SEEPS,
    ranked probability score).  float32 casts are not modelled. *)
From Coq Require Import String ZArith List Bool Reals.
Import ListNotations.
From Verif Require Import Prelude Values Model_XArray Model_MetricsBase Model_Calendar Model_Deterministic.
Local Open Scope R_scope.
Local Open Scope string_scope.
Local Open Scope list_scope.

(** 24-100: [(f(p.astype(bool), t.astype(bool))).where(~isnan(p * t))]; NaN.astype(bool) is True. *)
Definition contingency (f : bool -> bool -> bool) (p t : da) : da :=
  da_where_nan (binop (fun x y => b2v (f (vtruthy x) (vtruthy y))) p t) (notnull (binop vmul p t)).
(** 24-41 *)
Definition TruePositives : statistic da :=
  per_variable_statistic "TruePositives" (fun p t => Ok (Some (contingency (fun x y => x && y) p t))).
(** 44-61 *)
Definition TrueNegatives : statistic da :=
  per_variable_statistic "TrueNegatives" (fun p t => Ok (Some (contingency (fun x y => negb x && negb y) p t))).
(** 64-81 *)
Definition FalsePositives : statistic da :=
  per_variable_statistic "FalsePositives" (fun p t => Ok (Some (contingency (fun x y => x && negb y) p t))).
(** 84-100 *)
Definition FalseNegatives : statistic da :=
  per_variable_statistic "FalseNegatives" (fun p t => Ok (Some (contingency (fun x y => negb x && y) p t))).

Definition tp_ := ("TruePositives", TruePositives).
Definition fp_ := ("FalsePositives", FalsePositives).
Definition fn_ := ("FalseNegatives", FalseNegatives).
Definition tn_ := ("TrueNegatives", TrueNegatives).

Local Infix "[+]" := (binop vadd) (at level 50, left associativity).
Local Infix "[-]" := (binop vsub) (at level 50, left associativity).
Local Infix "[*]" := (binop vmul) (at level 40, left associativity).
Local Infix "[/]" := (binop vdiv) (at level 40, left associativity).
Definition times (c : R) (a : da) : da := da_map (vmul (Fin c)) a.

(** 344-369 CSI *)
Definition CSI : metric da := per_variable_metric [tp_; fp_; fn_] (fun s =>
  do tp <- dgetE s "TruePositives"; do fp <- dgetE s "FalsePositives"; do fn <- dgetE s "FalseNegatives";
  Ok (tp [/] (tp [+] fp [+] fn))).
(** 372-399 Accuracy *)
Definition Accuracy : metric da := per_variable_metric [tp_; fp_; fn_; tn_] (fun s =>
  do tp <- dgetE s "TruePositives"; do tn <- dgetE s "TrueNegatives"; do fp <- dgetE s "FalsePositives"; do fn <- dgetE s "FalseNegatives";
  Ok ((tp [+] tn) [/] (tp [+] fp [+] fn [+] tn))).
(** 402-422 Recall *)
Definition Recall : metric da := per_variable_metric [tp_; fn_] (fun s =>
  do tp <- dgetE s "TruePositives"; do fn <- dgetE s "FalseNegatives"; Ok (tp [/] (tp [+] fn))).
(** 425-445 FalseAlarmRate *)
Definition FalseAlarmRate : metric da := per_variable_metric [tp_; fp_] (fun s =>
  do fp <- dgetE s "FalsePositives"; do tp <- dgetE s "TruePositives"; Ok (fp [/] (tp [+] fp))).
(** 448-468 Precision *)
Definition Precision : metric da := per_variable_metric [tp_; fp_] (fun s =>
  do tp <- dgetE s "TruePositives"; do fp <- dgetE s "FalsePositives"; Ok (tp [/] (tp [+] fp))).
(** 471-499 F1Score *)
Definition F1Score : metric da := per_variable_metric [tp_; fp_; fn_] (fun s =>
  do tp <- dgetE s "TruePositives"; do fp <- dgetE s "FalsePositives"; do fn <- dgetE s "FalseNegatives";
  Ok (times 2 tp [/] (times 2 tp [+] fp [+] fn))).
(** 502-523 FrequencyBias *)
Definition FrequencyBias : metric da := per_variable_metric [tp_; fp_; fn_] (fun s =>
  do tp <- dgetE s "TruePositives"; do fp <- dgetE s "FalsePositives"; do fn <- dgetE s "FalseNegatives";
  Ok ((tp [+] fp) [/] (tp [+] fn))).
(** 526-552 HSS *)
Definition HSS : metric da := per_variable_metric [tp_; fp_; fn_; tn_] (fun s =>
  do tp <- dgetE s "TruePositives"; do tn <- dgetE s "TrueNegatives"; do fp <- dgetE s "FalsePositives"; do fn <- dgetE s "FalseNegatives";
  let numerator := times 2 (tp [*] tn [-] fp [*] fn) in
  let denominator := (tp [+] fn) [*] (fn [+] tn) [+] (tp [+] fp) [*] (fp [+] tn) in
  Ok (numerator [/] denominator)).
(** 555-586 ETS *)
Definition ETS : metric da := per_variable_metric [tp_; fp_; fn_; tn_] (fun s =>
  do tp <- dgetE s "TruePositives"; do tn <- dgetE s "TrueNegatives"; do fp <- dgetE s "FalsePositives"; do fn <- dgetE s "FalseNegatives";
  let tp_random := ((tp [+] fp) [*] (tp [+] fn)) [/] (tp [+] fp [+] fn [+] tn) in
  Ok ((tp [-] tp_random) [/] (tp [+] fp [+] fn [-] tp_random))).

(** numpy log: -inf at 0, NaN below *)
Definition vln (x : val) : val :=
  match x with
  | Fin r => if Rlt_dec r 0 then NaN else if Req_EM_T r 0 then NInf else Fin (ln r)
  | PInf => PInf | _ => NaN end.
(** [x.clip(lo, hi)]: NaN stays NaN *)
Definition vclip (lo hi : R) (x : val) : val :=
  match x with Fin r => Fin (Rmin hi (Rmax lo r)) | NaN => NaN | PInf => Fin hi | NInf => Fin lo end.
(** 589-634 SEDI *)
Definition sedi_eps : R := / 1000000.
Definition SEDI : metric da := per_variable_metric [tp_; fp_; fn_; tn_] (fun s =>
  do tp <- dgetE s "TruePositives"; do tn <- dgetE s "TrueNegatives"; do fp <- dgetE s "FalsePositives"; do fn <- dgetE s "FalseNegatives";
  let h := da_map (vclip sedi_eps (1 - sedi_eps)) (tp [/] (tp [+] fn)) in
  let f := da_map (vclip sedi_eps (1 - sedi_eps)) (fp [/] (fp [+] tn)) in
  let log_h := da_map vln h in
  let log_f := da_map vln f in
  let log_1h := da_map (fun x => vln (vsub (Fin 1) x)) h in
  let log_1f := da_map (fun x => vln (vsub (Fin 1) x)) f in
  Ok ((log_f [-] log_h [+] log_1h [-] log_1f) [/] (log_h [+] log_f [+] log_1h [+] log_1f))).

(** ** SEEPS, 103-304 *)
(** xr.concat of arrays along a new dimension (outer join, NaN fill; the coordinates of the
    first array). *)
Definition concat_new (d : string) (parts : list (label * da)) : da :=
  let al := align_outer [] NaN (map snd parts) in
  mkDa ((d, map fst parts) :: fold_left (merge_dims union_labels) (map dims al) [])
       (fun e => match dget (combine (map fst parts) al) (e d) with Some a => get a e | None => NaN end)
       (match al with [] => [] | a :: _ => aux a end).
Definition cats : list label := [LS "dry"; LS "light"; LS "heavy"].
(** 208-231; [d] is the name the category dimension gets at 257-258. *)
Definition seeps_cat (d : string) (wet : da) (dry_threshold_mm : R) (a : da) : da :=
  let thr := Fin (dry_threshold_mm / 1000) in
  let dry := da_map (fun x => b2v (vleb x thr)) a in
  let light := binop (fun x y => b2v (vtruthy x && vtruthy y)) (da_map (fun x => b2v (vltb thr x)) a) (binop (fun x w => b2v (vltb x w)) a wet) in
  let heavy := binop (fun x w => b2v (vleb w x)) a wet in
  da_where_nan (concat_new d (combine cats [dry; light; heavy])) (notnull a).

(** [a.mean(dims)] with the default skipna: NaNs are ignored, NaN if nothing is left. *)
Definition mean_skipna (D : list string) (a : da) : result da :=
  do s <- da_sum D (da_map (fun x => if isnan x then Fin 0 else x) a);
  do n <- da_sum D (notnull a);
  Ok (binop vdiv s n).

(** 242-246: wet_threshold.sel(dayofyear=valid_time.dt.dayofyear, hour=valid_time.dt.hour), valid_time = init_time + lead_time *)
Definition seeps_valid_time (p : da) : result (dimlist * (env -> label)) :=
  match coord_of p "init_time", coord_of p "lead_time" with
  | Some (d1, f1), Some (d2, f2) => Ok (merge_dims inter_labels d1 d2, fun e => LZ (time_value (f1 e) + time_value (f2 e)))
  | _, _ => Err AttributeError
  end.
Definition seeps_wet (p clim : da) : result da :=
  do vt <- seeps_valid_time p;
  let (ids, f) := vt in
  sel_points clim ids (filter (fun q => subsetb (c_dims (snd q)) (map fst ids)) (aux p))
    [("dayofyear", fun e => LZ (dayofyear (time_value (f e)))); ("hour", fun e => LZ (hour_of (time_value (f e))))].

(** 269-282: rows are forecast categories, columns truth categories *)
Definition scoring_matrix (p1 : da) : da :=
  let z := zeros_like p1 in
  let f (g : val -> val) := da_map g p1 in
  let m1 x := vsub (Fin 1) x in
  let p2 x := vadd (Fin 2) x in
  let row l := concat_new "truth_cat" (combine cats l) in
  times (1/2) (concat_new "forecast_cat" (combine cats
    [row [z; f (fun x => vdiv (Fin 1) (m1 x)); f (fun x => vdiv (Fin 4) (m1 x))];
     row [f (fun x => vdiv (Fin 1) x); z; f (fun x => vdiv (Fin 3) (m1 x))];
     row [f (fun x => vadd (vdiv (Fin 1) x) (vdiv (Fin 3) (p2 x))); f (fun x => vdiv (Fin 3) (p2 x)); z]])).

(** [r.where(cond, np.nan)]: with an explicit [other] xarray joins the indexes exactly, so
    different labels along a shared dimension are a ValueError. *)
Definition labels_eqb (a b : list label) : bool := if list_eq_dec eq_dec a b then true else false.
Definition shared_labels_eqb (a b : da) : bool :=
  forallb (fun p => match dget (dims b) (fst p) with Some ls => labels_eqb (snd p) ls | None => true end) (dims a).
Definition where_exact (a cond : da) : result da :=
  if shared_labels_eqb a cond then Ok (da_where_nan a cond) else Err ValueError.
(** 288-301: the combined mask; both arrays having a mask is an error. *)
Definition seeps_mask (ok : env -> bool) (p1dims : list string) (p t : da) : result coord :=
  match dget (aux p) "mask", dget (aux t) "mask" with
  | Some _, Some _ => Err ValueError
  | Some c, None | None, Some c =>
      Ok (mkCoord (p1dims ++ filter (fun d => negb (memb d p1dims)) (c_dims c)) (fun e => LB (ok e && label_is_one (c_get c e))))
  | None, None => Ok (mkCoord p1dims (fun e => LB (ok e)))
  end.
(** 233-303.  The combined mask is attached as a coordinate; a mask with dimensions the result
    does not have cannot be attached (ValueError). *)
Definition seeps_var (wet_clim dry_clim : da) (dry_threshold_mm min_p1 max_p1 : R) (p t : da) : result da :=
  do wet <- seeps_wet p wet_clim;
  let out := binop vmul (seeps_cat "forecast_cat" wet dry_threshold_mm p) (seeps_cat "truth_cat" wet dry_threshold_mm t) in
  do p1 <- mean_skipna ["hour"; "dayofyear"] dry_clim;
  let r := da_dot ["forecast_cat"; "truth_cat"] [out; scoring_matrix p1] in
  let ok x := vleb (Fin min_p1) x && vleb x (Fin max_p1) in
  do r <- where_exact r (da_map (fun x => b2v (ok x)) p1);
  do m <- seeps_mask (fun e => ok (get p1 e)) (dnames p1) p t;
  if subsetb (c_dims m) (dnames r) then Ok (mkDa (dims r) (get r) (dset (aux r) "mask" m)) else Err ValueError.

(** 188-206: one entry per listed variable, KeyError if missing; 157-173: unequal argument
    lengths are an AssertionError.  The climatology is a dict of arrays. *)
Fixpoint seeps_compute (vs : list string) (ds mins maxs : list R) (clim p t out : vars da) : result (vars da) :=
  match vs, ds, mins, maxs with
  | v :: vs', d :: ds', mn :: mins', mx :: maxs' =>
      do pv <- dgetE p v; do tv <- dgetE t v;
      do wc <- dgetE clim (v ++ "_seeps_threshold")%string;
      do dc <- dgetE clim (v ++ "_seeps_dry_fraction")%string;
      do r <- seeps_var wc dc d mn mx pv tv;
      seeps_compute vs' ds' mins' maxs' clim p t (dset out v r)
  | _, _, _, _ => Ok out
  end.
Definition SEEPS (name : string) (vs : list string) (clim : vars da) (ds mins maxs : list R) : result (statistic da) :=
  if (Nat.eqb (length vs) (length ds) && Nat.eqb (length ds) (length mins) && Nat.eqb (length mins) (length maxs))%bool then
    Ok (mkStat name (fun p t => seeps_compute vs ds mins maxs clim p t []))
  else Err AssertionError.

(** ** 306-340 RankedProbabilityScore: the sum has the default skipna, so NaNs count as 0. *)
Definition rps_var (bin_dim : string) (p t : da) : result da :=
  da_sum [bin_dim] (da_map (fun x => if isnan x then Fin 0 else x) (da_map vsq (binop vsub p t))).
Definition RankedProbabilityScore (bin_dim : string) : statistic da :=
  per_variable_statistic "RankedProbabilityScore" (fun p t => do r <- rps_var bin_dim p t; Ok (Some r)).
