(** Model of weatherbenchX/metrics/categorical.py 700-end: Confident, Covered, JaccardDistant,
    Opportunism.  Quantile levels and thresholds are exact rationals (floats are); infinite
    ensemble members are not modelled. *)
From Coq Require Import String ZArith QArith Qcanon List Bool Reals Qreals.
Import ListNotations.
From Verif Require Import Prelude Values Model_XArray Model_MetricsBase Model_Deterministic Model_Ensemble Model_Bootstrap.
Local Open Scope R_scope.
Local Open Scope string_scope.
Local Open Scope list_scope.

Definition qr (q : Qc) : R := Q2R (this q).

(** np.nanquantile of one list (method 'linear'), NaN without valid values *)
Definition list_quantile (q : R) (vs : list val) : val :=
  match sort (numbers vs) with [] => NaN | xs => Fin (sorted_quantile q xs) end.
Definition scalar_coord (q : Qc) : coord := mkCoord [] (fun _ => LQ q).
(** xarray [a.quantile(q, dim=d)]: NaNs are skipped; ValueError for a level outside [0, 1] or an
    unknown dimension; scalar coordinates are dropped and the scalar coordinate quantile is
    added. *)
Definition quantile (q : Qc) (d : string) (a : da) : result da :=
  if Rltb (qr q) 0 || Rltb 1 (qr q) then Err ValueError
  else do r <- reduce (list_quantile (qr q)) [d] a;
       Ok (mkDa (dims r) (get r) (dset (filter (fun p => match c_dims (snd p) with [] => false | _ => true end) (aux r)) "quantile" (scalar_coord q))).
(** [a.sel(quantile=q)]: KeyError without the dimension or the label *)
Definition sel_quantile (q : Qc) (a : da) : result da :=
  match dget (dims a) "quantile" with
  | None => Err KeyError
  | Some ls =>
      if memb (LQ q) ls then
        Ok (mkDa (filter (fun p => negb (eqb (fst p) "quantile")) (dims a)) (fun e => get a (upd e "quantile" (LQ q)))
                 (dset (map (fun c => (fst c, mkCoord (filter (fun x => negb (eqb x "quantile")) (c_dims (snd c))) (fun e => c_get (snd c) (upd e "quantile" (LQ q))))) (aux a))
                       "quantile" (scalar_coord q)))
      else Err KeyError
  end.

(** base.py 358-407 for a computation that can fail; [climatology_statistic] of
    Model_Deterministic is the case that cannot. *)
Definition climatology_statistic_r (name : string) (f : da -> da -> da -> result da) (clim : vars da) : statistic da :=
  mkStat name (fun p t =>
    do cs <- mapM (fun k => dgetE clim k) (keys p);
    mapM (fun kv => do tv <- dgetE t (fst kv); do cv <- dgetE clim (fst kv);
                    do c <- align_climatology (snd kv) cv;
                    do r <- f (snd kv) tv c; Ok (fst kv, r)) p).
Lemma climatology_statistic_pure name f clim :
  climatology_statistic name f clim = climatology_statistic_r name (fun p t c => Ok (f p t c)) clim.
Proof. reflexivity. Qed.

(** np.maximum, np.minimum: NaN if one is NaN *)
Definition vmaximum (x y : val) : val :=
  match x, y with NaN, _ | _, NaN => NaN | _, _ => if vleb x y then y else x end.
Definition vminimum (x y : val) : val :=
  match x, y with NaN, _ | _, NaN => NaN | _, _ => if vleb x y then x else y end.
Definition band (a b : da) : da := binop (fun x y => b2v (vtruthy x && vtruthy y)) a b.

Section Names.
  Variable fmt : Qc -> string.
  (** 727-746 *)
  Definition confident_var (d : string) (lo hi threshold : Qc) (p c : da) : result da :=
    do ph <- quantile hi d p; do pl <- quantile lo d p;
    do ch <- sel_quantile hi c; do cl <- sel_quantile lo c;
    Ok (binop (fun x y => b2v (vltb x y)) (binop vsub ph pl) (da_map (vmul (Fin (qr threshold))) (binop vsub ch cl))).
  (** 700-746 *)
  Definition Confident (d : string) (clim : vars da) (lo hi threshold : Qc) : statistic da :=
    climatology_statistic_r ("Confident" ++ "_conf_thres=" ++ fmt threshold ++ "_spread_low=" ++ fmt lo ++ "_spread_high=" ++ fmt hi)
      (fun p _ c => confident_var d lo hi threshold p c) clim.
  (** 771-784 *)
  Definition covered_var (d : string) (lo hi : Qc) (p t : da) : result da :=
    do pl <- quantile lo d p; do ph <- quantile hi d p;
    Ok (band (binop (fun x y => b2v (vleb x y)) pl t) (binop (fun x y => b2v (vleb x y)) t ph)).
  (** 749-784 *)
  Definition Covered (d : string) (lo hi : Qc) : statistic da :=
    per_variable_statistic ("Covered" ++ "_interval_low=" ++ fmt lo ++ "_interval_high=" ++ fmt hi)
      (fun p t => do r <- covered_var d lo hi p t; Ok (Some r)).
  (** 819-862 *)
  Definition jaccard_var (d : string) (threshold lo hi : Qc) (p c : da) : result da :=
    do pl <- quantile lo d p; do ph <- quantile hi d p;
    do cl <- sel_quantile lo c; do ch <- sel_quantile hi c;
    let max_of_lows := binop vmaximum pl cl in
    let min_of_highs := binop vminimum ph ch in
    let intersection := da_map (vmaximum (Fin 0)) (binop vsub min_of_highs max_of_lows) in
    let union := binop vsub (binop vadd (binop vsub ph pl) (binop vsub ch cl)) intersection in
    let index := binop (fun u r => if vltb (Fin 0) u then r else Fin 1) union (binop vdiv intersection union) in
    Ok (da_map (fun j => b2v (vltb (Fin (qr threshold)) (vsub (Fin 1) j))) index).
  (** 787-862 *)
  Definition JaccardDistant (d : string) (clim : vars da) (threshold lo hi : Qc) : statistic da :=
    climatology_statistic_r ("JaccardDistant" ++ "_threshold=" ++ fmt threshold ++ "_interval_low=" ++ fmt lo ++ "_interval_high=" ++ fmt hi)
      (fun p _ c => jaccard_var d threshold lo hi p c) clim.

  (** 865-end Opportunism *)
  Definition complement (a : da) : da := da_map (vsub (Fin 1)) a.
  Definition yes_no (yes : bool) (a : da) : da := if yes then a else complement a.
  Definition Opportunism (d : string) (clim : vars da) (is_confident : bool) (is_covered is_distant : option bool)
      (conf_lo conf_hi cov_lo cov_hi jac_lo jac_hi conf_threshold jac_threshold : Qc) : metric da :=
    per_variable_metric
      (("Confident", Confident d clim conf_lo conf_hi conf_threshold)
       :: match is_covered with Some _ => [("Covered", Covered d cov_lo cov_hi)] | None => [] end
       ++ match is_distant with Some _ => [("JaccardDistant", JaccardDistant d clim jac_threshold jac_lo jac_hi)] | None => [] end)
      (fun s =>
        do confident <- dgetE s "Confident";
        let v0 := yes_no is_confident confident in
        do v1 <- match is_covered with
                 | Some b => do covered <- dgetE s "Covered"; Ok (binop vmul v0 (yes_no b covered))
                 | None => Ok v0 end;
        match is_distant with
        | Some b => do distant <- dgetE s "JaccardDistant"; Ok (binop vmul v1 (yes_no b distant))
        | None => Ok v1 end).
End Names.
