(** Model of weatherbenchX/metrics/probabilistic.py: ensemble statistics and metrics.
    float32 casts are not modelled. *)
From Coq Require Import String ZArith List Bool Reals.
Import ListNotations.
From Verif Require Import Prelude Values Model_XArray Model_MetricsBase Model_Deterministic Model_Categorical.
Local Open Scope R_scope.
Local Open Scope string_scope.
Local Open Scope list_scope.

(** ** numpy reductions of one list of values *)
Definition valid (vs : list val) : list val := filter (fun v => negb (isnan v)) vs.
(** [skipna=True] ignores NaNs. *)
Definition np_sum (skipna : bool) (vs : list val) : val := vsum (if skipna then valid vs else vs).
Definition np_count (vs : list val) : val := Fin (INR (length (valid vs))).
Definition np_mean (skipna : bool) (vs : list val) : val :=
  let xs := if skipna then valid vs else vs in vdiv (vsum xs) (Fin (INR (length xs))).
(** [var(ddof=1)]: numpy divides by max(n - 1, 0), so that fewer than two values give NaN. *)
Definition np_var (skipna : bool) (vs : list val) : val :=
  let xs := if skipna then valid vs else vs in
  let m := np_mean false xs in
  vdiv (vsum (map (fun x => vsq (vsub x m)) xs)) (Fin (INR (length xs - 1))).

(** xarray's [a.<reduction>(dim=D)]: ValueError if a dimension is missing. *)
Definition reduce (f : list val -> val) (D : list string) (a : da) : result da :=
  if subsetb D (dnames a) then
    Ok (mkDa (keep (fun d => negb (memb d D)) (dims a))
             (fun e => f (map (get a) (envs (keep (fun d => memb d D) (dims a)) e)))
             (aux_without D (aux a)))
  else Err ValueError.

(** [a.rename({d: d2})]: ValueError if [d] is unknown or [d2] is taken. *)
Definition rename_dim (d d2 : string) (a : da) : result da :=
  if negb (memb d (dnames a)) || memb d2 (dnames a) || memb d2 (keys (aux a)) then Err ValueError
  else Ok (mkDa (map (fun p => (if eqb (fst p) d then d2 else fst p, snd p)) (dims a))
                (fun e => get a (upd e d (e d2)))
                (map (fun c => (fst c, mkCoord (map (fun n => if eqb n d then d2 else n) (c_dims (snd c)))
                                               (fun e => c_get (snd c) (upd e d (e d2))))) (aux a))).

(** [a.sizes[d]]: KeyError if missing *)
Definition size_of (d : string) (a : da) : result nat :=
  match dget (dims a) d with Some ls => Ok (length ls) | None => Err KeyError end.

(** 35-69 EnsembleAveragedStatistic (the name omits skipna) *)
Definition map_vars (f : da -> result da) (vs : vars da) : result (vars da) :=
  mapM (fun kv => do x <- f (snd kv); Ok (fst kv, x)) vs.
Definition EnsembleAveragedStatistic (d : string) (skipna : bool) (s : statistic da) : statistic da :=
  mkStat (unique_name s ++ "_each_" ++ d) (fun p t =>
    do st <- compute s p t; map_vars (reduce (np_mean skipna) [d]) st).
(** 72-113 EnsembleAveragedMetric *)
Definition EnsembleAveragedMetric (d : string) (skipna : bool) (m : metric da) : metric da :=
  mkMetric (map (fun ns => (fst ns, EnsembleAveragedStatistic d skipna (snd ns))) (statistics m)) (values_from_mean_statistics m).

(** 116-145 CRPSSkill (the name omits skipna) *)
Definition crps_skill_var (d : string) (skipna : bool) (p t : da) : result da :=
  if memb d (dnames t) then
    let d2 := (d ++ "_PSEUDO_FOR_TARGETS")%string in
    do t' <- rename_dim d d2 t;
    reduce (np_mean skipna) [d; d2] (da_map vabs (binop vsub p t'))
  else reduce (np_mean skipna) [d] (da_map vabs (binop vsub p t)).
Definition CRPSSkill (d : string) (skipna : bool) : statistic da :=
  per_variable_statistic ("CRPSSkill_" ++ d) (fun p t => do r <- crps_skill_var d skipna p t; Ok (Some r)).

Section Argsort.
  (** [np.argsort]: the indices that sort a list; the order of ties is unspecified. *)
  Variable argsort : list val -> list nat.

  Fixpoint index_of {A} `{EqDec A} (x : A) (l : list A) : nat :=
    match l with [] => O | y :: l' => if eq_dec x y then O else S (index_of x l') end.

  (** 148-162 _rankdata, _rank_da: the element at position j[k] gets rank k+1. *)
  Definition rank_at (vs : list val) (i : nat) : nat := S (index_of i (argsort vs)).
  Definition rank_da (d : string) (a : da) : da :=
    mkDa (dims a) (fun e => let ls := labels_of (dims a) d in
                            Fin (INR (rank_at (map (fun l => get a (upd e d l)) ls) (index_of (e d) ls)))) (aux a).

  Definition fair1 (fair : bool) : R := if fair then 1 else 0.

  (** 165-247 CRPSSpread (the name omits use_sort and skipna) *)
  Definition spread_pairs (d : string) (fair skipna : bool) (da0 : da) (n : da) : result da :=
    let d2 := "ensemble_dim_2" in
    if eqb d d2 then Err ValueError else
    do da2 <- rename_dim d d2 da0;
    do s <- reduce (np_sum skipna) [d; d2] (da_map vabs (binop vsub da0 da2));
    Ok (binop vdiv s (binop vmul n (da_map (fun x => vsub x (Fin (fair1 fair))) n))).
  Definition spread_sorted (d : string) (fair : bool) (a : da) (n : nat) : result da :=
    let r := da_map (fun x => vsub (vsub (vmul (Fin 2) x) (Fin (INR n))) (Fin 1)) (rank_da d a) in
    do m <- reduce (np_mean false) [d] (binop vmul r a);
    Ok (da_map (fun x => vdiv (vmul (Fin 2) x) (Fin (INR n - fair1 fair))) m).
  Definition crps_spread_var (d : string) (use_sort fair : bool) (which : string) (skipna : bool) (p t : da) : result da :=
    do a <- (if eqb which "predictions" then Ok p else if eqb which "targets" then Ok t else Err ValueError);
    if skipna then
      do n <- reduce np_count [d] a;
      if use_sort then Err ValueError else spread_pairs d fair true a n
    else
      do n <- size_of d a;
      if Nat.ltb n 2 then Err ValueError else
      if use_sort then spread_sorted d fair a n else spread_pairs d fair false a (scalar (Fin (INR n))).
  Definition CRPSSpread (d : string) (use_sort fair : bool) (which : string) (skipna : bool) : statistic da :=
    per_variable_statistic ("CRPSSpread_" ++ d ++ "_" ++ (if fair then "fair" else "unfair") ++ "_" ++ which)
      (fun p t => do r <- crps_spread_var d use_sort fair which skipna p t; Ok (Some r)).

  (** 483-565 CRPSEnsemble *)
  Definition CRPSEnsemble (d : string) (use_sort fair skipna : bool) : metric da :=
    per_variable_metric [("CRPSSkill", CRPSSkill d skipna); ("CRPSSpread", CRPSSpread d use_sort fair "predictions" skipna)]
      (fun s => do sk <- dgetE s "CRPSSkill"; do sp <- dgetE s "CRPSSpread";
                Ok (binop vsub sk (da_map (vmul (Fin (1/2))) sp))).
  (** 568-659 CRPSEnsembleDistance: skipna is passed on to the spread of the predictions only. *)
  Definition CRPSEnsembleDistance (d : string) (use_sort fair skipna : bool) : metric da :=
    per_variable_metric [("CRPSSkill", CRPSSkill d false); ("CRPSSpread", CRPSSpread d use_sort fair "predictions" skipna);
                         ("CRPSTargetSpread", CRPSSpread d use_sort fair "targets" false)]
      (fun s => do sk <- dgetE s "CRPSSkill"; do sp <- dgetE s "CRPSSpread"; do ts <- dgetE s "CRPSTargetSpread";
                Ok (binop vsub (binop vsub sk (da_map (vmul (Fin (1/2))) sp)) (da_map (vmul (Fin (1/2))) ts))).
End Argsort.

Definition bool_name (b : bool) : string := if b then "True" else "False".
(** 250-273 EnsembleVariance *)
Definition EnsembleVariance (d : string) (skipna : bool) : statistic da :=
  per_variable_statistic ("EnsembleVariance_" ++ d ++ "_skipna_ensemble_" ++ bool_name skipna)
    (fun p t => do r <- reduce (np_var skipna) [d] p; Ok (Some r)).

(** 276-336 UnbiasedEnsembleMeanSquaredError *)
Definition ensemble_bias (d : string) (skipna : bool) (a : da) : result (da * da) :=
  do m <- reduce (np_mean skipna) [d] a;
  do v <- reduce (np_var skipna) [d] a;
  if skipna then do n <- reduce np_count [d] a; Ok (m, binop vdiv v n)
  else do n <- size_of d a; Ok (m, da_map (fun x => vdiv x (Fin (INR n))) v).
Definition unbiased_mse_var (d : string) (skipna : bool) (p t : da) : result da :=
  if memb d (dnames p) then
    do pb <- ensemble_bias d skipna p;
    do tb <- (if memb d (dnames t) then ensemble_bias d skipna t else Ok (t, scalar (Fin 0)));
    Ok (binop vsub (binop vsub (da_map vsq (binop vsub (fst pb) (fst tb))) (snd pb)) (snd tb))
  else Err ValueError.
Definition UnbiasedEnsembleMeanSquaredError (d : string) (skipna : bool) : statistic da :=
  per_variable_statistic ("UnbiasedEnsembleMeanSquaredError_" ++ d ++ "_skipna_ensemble_" ++ bool_name skipna)
    (fun p t => do r <- unbiased_mse_var d skipna p t; Ok (Some r)).

(** 741-771 UnbiasedEnsembleMeanRMSE *)
Definition UnbiasedEnsembleMeanRMSE (d : string) (skipna : bool) : metric da :=
  per_variable_metric [("UnbiasedEnsembleMeanSquaredError", UnbiasedEnsembleMeanSquaredError d skipna)]
    (fun s => do x <- dgetE s "UnbiasedEnsembleMeanSquaredError"; Ok (da_map vsqrt x)).
(** 782-844 UnbiasedSpreadSkillRatio *)
Definition UnbiasedSpreadSkillRatio (d : string) (skipna : bool) : metric da :=
  per_variable_metric [("EnsembleVariance", EnsembleVariance d skipna);
                       ("UnbiasedEnsembleMeanSquaredError", UnbiasedEnsembleMeanSquaredError d skipna)]
    (fun s => do v <- dgetE s "EnsembleVariance"; do x <- dgetE s "UnbiasedEnsembleMeanSquaredError";
              Ok (da_map vsqrt (binop vdiv v x))).
(** 847-880 EnsembleRootMeanVariance *)
Definition EnsembleRootMeanVariance (d : string) (skipna : bool) : metric da :=
  per_variable_metric [("EnsembleVariance", EnsembleVariance d skipna)]
    (fun s => do x <- dgetE s "EnsembleVariance"; Ok (da_map vsqrt x)).

(** 713-738 EnsembleErrorExceedance: mean over the members with the default skipna=True; the
    name is that of ErrorExceedance. *)
Definition EnsembleErrorExceedance (thresholds : da) (d : string) : statistic da :=
  per_variable_statistic "ErrorExceedance"
    (fun p t => do r <- reduce (np_mean true) [d] (exceedance_var thresholds p t); Ok (Some r)).

(** 1183-1220 RankHistogram *)
Definition rank_histogram_var (d : string) (p t : da) : result da :=
  do n <- size_of d p;
  do ranks <- reduce (np_sum false) [d] (binop (fun x y => b2v (vltb x y)) p t);
  let categories := mkDa [("rank", map (fun k => LZ (Z.of_nat k)) (seq 0 (S n)))]
                         (fun e => match e "rank" with LZ z => Fin (IZR z) | _ => NaN end) [] in
  Ok (binop (fun x y => b2v (veqb x y)) ranks categories).
Definition RankHistogram (d : string) : statistic da :=
  per_variable_statistic ("RankHistogram_" ++ d) (fun p t => do r <- rank_histogram_var d p t; Ok (Some r)).
