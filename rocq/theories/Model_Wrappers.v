(** Model of weatherbenchX/metrics/wrappers.py: input transforms and wrapped statistics.
    float32 casts are not modelled; the [name] of an array is the key of its variable (xarray
    drops the name of a result of differently named operands; a Dataset of thresholds after such
    an operation would raise).  Rename, Select and StackToNewDimension (663-766) are in
    Model_Select.v. *)
From Coq Require Import String ZArith List Bool Reals.
Import ListNotations.
From Verif Require Import Prelude Values Model_XArray Model_MetricsBase Model_Calendar Model_Deterministic Model_Categorical Model_Ensemble.
Local Open Scope R_scope.
Local Open Scope string_scope.
Local Open Scope list_scope.

(** 90-111 InputTransform: which side(s), the name suffix, the function (of the variable's name
    and array). *)
Record transform := mkTransform { which : string; suffix : string; transform_fn : string -> da -> result da }.
(** 93-103: the constructor checks [which]. *)
Definition input_transform (w sfx : string) (f : string -> da -> result da) : result transform :=
  if memb w ["predictions"; "targets"; "both"] then Ok (mkTransform w sfx f) else Err ValueError.

(** Threshold arguments: an iterable of numbers (with the labels they have as a coordinate), an
    array, a Dataset. *)
Inductive thresholds := TList (vs : list (label * val)) | TArray (a : da) | TDataset (ds : vars da).
(** [xr.DataArray(vs, dims=[d], coords={d: vs})] *)
Definition threshold_array (d : string) (vs : list (label * val)) : da :=
  mkDa [(d, map fst vs)] (fun e => match dget vs (e d) with Some v => v | None => NaN end) [].
(** [Dataset.dims] *)
Definition dataset_dims (ds : vars da) : list string := flat_map (fun kv => dnames (snd kv)) ds.

(** 48-86 binarize_thresholds *)
Definition binarize (name : string) (x : da) (ts : thresholds) (d : string) : result da :=
  do th <- match ts with
           | TDataset ds =>
               if memb d (dataset_dims ds) then match dget ds name with Some a => Ok a | None => Err AssertionError end
               else Err AssertionError
           | TArray a => if memb d (dnames a) then Ok a else Err AssertionError
           | TList vs => Ok (threshold_array d vs)
           end;
  Ok (da_where_nan (binop (fun a b => b2v (vltb b a)) x th) (notnull x)).

(** ','.join *)
Fixpoint join_comma (l : list string) : string :=
  match l with
  | [] => EmptyString
  | [x] => x
  | x :: l' => (x ++ "," ++ join_comma l')%string
  end.

Section Names.
  (** [str(t)] of a number, [f'{t:.2f}'] of a coordinate label. *)
  Variable str : label -> string.
  Variable str2f : label -> string.

  (** 184-191 and 194-199, 358-364 and 367-372, 441-447 and 451-456: a suffix is required unless the thresholds are a list. *)
  Definition threshold_suffix (ts : thresholds) (sfx : option string) : result string :=
    match ts, sfx with
    | _, Some s => Ok s
    | TList vs, None => Ok (join_comma (map (fun p => str (fst p)) vs))
    | _, None => Err ValueError
    end.

  (** 149-202 ContinuousToBinary *)
  Definition ContinuousToBinary (w : string) (ts : thresholds) (d : string) (sfx : option string) : result transform :=
    do s <- threshold_suffix ts sfx;
    input_transform w (d ++ "=" ++ s) (fun name a => binarize name a ts d).

  (** 114-146 EnsembleMean (the suffix omits skip_if_missing) *)
  Definition EnsembleMean (w d : string) (skipna skip_if_missing : bool) : result transform :=
    input_transform w ("ensemble_mean_self._ensemble_dim='" ++ d ++ "'_self._skipna=" ++ bool_name skipna)
      (fun _ a => if negb (memb d (dnames a)) && skip_if_missing then Ok a else reduce (np_mean skipna) [d] a).

  (** ** 205-265 select_bin_thresholds_by_time_from_chunk *)
  (** Coordinates an index coordinate brings along. *)
  Definition index_aux (ds : list string) (a : da) : dict string coord :=
    filter (fun q => existsb (fun d => subsetb (c_dims (snd q)) [d]) ds) (aux a).
  Definition select_by_time (th chunk : da) : result da :=
    let il := ["init_time"; "lead_time"] in
    let ids ds := filter (fun p => memb (fst p) ds) (dims chunk) in
    let init e := time_value (e "init_time") in
    let valid e := time_value (e "valid_time") in
    if subsetb il (dnames chunk) then
      if memb "valid_time" (dnames th) then
        sel_points th (ids il) (index_aux il chunk) [("valid_time", fun e => LZ (init e + time_value (e "lead_time")))]
      else if subsetb il (dnames th) then
        sel_points th (ids il) (index_aux il chunk) [("init_time", fun e => e "init_time"); ("lead_time", fun e => e "lead_time")]
      else if subsetb ["dayofyear"; "lead_time"] (dnames th) then
        sel_points th (ids il) (index_aux il chunk) [("dayofyear", fun e => LZ (dayofyear (init e))); ("lead_time", fun e => e "lead_time")]
      else Ok th
    else if memb "valid_time" (dnames chunk) then
      if memb "valid_time" (dnames th) then
        sel_points th (ids ["valid_time"]) (index_aux ["valid_time"] chunk) [("valid_time", fun e => e "valid_time")]
      else if memb "dayofyear" (dnames th) then
        sel_points th (ids ["valid_time"]) (index_aux ["valid_time"] chunk) [("dayofyear", fun e => LZ (dayofyear (valid e)))]
      else Ok th
    else Ok th.

  (** ** 268-309 compute_cdf *)
  (** The label before [l] in a list. *)
  Fixpoint label_before (ls : list label) (l : label) : label :=
    match ls with
    | x :: ((y :: _) as ls') => if eqb y l then x else label_before ls' l
    | _ => l
    end.
  (** [a.diff(d)]: differences of neighbours, labelled by the upper one; ValueError if the
      dimension is missing. *)
  Definition da_diff (d : string) (a : da) : result da :=
    if memb d (dnames a) then
      let ls := labels_of (dims a) d in
      Ok (mkDa (map (fun p => if eqb (fst p) d then (fst p, tl (snd p)) else p) (dims a))
               (fun e => vsub (get a e) (get a (upd e d (label_before ls (e d))))) (aux a))
    else Err ValueError.
  (** [np.all(a > 0)] *)
  Definition all_positive (a : da) : bool := forallb (fun e => vltb (Fin 0) (get a e)) (envs (dims a) env0).
  Definition chosen_thresholds (name : string) (ts : thresholds) (a : da) (d : string) : result da :=
    match ts with
    | TDataset ds => do th <- dgetE ds name; select_by_time th a
    | TArray th => select_by_time th a
    | TList vs => Ok (threshold_array d vs)
    end.
  Definition compute_cdf (name : string) (ts : thresholds) (a : da) (d : string) (enforce right_inclusive : bool) : result da :=
    do th <- chosen_thresholds name ts a d;
    do ok <- (if enforce then do df <- da_diff d th; Ok (all_positive df) else Ok true);
    if ok then
      let cmp x t := if right_inclusive then vleb x t else vltb x t in
      Ok (da_where_nan (da_where_nan (binop (fun x t => b2v (cmp x t)) a th) (notnull a)) (notnull th))
    else Err ValueError.

  (** 312-396 ContinuousToBins: differences of the CDF; the bins are named after their edges
      with two decimals; the edges are kept as coordinates. *)
  Definition bin_name (l r : label) : label := LS (str2f l ++ " < p <= " ++ str2f r).
  Fixpoint neighbours {A} (ls : list A) : list (A * A) :=
    match ls with
    | x :: ((y :: _) as ls') => (x, y) :: neighbours ls'
    | _ => []
    end.
  (** [a.assign_coords({d: news})]: position by position. *)
  Definition relabel (d : string) (news : list label) (a : da) : da :=
    let back e := upd e d (nth (index_of (e d) news) (labels_of (dims a) d) (e d)) in
    mkDa (map (fun p => if eqb (fst p) d then (fst p, news) else p) (dims a))
         (fun e => get a (back e))
         (map (fun c => (fst c, mkCoord (c_dims (snd c)) (fun e => c_get (snd c) (back e)))) (aux a)).
  Definition to_bins (name : string) (a : da) (ts : thresholds) (d : string) (enforce : bool) : result da :=
    do cdf <- compute_cdf name ts a d enforce true;
    do labels <- dgetE (dims cdf) d;
    do df <- da_diff d cdf;
    let edges := neighbours labels in
    let names := map (fun lr => bin_name (fst lr) (snd lr)) edges in
    let r := relabel d names df in
    let edge (f : label * label -> label) := mkCoord [d] (fun e => nth (index_of (e d) names) (map f edges) (e d)) in
    Ok (mkDa (dims r) (get r) (dset (dset (aux r) (d ++ "_left")%string (edge fst)) (d ++ "_right")%string (edge snd))).
  Definition ContinuousToBins (w : string) (ts : thresholds) (d : string) (sfx : option string) (enforce : bool) : result transform :=
    do s <- threshold_suffix ts sfx;
    input_transform w ("ContinuousToBins_" ++ d ++ "_" ++ s) (fun name a => to_bins name a ts d enforce).

  (** 399-466 ContinuousToCDF *)
  Definition ContinuousToCDF (w : string) (ts : thresholds) (d : string) (sfx : option string) (enforce right_inclusive : bool) : result transform :=
    do s <- threshold_suffix ts sfx;
    input_transform w ("ContinuousToCDF_" ++ d ++ "_" ++ s ++ "_right_inclusive_" ++ bool_name right_inclusive)
      (fun name a => compute_cdf name ts a d enforce right_inclusive).

  (** 469-502 WeibullEnsembleToProbabilistic (the suffix omits all arguments) *)
  Definition Weibull (w d : string) (skipna : bool) : result transform :=
    if eqb w "predictions" then
      input_transform w "ensemble_to_probabilistic_by_weibull_plotting_position" (fun _ a =>
        do n <- size_of d a;
        do s <- reduce (np_sum skipna) [d] a;
        Ok (da_map (fun x => vdiv x (Fin (INR n + 1))) s))
    else Err AssertionError.

  (** 505-540 Inline *)
  Definition Inline (w : string) (f : da -> result da) (sfx : string) : result transform :=
    input_transform w sfx (fun _ a => f a).

  (** 543-563 ReLU *)
  Definition relu (a : da) : da :=
    da_where_nan (da_map (fun x => if vltb (Fin 0) x then x else Fin 0) a) (notnull a).
  Definition ReLU (w : string) : result transform := input_transform w "relu" (fun _ a => Ok (relu a)).

  (** 566-660 ShiftAlongNewDim: a list or a Dataset (an array argument is an iterable; not
      modelled). *)
  Definition shift (name : string) (a : da) (ts : thresholds) (d : string) : result da :=
    do sh <- match ts with
             | TDataset ds => do s <- dgetE ds name; if memb d (dnames s) then Ok s else Err RuntimeError
             | TArray s => Ok s
             | TList vs => Ok (threshold_array d vs)
             end;
    Ok (binop vadd a sh).
  Definition ShiftAlongNewDim (w : string) (ts : thresholds) (d sfx : string) : result transform :=
    input_transform w sfx (fun name a => shift name a ts d).
End Names.

(** ** 769-805 WrappedStatistic *)
(** map_structure over the variables of one side (no transform here is a nested structure) *)
Definition apply_transform (w : transform) (vs : vars da) : result (vars da) :=
  mapM (fun kv => do x <- transform_fn w (fst kv) (snd kv); Ok (fst kv, x)) vs.
Definition WrappedStatistic (s : statistic da) (w : transform) : statistic da :=
  mkStat (unique_name s ++ "_" ++ which w ++ "_" ++ suffix w) (fun p t =>
    do p' <- (if memb (which w) ["predictions"; "both"] then apply_transform w p else Ok p);
    do t' <- (if memb (which w) ["targets"; "both"] then apply_transform w t else Ok t);
    compute s p' t').
(** 808-824 RenamedStatistic *)
Definition RenamedStatistic (s : statistic da) (name : string) : statistic da := mkStat name (compute s).
(** 827-871 WrappedMetric: the transforms are wrapped in reverse order *)
Definition wrap_statistic (ts : list transform) (sfx : option string) (s : statistic da) : statistic da :=
  let w := fold_left WrappedStatistic (rev ts) s in
  match sfx with
  | Some x => RenamedStatistic w (unique_name s ++ "_" ++ x)
  | None => w
  end.
Definition WrappedMetric (m : metric da) (ts : list transform) (sfx : option string) : metric da :=
  mkMetric (map (fun ns => (fst ns, wrap_statistic ts sfx (snd ns))) (statistics m)) (values_from_mean_statistics m).

(** 874-901 SubselectVariablesForStatistic, 904-929 SubselectVariables *)
Definition subselect (variables : list string) (vs : vars da) : vars da := filter (fun kv => memb (fst kv) variables) vs.
Definition SubselectVariablesForStatistic (s : statistic da) (variables : list string) : statistic da :=
  mkStat (unique_name s ++ "_" ++ join_underscore variables) (fun p t => compute s (subselect variables p) (subselect variables t)).
Definition SubselectVariables (m : metric da) (variables : list string) : metric da :=
  mkMetric (map (fun ns => (fst ns, SubselectVariablesForStatistic (snd ns) variables)) (statistics m)) (values_from_mean_statistics m).
