(** Model of weatherbenchX/metrics/probabilistic.py 883-1180: RelativeEconomicValue. *)
From Coq Require Import String ZArith QArith Qcanon Qreals List Bool Reals.
Import ListNotations.
From Verif Require Import Prelude Values Model_XArray Model_MetricsBase Model_Deterministic Model_Categorical Model_Wrappers Model_Latency.
Local Open Scope R_scope.
Local Open Scope string_scope.
Local Open Scope list_scope.

(** An array of threshold labels (for each cost/loss ratio, and possibly other dimensions). *)
Record label_array := mkLabels { l_dims : dimlist; l_get : env -> label }.
Inductive optimal := OptArray (o : label_array) | OptMapping (m : dict string label_array).
(** 959-968: arguments of the constructor.  Probability thresholds are rationals (NaN thresholds
    are not modelled); the cost/loss ratios are labelled numbers (the default, a geometric
    progression, is one such list). *)
Record rev_args := mkRev {
  ra_ensemble_size : option Z;
  ra_thresholds : option (list Qc);
  ra_ratios : list (label * R);
  ra_optimal : option optimal;
  ra_nearest : bool;
  ra_suffix : option string }.

(** 1035-1036: (np.arange(n) + 0.5) / n *)
Definition ensemble_thresholds (n : Z) : list Qc :=
  map (fun k => Q2Qc ((inject_Z (Z.of_nat k) + (1 # 2)) / inject_Z n)%Q) (seq 0 (Z.to_nat n)).
(** 1009-1045 *)
Definition rev_thresholds (a : rev_args) : result (list Qc * string) :=
  match ra_ensemble_size a, ra_thresholds a with
  | None, None => Err ValueError
  | Some _, Some _ => Err ValueError
  | Some n, None => Ok (ensemble_thresholds n, match ra_suffix a with Some s => s | None => "all_thresholds_for_ensemble_size" end)
  | None, Some ts =>
      match ra_suffix a with
      | None => Err ValueError
      | Some s => if forallb (fun t : Qc => Qle_bool 0 (this t) && Qle_bool (this t) 1) ts then Ok (ts, s) else Err ValueError
      end
  end.
(** 1047-1064 *)
Definition optimal_arrays (o : optimal) : list label_array := match o with OptArray x => [x] | OptMapping m => values m end.
Definition rev_optimal_ok (a : rev_args) : bool :=
  match ra_optimal a with
  | None => true
  | Some o => forallb (fun x => match dget (l_dims x) "cost_loss_ratio" with
                                | Some ls => if list_eq_dec (fun u v => eq_dec u v) ls (map fst (ra_ratios a)) then true else false
                                | None => false end) (optimal_arrays o)
  end.

(** [a.isel(d=0, drop=True)] *)
Definition isel_first (d : string) (a : da) : result da :=
  match dget (dims a) d with
  | None => Err ValueError
  | Some [] => Err IndexError
  | Some (l :: _) =>
      Ok (mkDa (filter (fun p => negb (eqb (fst p) d)) (dims a)) (fun e => get a (upd e d l))
               (map (fun c => (fst c, mkCoord (filter (fun x => negb (eqb x d)) (c_dims (snd c))) (fun e => c_get (snd c) (upd e d l)))) (aux a)))
  end.
(** [a.expand_dims(d=[l])] *)
Definition expand (d : string) (l : label) (a : da) : da := mkDa ((d, [l]) :: dims a) (get a) (aux a).
(** 1092-1116 _add_constant_threshold_results *)
Definition l0 : label := LQ (Q2Qc 0).
Definition l1 : label := LQ (Q2Qc 1).
Definition add_constant_thresholds (tp fp fn : da) : result (da * da * da) :=
  do tp0 <- isel_first "threshold" tp;
  do fn0 <- isel_first "threshold" fn;
  let base_rate := binop vadd tp0 fn0 in
  let zero := da_map (fun _ => Fin 0) base_rate in
  let at_ x l := expand "threshold" l x in
  do tp' <- concat "threshold" [at_ base_rate l0; tp; at_ zero l1];
  do fp' <- concat "threshold" [at_ (da_map (vsub (Fin 1)) base_rate) l0; fp; at_ zero l1];
  do fn' <- concat "threshold" [at_ zero l0; fn; at_ base_rate l1];
  Ok (tp', fp', fn').

(** pandas' nearest label: ValueError unless the labels are strictly increasing; of two equally
    near labels the larger. *)
Definition lq (l : label) : Q := match l with LQ q => this q | LZ z => inject_Z z | _ => 0%Q end.
Definition nearer (l a b : label) : label :=
  if Qle_bool (Qabs.Qabs (lq b - lq l)) (Qabs.Qabs (lq a - lq l)) then b else a.
Definition nearest_label (ls : list label) (l : label) : label :=
  match ls with [] => l | x :: ls' => fold_left (nearer l) ls' x end.
Definition increasing_labels (ls : list label) : bool :=
  forallb (fun ab => negb (Qle_bool (lq (snd ab)) (lq (fst ab)))) (neighbours ls).
(** 883-936 _select_optimal_thresholds.  That the labels of dimensions the indexer shares with
    the values agree is not checked; the jax branch computes the same. *)
Definition select_optimal (near : bool) (values : da) (o : label_array) : result da :=
  let ls := labels_of (dims values) "threshold" in
  if near && negb (increasing_labels ls) then Err ValueError else
  let pick := if near then nearest_label ls else fun l => l in
  sel_points values (l_dims o) [] [("threshold", fun e => pick (l_get o e))].

(** numpy minimum *)
Definition vmin (x y : val) : val :=
  match x, y with
  | NaN, _ => NaN | _, NaN => NaN
  | _, _ => if vleb x y then x else y
  end.
(** 1133-1180 *)
Definition rev_formula (ratio tp fp fn : da) : da :=
  let pred_cost := binop vadd (binop vmul ratio (binop vadd tp fp)) fn in
  let perf_cost := binop vmul ratio (binop vadd tp fn) in
  let clim_cost := binop vmin ratio (binop vadd tp fn) in
  binop vdiv (binop vsub clim_cost pred_cost) (binop vsub clim_cost perf_cost).
Definition rev_values (a : rev_args) (var_name : string) (s : dict string da) : result da :=
  do tp <- dgetE s "TruePositives"; do fp <- dgetE s "FalsePositives"; do fn <- dgetE s "FalseNegatives";
  do c <- add_constant_thresholds tp fp fn;
  let '(tp, fp, fn) := c in
  do c' <- match ra_optimal a with
           | None => Ok (tp, fp, fn)
           | Some o =>
               do x <- match o with OptArray x => Ok x | OptMapping m => dgetE m var_name end;
               do tp' <- select_optimal (ra_nearest a) tp x;
               do fp' <- select_optimal (ra_nearest a) fp x;
               do fn' <- select_optimal (ra_nearest a) fn x;
               Ok (tp', fp', fn')
           end;
  let '(tp, fp, fn) := c' in
  Ok (rev_formula (threshold_array "cost_loss_ratio" (map (fun lr => (fst lr, Fin (snd lr))) (ra_ratios a))) tp fp fn).

(** 1108-1131: like base.PerVariableMetric, with the name of the variable. *)
Definition named_metric (stats : dict string (statistic da)) (f : string -> dict string da -> result da) : metric da :=
  mkMetric stats (fun vals =>
    do tables <- mapM (fun s => dgetE vals s) (keys stats);
    match tables with
    | [] => Err TypeError
    | t0 :: ts =>
        let common := filter (fun v => forallb (fun t => memb v (keys t)) ts) (keys t0) in
        mapM (fun v =>
          do per_var <- mapM (fun s => do t <- dgetE vals s; do x <- dgetE t v; Ok (s, x)) (keys stats);
          do x <- f v per_var; Ok (v, x)) common
    end).
(** 1069-1090 *)
Definition threshold_values (ts : list Qc) : list (label * val) := map (fun q => (LQ q, Fin (Q2R (this q)))) ts.
Definition RelativeEconomicValue (a : rev_args) : result (metric da) :=
  do ts <- rev_thresholds a;
  if rev_optimal_ok a then
    do binarize <- ContinuousToBinary (fun _ => "") "predictions" (TList (threshold_values (fst ts))) "threshold" (Some (snd ts));
    Ok (named_metric (map (fun ns => (fst ns, WrappedStatistic (snd ns) binarize)) [tp_; tn_; fp_; fn_]) (rev_values a))
  else Err ValueError.
