(** Vocabulary for the relative economic value (Richardson 2000): a user who pays the cost r to
    protect himself against an event that would cost 1. *)
From Coq Require Import String ZArith QArith Qcanon Qreals List Bool Reals.
Import ListNotations.
From Verif Require Import Prelude Values Model_XArray Spec_XArray Model_MetricsBase Model_Aggregation Spec_Aggregator Spec_Beam Model_Calendar Model_Deterministic Model_Categorical Model_REV.
Local Open Scope R_scope.
Local Open Scope string_scope.
Local Open Scope list_scope.

(** Expenses with the shares of hits [tp], false alarms [fp] and misses [fn]: acting on the
    forecast, on perfect knowledge, and by the better of "always" and "never". *)
Definition expense (r tp fp fn : R) : R := r * (tp + fp) + fn.
Definition expense_perfect (r base : R) : R := r * base.
Definition expense_climate (r base : R) : R := Rmin r base.
(** The relative economic value: the fraction of the possible saving that is achieved. *)
Definition economic_value (r tp fp fn : R) (x : val) : Prop :=
  let saved := expense_climate r (tp + fn) - expense r tp fp fn in
  let possible := expense_climate r (tp + fn) - expense_perfect r (tp + fn) in
  (possible <> 0 -> x = Fin (saved / possible)) /\
  (possible = 0 -> x = if Rlt_dec 0 saved then PInf else if Rlt_dec saved 0 then NInf else NaN).

(** The probability thresholds of the arguments. *)
Definition thresholds_of (a : rev_args) (ts : list Qc) : Prop :=
  (exists n, ra_ensemble_size a = Some n /\ ra_thresholds a = None /\ ts = ensemble_thresholds n) \/
  (ra_ensemble_size a = None /\ ra_thresholds a = Some ts).

(** The decision at the threshold with label [l] for the forecast probability [x]: always act at
    threshold 0, never at threshold 1, else act if the probability exceeds the threshold. *)
Definition acts (l : label) (x : val) : bool :=
  if eqb l (LQ 0) then true else if eqb l (LQ 1) then false
  else match l with LQ q => vltb (Fin (Q2R (this q))) x | _ => false end.
(** [y] are the decisions at the thresholds [ts] for the probabilities [x]: 1, 0, or NaN. *)
Definition decisions (ts : list Qc) (x y : da) : Prop :=
  dims y = dims x ++ [("threshold", map LQ ts)] /\
  forall e q, e "threshold" = LQ q -> In q ts ->
    get y e = if isnan (get x e) then NaN else if vltb (Fin (Q2R (this q))) (get x e) then Fin 1 else Fin 0.
(** The sample belonging to a threshold; the shares of the constant decisions are taken from the
    sample of the first threshold. *)
Definition sample_point (ts : list Qc) (e : env) : env :=
  if memb (e "threshold") (map LQ ts) then e
  else match ts with first :: _ => upd e "threshold" (LQ first) | [] => e end.

(** The setting: the probabilities [pv] and events [tv] of the variable [v], the decisions [y],
    and a weighted aggregation (weights [ws], bins [ms]) whose points count as described by
    [wrs] and [bs] (see Spec_Aggregator).  The thresholds differ from each other and from 0 and
    1, and the new dimensions are not in use. *)
Record rev_case (g : aggregator) (a : rev_args) (ts : list Qc) (p t : vars da) (v : string) (pv tv y : da)
    (s : env -> R) (ws : list da) (wrs : list (env -> R)) (ms : list da) (bs : list (env -> bool)) : Prop := {
  rc_thresholds : thresholds_of a ts;
  rc_distinct : NoDup (LQ 0 :: map LQ ts ++ [LQ 1]);
  rc_ratios : NoDup (map fst (ra_ratios a));
  rc_vars : NoDup (keys p);
  rc_predictions : dget p v = Some pv;
  rc_targets : dget t v = Some tv;
  rc_wf : wf pv /\ wf tv /\ wf y;
  rc_coords : NoDup (keys (aux pv)) /\ NoDup (keys (aux tv)) /\ aux y = aux pv;
  rc_new : forall w, In w (pv :: tv :: ws ++ ms) -> ~ In "threshold" (dnames w) /\ ~ In "cost_loss_ratio" (dnames w);
  rc_decisions : decisions ts pv y;
  rc_input : weighted_input g (contingency andb y tv) s ws wrs ms bs;
  rc_mask : mask_local (contingency andb y tv);
  rc_weights : forall r, In r wrs -> forall q, 0 <= r q }.

(** 1 where [f] holds of the decision at the threshold [l] and the event, else 0. *)
Definition outcome (pv tv : da) (l : label) (f : bool -> bool -> bool) (q : env) : R :=
  if f (acts l (get pv q)) (vtruthy (get tv q)) then 1 else 0.
Definition hit (d e : bool) : bool := d && e.
Definition false_alarm (d e : bool) : bool := d && negb e.
Definition miss (d e : bool) : bool := negb d && e.
(** 1 where the event happens. *)
Definition event (tv : da) (q : env) : R := if vtruthy (get tv q) then 1 else 0.

(** The optimal thresholds given for the variable [v]. *)
Definition optimal_for (o : optimal) (v : string) (x : label_array) : Prop :=
  match o with OptArray y => x = y | OptMapping m => dget m v = Some x end.
Definition without_optimal (a : rev_args) : rev_args :=
  mkRev (ra_ensemble_size a) (ra_thresholds a) (ra_ratios a) None (ra_nearest a) (ra_suffix a).
(** The number a label stands for. *)
Definition number (l : label) : Q := match l with LQ q => this q | LZ z => inject_Z z | _ => 0%Q end.
(** [l] is the label chosen from [ls] for the wanted label [w]: itself, or a nearest one. *)
Definition chosen (nearest : bool) (ls : list label) (w l : label) : Prop :=
  In l ls /\ if nearest then forall l', In l' ls -> (Qabs.Qabs (number l - number w) <= Qabs.Qabs (number l' - number w))%Q else l = w.
