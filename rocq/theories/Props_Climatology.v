(** C59: statistics with a climatology read it at the forecast's valid time. *)
From Coq Require Import String ZArith List Bool Reals Lia.
Import ListNotations.
From Verif Require Import Prelude Values Model_XArray Spec_XArray Proofs_XArray Model_MetricsBase Model_Calendar Model_Deterministic
  Spec_Binning Spec_Calendar Spec_Loaders Model_Binning Proofs_Loaders Props_TimeBins Spec_Climatology Proofs_Climatology Proofs_Deterministic Spec_Statistic.
Local Open Scope string_scope.
Local Open Scope list_scope.

Lemma statistic_clim name f clim p t v pv tv cv st : NoDup (keys p) -> dget p v = Some pv -> dget t v = Some tv -> dget clim v = Some cv ->
  statistic_value (climatology_statistic name f clim) p t v st -> exists c, align_climatology pv cv = Ok c /\ st = f pv tv c.
Proof.
  intros N Hp Ht Hc (raw & H & G). apply clim_compute in H; auto. destruct H as [_ H]. apply H in G. destruct G as (pv' & tv' & cv' & c & A & B & C & D & ->).
  exists c. assert (pv' = pv) as <- by congruence. assert (tv' = tv) as <- by congruence. assert (cv' = cv) as <- by congruence. auto.
Qed.
(** [c]: the climatology's value at the point that belongs to [e] and the time the forecast is
    valid at. *)
Theorem C59_anomalies : forall clim p t v pv tv cv sp st cov e T e',
  NoDup (keys p) -> dget p v = Some pv -> dget t v = Some tv -> dget clim v = Some cv -> wf cv ->
  statistic_value (SquaredPredictionAnomaly clim) p t v sp ->
  statistic_value (SquaredTargetAnomaly clim) p t v st ->
  statistic_value (AnomalyCovariance clim) p t v cov ->
  forecast_time pv e T -> climatology_point cv e T e' ->
  let c := get cv e' in
  get sp e = vmul (vsub (get pv e) c) (vsub (get pv e) c) /\
  get st e = vmul (vsub (get tv e) c) (vsub (get tv e) c) /\
  get cov e = vmul (vsub (get pv e) c) (vsub (get tv e) c).
Proof.
  intros clim p t v pv tv cv sp st cov e T e' N Hp Ht Hc W H1 H2 H3 HT HC c.
  destruct (statistic_clim _ _ _ _ _ _ _ _ _ _ N Hp Ht Hc H1) as (c1 & A1 & ->).
  destruct (statistic_clim _ _ _ _ _ _ _ _ _ _ N Hp Ht Hc H2) as (c2 & A2 & ->).
  destruct (statistic_clim _ _ _ _ _ _ _ _ _ _ N Hp Ht Hc H3) as (c3 & A3 & ->).
  cbn [get da_map binop]. unfold vsq. rewrite (aligned_value _ _ _ _ _ _ W A1 HT HC), (aligned_value _ _ _ _ _ _ W A2 HT HC), (aligned_value _ _ _ _ _ _ W A3 HT HC). auto.
Qed.
Print Assumptions C59_anomalies.
(** The point of the climatology exists for every time, and its value is unique. *)
Theorem C59_one_point : forall c e T, (exists e', climatology_point c e T e') /\
  forall e1 e2, wf c -> climatology_point c e T e1 -> climatology_point c e T e2 -> get c e1 = get c e2.
Proof.
  intros c e T. split; [apply climatology_point_exists|]. intros e1 e2 W H1 H2. apply W. intros d _.
  destruct H1 as [? A1 S1|? ? A1 B1 S1|? ? A1 S1], H2 as [? A2 S2|? ? A2 B2 S2|? ? A2 S2]; try contradiction.
  - destruct (string_dec d "time") as [->|Nd]; [congruence|]. rewrite S1, S2; auto; intros [K|[]]; congruence.
  - apply doy_value in A1, A2. apply hour_value in B1, B2. destruct (string_dec d "dayofyear") as [->|Nd]; [congruence|]. destruct (string_dec d "hour") as [->|Nd']; [congruence|].
    rewrite S1, S2; auto; intros [K|[K|[]]]; congruence.
  - apply doy_value in A1, A2. destruct (string_dec d "dayofyear") as [->|Nd]; [congruence|]. rewrite S1, S2; auto; intros [K|[]]; congruence.
Qed.
Print Assumptions C59_one_point.

(** The aligned climatology that C23 speaks of is a well-formed array with these values. *)
Theorem C59_aligned : forall pv cv c, wf pv -> coords_local pv -> wf cv -> align_climatology pv cv = Ok c ->
  wf c /\ forall e T e', forecast_time pv e T -> climatology_point cv e T e' -> get c e = get cv e'.
Proof.
  intros pv cv c W HL Wc H. split; [|intros e T e' HT HC; exact (aligned_value _ _ _ _ _ _ Wc H HT HC)].
  assert (exists r, valid_time_of pv = Ok r) as [[ids f] E]. { unfold align_climatology in H. destruct (valid_time_of pv); [eauto|discriminate]. }
  destruct (valid_time_dims _ _ _ W HL E) as (A & B & C). rewrite (align_idx _ _ _ _ E) in H. eapply sel_points_answers; [exact Wc|exact A| | |exact H].
  - intros d ls I. apply In_dget in I; auto. apply B, dget_In in I. now apply (proj1 (proj2 W)) in I.
  - intros d g I e e' K. unfold clim_idx in I. destruct (coord_of cv "time"); [|destruct (coord_of cv "hour")];
      repeat match goal with I : In _ (_ :: _) |- _ => destruct I as [[= <- <-]|I] | I : In _ [] |- _ => destruct I end; now rewrite (C e e' K).
Qed.
Print Assumptions C59_aligned.

(** ** Errors *)
(** The three statistics are computed exactly when every predicted variable has targets and a
    climatology, the forecast has its times and the climatology has all of them; otherwise
    nothing is computed. *)
Lemma clim_defined name f clim p t : NoDup (keys p) ->
  ((exists raw, compute (climatology_statistic name f clim) p t = Ok raw) <->
   forall v pv, dget p v = Some pv -> exists tv cv c, dget t v = Some tv /\ dget clim v = Some cv /\ align_climatology pv cv = Ok c).
Proof.
  intros N. split.
  - intros [raw H] v pv G. apply clim_compute in H; auto. destruct H as [K H]. assert (exists st, dget raw v = Some st) as [st Gs].
    { destruct (dget raw v) eqn:E; [eauto|]. apply dget_None in E. rewrite K in E. exfalso. apply E, (dget_Some_keys _ _ G). }
    apply H in Gs. destruct Gs as (pv' & tv & cv & c & A & B & C & D & _). assert (pv' = pv) as <- by congruence. eauto 7.
  - intros H. cbn [compute climatology_statistic]. assert (exists cs, mapM (fun k => dgetE clim k) (keys p) = Ok cs) as [cs ->].
    { apply Proofs_AggState.mapM_total. intros k Hk. apply in_map_iff in Hk. destruct Hk as ([k' pv] & <- & I). destruct (H k' pv (In_dget _ _ _ N I)) as (tv & cv & c & _ & C & _).
      exists cv. unfold dgetE. cbn [fst]. now rewrite C. }
    cbn [bind]. apply Proofs_AggState.mapM_total. intros [k pv] I. destruct (H k pv (In_dget _ _ _ N I)) as (tv & cv & c & B & C & D). cbn [fst snd]. unfold dgetE. rewrite B, C. cbn [bind]. rewrite D. cbn [bind]. eauto.
Qed.
Theorem C59_defined : forall s clim p t, In s [SquaredPredictionAnomaly clim; SquaredTargetAnomaly clim; AnomalyCovariance clim] -> NoDup (keys p) ->
  (forall v pv, dget p v = Some pv -> wf pv /\ coords_local pv /\ stamps pv /\ forall d ls, In (d, ls) (dims pv) -> ls <> []) ->
  ((exists raw, compute s p t = Ok raw) <->
   forall v pv, dget p v = Some pv -> exists tv cv, dget t v = Some tv /\ dget clim v = Some cv /\ has_times pv /\
     forall e T e', point_of (dims pv) e -> forecast_time pv e T -> climatology_point cv e T e' -> in_climatology cv e').
Proof.
  intros s clim p t Hs N HP. assert ((exists raw, compute s p t = Ok raw) <->
   forall v pv, dget p v = Some pv -> exists tv cv c, dget t v = Some tv /\ dget clim v = Some cv /\ align_climatology pv cv = Ok c) as ->.
  { destruct Hs as [<-|[<-|[<-|[]]]]; apply clim_defined; auto. }
  split; intros H v pv G; destruct (HP v pv G) as (W & L & S & E).
  - destruct (H v pv G) as (tv & cv & c & A & B & C). exists tv, cv. split; auto. split; auto. apply aligned_defined; eauto.
  - destruct (H v pv G) as (tv & cv & A & B & C). apply (aligned_defined pv cv W L S E) in C. destruct C as [c C]. eauto 7.
Qed.
Print Assumptions C59_defined.
(** Which error, for one variable. *)
Lemma clim_error s clim v pv t x : In s [SquaredPredictionAnomaly clim; SquaredTargetAnomaly clim; AnomalyCovariance clim] ->
  compute s [(v, pv)] t = Err x ->
  x = if dget clim v then if dget t v then if valid_time_of pv then KeyError else ValueError else KeyError else KeyError.
Proof.
  intros Hs H. assert (exists name f, s = climatology_statistic name f clim) as (name & f & ->) by (destruct Hs as [<-|[<-|[<-|[]]]]; eexists _, _; reflexivity).
  cbn [compute climatology_statistic keys map fst mapM snd] in H. unfold dgetE in H. destruct (dget clim v) as [cv|]; cbn [bind] in H; [|congruence].
  destruct (dget t v) as [tv|]; cbn [bind] in H; [|congruence]. destruct (align_climatology pv cv) as [c|y] eqn:A; cbn [bind] in H; [discriminate|].
  apply align_error in A. assert (y = x) as -> by congruence. destruct A as [A1 A2]. destruct (valid_time_of pv) as [r|] eqn:E.
  - apply A1, valid_time_defined. eauto.
  - apply A2. intros K. apply valid_time_defined in K. destruct K. congruence.
Qed.
Theorem C59_errors : forall s clim v pv t x, In s [SquaredPredictionAnomaly clim; SquaredTargetAnomaly clim; AnomalyCovariance clim] ->
  compute s [(v, pv)] t = Err x ->
  (dget clim v = None \/ dget t v = None \/ has_times pv -> x = KeyError) /\
  (dget clim v <> None -> dget t v <> None -> ~ has_times pv -> x = ValueError).
Proof.
  intros s clim v pv t x Hs H. apply (clim_error _ _ _ _ _ _ Hs) in H. pose proof (valid_time_defined pv) as D. split.
  - intros [E|[E|E]]; rewrite H; [now rewrite E|rewrite E; now destruct (dget clim v)|]. apply D in E. destruct E as [r ->]. destruct (dget clim v), (dget t v); reflexivity.
  - intros N1 N2 N. rewrite H, (valid_time_error _ N). destruct (dget clim v), (dget t v); congruence.
Qed.
Print Assumptions C59_errors.
Theorem C59_no_times : forall s clim v pv t cv tv, In s [SquaredPredictionAnomaly clim; SquaredTargetAnomaly clim; AnomalyCovariance clim] ->
  dget clim v = Some cv -> dget t v = Some tv -> ~ has_times pv -> compute s [(v, pv)] t = Err ValueError.
Proof.
  intros s clim v pv t cv tv Hs Hc Ht HN. destruct (compute s [(v, pv)] t) as [raw|x] eqn:E.
  - exfalso. assert (exists name f, s = climatology_statistic name f clim) as (name & f & ->) by (destruct Hs as [<-|[<-|[<-|[]]]]; eexists _, _; reflexivity).
    assert (NoDup (keys [(v, pv)])) as N by (repeat constructor; intros []).
    destruct (proj1 (clim_defined name f clim [(v, pv)] t N) (ex_intro _ raw E) v pv) as (tv' & cv' & c & _ & _ & A); [cbn; destruct (eq_dec v v); congruence|].
    unfold align_climatology in A. rewrite (valid_time_error _ HN) in A. discriminate.
  - f_equal. rewrite (clim_error _ _ _ _ _ _ Hs E), Hc, Ht. now rewrite (valid_time_error _ HN).
Qed.
Print Assumptions C59_no_times.

(** ** Example: 2020-12-31 06:00 given by init and lead time *)
Definition ns (days hours : Z) : Z := (days * 86400 + hours * 3600) * 1000000000.
Definition ex_pred : da := mkDa [("init_time", [LZ (ns 18626 0)]); ("lead_time", [LZ (ns 1 6)])] (fun _ => Fin 3) [].
Definition doys (n : Z) : list label := map (fun i => LZ (Z.of_nat i)) (seq 1 (Z.to_nat n)).
Definition ex_hours (n : Z) : da := mkDa [("dayofyear", doys n); ("hour", [LZ 0; LZ 6; LZ 12; LZ 18])]
  (fun e => if andb (eqb (e "dayofyear") (LZ 366)) (eqb (e "hour") (LZ 6)) then Fin 1 else Fin 0) [].
Example C59_example : exists e T e' sp, point_of (dims ex_pred) e /\ forecast_time ex_pred e T /\ climatology_point (ex_hours 366) e T e' /\
  e' "dayofyear" = LZ 366 /\ e' "hour" = LZ 6 /\
  statistic_value (SquaredPredictionAnomaly [("t", ex_hours 366)]) [("t", ex_pred)] [("t", ex_pred)] "t" sp /\ get sp e = Fin ((3 - 1) * (3 - 1)).
Proof.
  set (e := upd (upd env0 "init_time" (LZ (ns 18626 0))) "lead_time" (LZ (ns 1 6))).
  exists e, (ns 18627 6), (upd (upd e "dayofyear" (LZ 366)) "hour" (LZ 6)).
  assert (forecast_time ex_pred e (ns 18627 6)) as F.
  { right. split; [intros [[K|[K|[]]]|[c K]]; discriminate|]. exists (ns 18626 0), (ns 1 6). split; [left; split; [now left|reflexivity]|]. split; [left; split; [right; now left|reflexivity]|reflexivity]. }
  assert (climatology_point (ex_hours 366) e (ns 18627 6) (upd (upd e "dayofyear" (LZ 366)) "hour" (LZ 6))) as HC.
  { apply cp_day_hour.
    - intros [[K|[K|[]]]|[c K]]; discriminate.
    - left. right. now left.
    - apply doy_value. vm_compute. reflexivity.
    - apply hour_value. vm_compute. reflexivity.
    - intros d Hd. rewrite !upd_other; auto; intros ->; apply Hd; cbn; auto. }
  assert (exists sp, statistic_value (SquaredPredictionAnomaly [("t", ex_hours 366)]) [("t", ex_pred)] [("t", ex_pred)] "t" sp) as [sp Hsp].
  { assert (exists c, align_climatology ex_pred (ex_hours 366) = Ok c) as [c Hc].
    { unfold align_climatology. replace (valid_time_of ex_pred) with (Ok ([("init_time", [LZ (ns 18626 0)]); ("lead_time", [LZ (ns 1 6)])], fun e : env => LZ (time_value (e "init_time") + time_value (e "lead_time")))) by reflexivity.
      cbn [bind]. replace (coord_of (ex_hours 366) "time") with (@None (dimlist * (env -> label))) by reflexivity. cbv zeta.
      replace (coord_of (ex_hours 366) "hour") with (Some ([("hour", [LZ 0; LZ 6; LZ 12; LZ 18])], fun e : env => e "hour")) by reflexivity.
      unfold sel_points. match goal with |- context [forallb ?g ?l] => assert (forallb g l = true) as -> by (vm_compute; reflexivity) end. eauto. }
    exists (da_map vsq (binop vsub ex_pred c)). exists [("t", da_map vsq (binop vsub ex_pred c))]. split; [|reflexivity].
    cbn [SquaredPredictionAnomaly climatology_statistic compute keys map fst mapM snd]. unfold dgetE. cbn [dget fst]. destruct (eq_dec "t" "t"); [|congruence]. cbn [bind]. rewrite Hc. reflexivity. }
  exists sp. split; [intros d ls [[= <- <-]|[[= <- <-]|[]]]; now left|]. split; [exact F|]. split; [exact HC|]. split; [reflexivity|]. split; [reflexivity|]. split; [exact Hsp|].
  destruct Hsp as (raw & R1 & R2). assert (NoDup (keys [("t", ex_pred)])) as N by (repeat constructor; intros []).
  destruct (statistic_clim _ _ [("t", ex_hours 366)] [("t", ex_pred)] [("t", ex_pred)] "t" ex_pred ex_pred (ex_hours 366) _ N eq_refl eq_refl eq_refl (ex_intro _ raw (conj R1 R2))) as (c & A & ->).
  cbn [get da_map binop]. assert (wf (ex_hours 366)) as W.
  { split; [repeat constructor; cbn; intuition discriminate|]. split.
    - intros d ls [[= <- <-]|[[= <- <-]|[]]]; [|repeat constructor; cbn; intuition discriminate]. unfold doys. apply FinFun.Injective_map_NoDup; [|apply seq_NoDup]. intros i j [= K]. lia.
    - intros q q' K. cbn [get ex_hours]. rewrite (K "dayofyear") by now left. rewrite (K "hour") by (right; now left). reflexivity. }
  rewrite (aligned_value _ _ _ _ _ _ W A F HC). reflexivity.
Qed.
(** Finding: with a climatology of 365 days, one forecast valid on 31 December of a leap year
    fails the whole computation. *)
Theorem C59_leap_day_refuted : 
  compute (SquaredPredictionAnomaly [("t", ex_hours 365)]) [("t", ex_pred)] [("t", ex_pred)] = Err KeyError.
Proof.
  cbn [SquaredPredictionAnomaly climatology_statistic compute keys map fst mapM snd]. unfold dgetE. cbn [dget fst]. destruct (eq_dec "t" "t"); [|congruence]. cbn [bind].
  assert (align_climatology ex_pred (ex_hours 365) = Err KeyError) as ->; [|reflexivity].
  unfold align_climatology. replace (valid_time_of ex_pred) with (Ok ([("init_time", [LZ (ns 18626 0)]); ("lead_time", [LZ (ns 1 6)])], fun e : env => LZ (time_value (e "init_time") + time_value (e "lead_time")))) by reflexivity.
  cbn [bind]. replace (coord_of (ex_hours 365) "time") with (@None (dimlist * (env -> label))) by reflexivity. cbv zeta.
  replace (coord_of (ex_hours 365) "hour") with (Some ([("hour", [LZ 0; LZ 6; LZ 12; LZ 18])], fun e : env => e "hour")) by reflexivity.
  unfold sel_points. match goal with |- context [forallb ?g ?l] => assert (forallb g l = false) as -> by (vm_compute; reflexivity) end. reflexivity.
Qed.
Print Assumptions C59_leap_day_refuted.
