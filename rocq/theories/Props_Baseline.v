(** C48: baseline_comparison.py. *)
From Coq Require Import String List Bool ZArith Reals Lra.
Import ListNotations.
From Verif Require Import Prelude Values Model_XArray Spec_XArray Proofs_XArray Model_Tree Model_MetricsBase Model_Aggregation Model_Wrappers
  Spec_Metrics Proofs_Seeps Model_Baseline Spec_Baseline Proofs_Baseline.
Local Open Scope string_scope.
Local Open Scope list_scope.

(** The comparison metric on the combined state is the comparison of the two metrics, each
    on its own state: it has a value exactly if both have one and the comparison has. *)
Theorem C48_comparison : forall m bm cmp s b c v,
  statistics_state s -> statistics_state b ->
  NoDup (keys (statistics m)) -> NoDup (keys (statistics bm)) ->
  combine_aggregation_states s b = Ok c ->
  (value_for (BaselineComparison m (Some bm) cmp) c v <->
   exists x y, value_for m s x /\ value_for bm b y /\ cmp x y = Ok v).
Proof.
  intros m bm cmp s b c v (ws & w & -> & N1 & N2) (bws & bw & -> & N3 & N4) M M' H.
  rewrite value_for_means. setoid_rewrite value_for_means. split.
  - intros (n & E & K). apply (combined_means ws w bws bw c n N1 N2 N3 N4 H) in E. destruct E as (n1 & n2 & E1 & E2 & ->).
    apply (comparison_metric m bm cmp n1 n2 v M M') in K. destruct K as (x & y & K1 & K2 & K). exists x, y. split; [exists n1; auto|]. split; [exists n2; auto|exact K].
  - intros (x & y & (n1 & E1 & K1) & (n2 & E2 & K2) & K).
    exists (prefixed main_ (fun v => v) n1 ++ prefixed baseline_ (fun v => v) n2). split.
    + apply (combined_means ws w bws bw c _ N1 N2 N3 N4 H). exists n1, n2. auto.
    + apply (comparison_metric m bm cmp n1 n2 v M M'). exists x, y. auto.
Qed.
Print Assumptions C48_comparison.

(** Without a baseline metric the same metric is used for both systems. *)
Theorem C48_default_baseline : forall m cmp, BaselineComparison m None cmp = BaselineComparison m (Some m) cmp.
Proof. reflexivity. Qed.

Lemma for_metrics_Ok M B cmp : exists C, for_metrics M B cmp = Ok C /\
  let bs := match B with Some b => b | None => M end in
  keys C = filter (fun n => memb n (keys bs)) (keys M) /\
  forall n q, In (n, q) C -> exists m b, dget M n = Some m /\ dget bs n = Some b /\ q = BaselineComparison m (Some b) cmp.
Proof.
  unfold for_metrics. set (bs := match B with Some b => b | None => M end).
  assert (forall n, In n (filter (fun n => memb n (keys bs)) (keys M)) -> In n (keys M) /\ In n (keys bs)) as K.
  { intros n I. apply filter_In in I. now rewrite memb_In in I. }
  cbv zeta. induction (filter _ (keys M)) as [|n l IH]; [exists []; repeat split; intros ? ? []|].
  destruct IH as (C & E & Hk & HC); [intros x Hx; apply K; cbn; auto|].
  destruct (K n) as [I1 I2]; [cbn; auto|]. apply keys_dget in I1. apply keys_dget in I2. destruct I1 as [m Em]. destruct I2 as [b Eb].
  exists ((n, BaselineComparison m (Some b) cmp) :: C). split; [|split].
  - cbn [mapM]. unfold dgetE. rewrite Em, Eb. cbn [bind]. unfold dgetE in E. rewrite E. reflexivity.
  - change (n :: keys C = n :: l). now rewrite Hk.
  - intros n' q [[= <- <-]|I]; eauto.
Qed.

(** The whole collection: for_metrics never fails, and evaluating its result on the combined
    state gives an entry exactly for the metrics named in both mappings, namely the comparison
    of the two systems' values of that metric. *)
Theorem C48_all_metrics : forall M B cmp s b c,
  statistics_state s -> statistics_state b ->
  NoDup (keys M) -> NoDup (keys B) ->
  (forall n m, In (n, m) M -> NoDup (keys (statistics m))) ->
  (forall n m, In (n, m) B -> NoDup (keys (statistics m))) ->
  combine_aggregation_states s b = Ok c ->
  exists C, for_metrics M (Some B) cmp = Ok C /\
  forall r, state_metrics C c = Ok r ->
    (forall n, In n (keys r) <-> In n (keys M) /\ In n (keys B)) /\
    (forall n m bm, dget M n = Some m -> dget B n = Some bm ->
       exists v x y, dget r n = Some v /\ value_for m s x /\ value_for bm b y /\ cmp x y = Ok v).
Proof.
  intros M B cmp s b c Hs Hb N1 N2 S1 S2 Hc. destruct (for_metrics_Ok M (Some B) cmp) as (C & EC & KC & HC). cbv zeta in KC.
  exists C. split; [exact EC|]. intros r Hr.
  apply state_metrics_means in Hr. destruct Hr as (n0 & En & Hr).
  assert (keys r = keys C) as Kr.
  { clear -Hr. unfold compute_metrics_from_statistics in Hr. revert r Hr. induction C as [|[k q] C IH]; intros r; cbn; [now intros [= <-]|].
    destruct (compute_metric_from_statistics q n0); [|discriminate]. cbn. destruct (mapM _ C) as [r'|]; [|discriminate]. intros [= <-]. cbn. f_equal. now apply IH. }
  split.
  - intros n. rewrite Kr, KC, filter_In, memb_In. tauto.
  - intros n m bm Em Eb.
    assert (In n (keys C)) as I. { rewrite KC, filter_In, memb_In. split; eapply dget_Some_keys; eassumption. }
    apply keys_dget in I. destruct I as [q Eq]. destruct (HC n q (dget_In _ _ Eq)) as (m' & b' & Em' & Eb' & ->).
    rewrite Em in Em'. rewrite Eb in Eb'. injection Em' as <-. injection Eb' as <-.
    assert (exists v, dget r n = Some v /\ compute_metric_from_statistics (BaselineComparison m (Some bm) cmp) n0 = Ok v) as (v & Ev & Cv).
    { assert (NoDup (keys C)) as NC. { rewrite KC. now apply NoDup_filter. }
      clear -Hr Eq. unfold compute_metrics_from_statistics in Hr. revert r Hr. induction C as [|[k q] C IH]; intros r; [discriminate|]. cbn in *.
      destruct (compute_metric_from_statistics q n0) as [x|] eqn:E; [|discriminate]. cbn. destruct (mapM _ C) as [r'|]; [|discriminate]. intros [= <-].
      cbn. destruct (eq_dec n k) as [->|]; [injection Eq as ->; eauto|]. apply IH; auto. }
    exists v. destruct (proj1 (C48_comparison m bm cmp s b c v Hs Hb (S1 _ _ (dget_In _ _ Em)) (S2 _ _ (dget_In _ _ Eb)) Hc)) as (x & y & V1 & V2 & V).
    { apply value_for_means. eauto. }
    exists x, y. auto.
Qed.
Print Assumptions C48_all_metrics.

(** ... and it has values whenever all common metrics have. *)
Theorem C48_all_metrics_total : forall M B cmp s b c C,
  statistics_state s -> statistics_state b ->
  (forall n m, In (n, m) M -> NoDup (keys (statistics m))) ->
  (forall n m, In (n, m) B -> NoDup (keys (statistics m))) ->
  combine_aggregation_states s b = Ok c -> for_metrics M (Some B) cmp = Ok C ->
  (exists n, means c = Ok n) ->
  (forall n m bm, dget M n = Some m -> dget B n = Some bm ->
     exists v x y, value_for m s x /\ value_for bm b y /\ cmp x y = Ok v) ->
  exists r, state_metrics C c = Ok r.
Proof.
  intros M B cmp s b c C Hs Hb S1 S2 Hc EC (n0 & En) H. destruct (for_metrics_Ok M (Some B) cmp) as (C' & EC' & KC & HC). cbv zeta in *.
  rewrite EC in EC'. injection EC' as <-.
  assert (exists r, compute_metrics_from_statistics C n0 = Ok r) as (r & Er).
  { clear EC KC. unfold compute_metrics_from_statistics. induction C as [|[k q] C IH]; [eexists; reflexivity|].
    destruct IH as (r & Er); [intros n' q' I; apply HC; cbn; auto|].
    destruct (HC k q) as (m & bm & Em & Eb & ->); [cbn; auto|]. destruct (H k m bm Em Eb) as (v & x & y & V1 & V2 & V).
    assert (value_for (BaselineComparison m (Some bm) cmp) c v) as K.
    { apply (C48_comparison m bm cmp s b c v Hs Hb (S1 _ _ (dget_In _ _ Em)) (S2 _ _ (dget_In _ _ Eb)) Hc). eauto. }
    apply value_for_means in K. destruct K as (n1 & E1 & K). rewrite En in E1. injection E1 as <-.
    exists ((k, v) :: r). cbn [mapM snd fst]. rewrite K. cbn [bind]. rewrite Er. reflexivity. }
  exists r. apply state_metrics_means. eauto.
Qed.
Print Assumptions C48_all_metrics_total.

(** The combined state holds exactly the entries of the two states, under 'main_' and
    'baseline_' names; the zero state cannot be combined. *)
Theorem C48_combine : forall ws w bws bw,
  NoDup (keys ws) -> NoDup (keys w) -> NoDup (keys bws) -> NoDup (keys bw) ->
  exists cws cw, combine_aggregation_states (Some (Dict ws, Dict w)) (Some (Dict bws, Dict bw)) = Ok (Some (Dict cws, Dict cw)) /\
  NoDup (keys cws) /\ NoDup (keys cw) /\
  (forall k, dget cws ("main_" ++ k)%string = dget ws k /\ dget cws ("baseline_" ++ k)%string = dget bws k) /\
  (forall k, dget cw ("main_" ++ k)%string = dget w k /\ dget cw ("baseline_" ++ k)%string = dget bw k) /\
  (forall n, In n (keys cws) -> exists k, n = ("main_" ++ k)%string /\ In k (keys ws) \/ n = ("baseline_" ++ k)%string /\ In k (keys bws)).
Proof.
  intros ws w bws bw N1 N2 N3 N4. unfold combine_aggregation_states, items. cbn [bind]. eexists. eexists. split; [reflexivity|].
  split; [apply NoDup_keys_dict_of|]. split; [apply NoDup_keys_dict_of|].
  rewrite !dict_of_NoDup by (apply NoDup_both; assumption).
  split; [|split].
  - intros k. change ("main_" ++ k)%string with (main_ ++ k)%string. change ("baseline_" ++ k)%string with (baseline_ ++ k)%string.
    rewrite dget_main, dget_baseline. now rewrite !option_map_id.
  - intros k. change ("main_" ++ k)%string with (main_ ++ k)%string. change ("baseline_" ++ k)%string with (baseline_ ++ k)%string.
    rewrite dget_main, dget_baseline. now rewrite !option_map_id.
  - intros n. unfold keys at 1. rewrite map_app, in_app_iff. intros [I|I]; [change (In n (keys (prefixed main_ (fun v => v) ws))) in I|change (In n (keys (prefixed baseline_ (fun v => v) bws))) in I];
      rewrite keys_prefixed, in_map_iff in I; destruct I as (k & <- & I); exists k; [left|right]; auto.
Qed.
Print Assumptions C48_combine.
Theorem C48_zero_state : forall s, combine_aggregation_states zero s = Err AttributeError /\ combine_aggregation_states s zero = Err AttributeError.
Proof. intros [[x y]|]; split; reflexivity. Qed.

(** The statistics of a comparison are the two metrics' statistics, with names that tell the
    two systems apart, so that within and across systems nothing is overwritten. *)
Theorem C48_names : forall m bm cmp, NoDup (keys (statistics m)) -> NoDup (keys (statistics bm)) ->
  let C := statistics (BaselineComparison m (Some bm) cmp) in
  NoDup (keys C) /\
  (forall k st, In (k, st) C <->
     (exists k0 s0, In (k0, s0) (statistics m) /\ k = ("main_" ++ k0)%string /\
        unique_name st = ("main_" ++ unique_name s0)%string /\ compute st = compute s0) \/
     (exists k0 s0, In (k0, s0) (statistics bm) /\ k = ("baseline_" ++ k0)%string /\
        unique_name st = ("baseline_" ++ unique_name s0)%string /\ compute st = compute s0)) /\
  (forall a b, ("main_" ++ a)%string <> ("baseline_" ++ b)%string) /\
  (forall a b, ("main_" ++ a = "main_" ++ b)%string -> a = b) /\ (forall a b, ("baseline_" ++ a = "baseline_" ++ b)%string -> a = b).
Proof.
  intros m bm cmp N N'. cbv zeta. cbn [BaselineComparison statistics]. unfold comparison_statistics.
  split; [apply NoDup_keys_dict_of|]. rewrite dict_of_NoDup by (apply NoDup_both; assumption). split; [|split; [|split]].
  - intros k st. rewrite in_app_iff. unfold prefixed. rewrite !in_map_iff. split.
    + intros [([k0 s0] & [= <- <-] & I)|([k0 s0] & [= <- <-] & I)]; [left|right]; exists k0, s0; repeat split; auto.
    + intros [(k0 & s0 & I & -> & U & Cst)|(k0 & s0 & I & -> & U & Cst)]; [left|right]; exists (k0, s0); split; auto; cbn; f_equal;
        destruct st; cbn in *; unfold renamed_statistic, RenamedStatistic; now subst.
  - exact main_ne_baseline.
  - exact (app_prefix_inj main_).
  - exact (app_prefix_inj baseline_).
Qed.
Print Assumptions C48_names.

Lemma point_inter d1 d2 e : NoDup (map fst d2) -> (point_of (merge_dims inter_labels d1 d2) e <-> point_of d1 e /\ point_of d2 e).
Proof.
  intros N. split.
  - intros H. unfold merge_dims in H. split; intros d ls I.
    + destruct (dget d2 d) as [l2|] eqn:E.
      * assert (In (e d) (inter_labels ls l2)) as K. { apply (H d). apply in_app_iff. left. apply in_map_iff. exists (d, ls). cbn [fst snd]. now rewrite E. }
        unfold inter_labels in K. apply filter_In in K. tauto.
      * apply (H d). apply in_app_iff. left. apply in_map_iff. exists (d, ls). cbn [fst snd]. now rewrite E.
    + destruct (memb d (map fst d1)) eqn:M.
      * apply memb_In in M. apply in_map_iff in M. destruct M as ([d' l1] & E1 & I1). cbn in E1. subst d'.
        assert (In (e d) (inter_labels l1 ls)) as K. { apply (H d). apply in_app_iff. left. apply in_map_iff. exists (d, l1). cbn [fst snd]. now rewrite (In_dget _ _ _ N I). }
        unfold inter_labels in K. apply filter_In in K. destruct K as [_ K]. now apply memb_In in K.
      * apply (H d). apply in_app_iff. right. apply filter_In. split; auto. cbn [fst]. now rewrite M.
  - intros [H1 H2]. now apply point_merge.
Qed.

(** The default comparison: for each variable both systems have, main minus baseline, at the
    points both have. *)
Theorem C48_difference : forall x y, NoDup (keys x) ->
  exists d, difference x y = Ok d /\ NoDup (keys d) /\
  (forall v, In v (keys d) <-> In v (keys x) /\ In v (keys y)) /\
  (forall v a b, dget x v = Some a -> dget y v = Some b ->
     exists z, dget d v = Some z /\
       (forall e, get z e = vsub (get a e) (get b e)) /\
       (wf b -> forall e, point_of (dims z) e <-> point_of (dims a) e /\ point_of (dims b) e)).
Proof.
  intros x y N. unfold difference.
  assert (exists d, mapM (fun k => do a <- dgetE x k; do b <- dgetE y k; Ok (k, binop vsub a b)) (filter (fun k => memb k (keys y)) (keys x)) = Ok d
    /\ keys d = filter (fun k => memb k (keys y)) (keys x)
    /\ forall v z, In (v, z) d -> exists a b, dget x v = Some a /\ dget y v = Some b /\ z = binop vsub a b) as (d & E & K & V).
  { assert (forall n, In n (filter (fun n => memb n (keys y)) (keys x)) -> In n (keys x) /\ In n (keys y)) as K.
    { intros n I. apply filter_In in I. now rewrite memb_In in I. }
    induction (filter _ (keys x)) as [|n l IH]; [exists []; repeat split; intros ? ? []|].
    destruct IH as (C & E & Hk & HC); [intros q Hq; apply K; cbn; auto|].
    destruct (K n) as [I1 I2]; [cbn; auto|]. apply keys_dget in I1. apply keys_dget in I2. destruct I1 as [a Ea]. destruct I2 as [b Eb].
    exists ((n, binop vsub a b) :: C). split; [|split].
    - cbn [mapM]. unfold dgetE. rewrite Ea, Eb. cbn [bind]. unfold dgetE in E. rewrite E. reflexivity.
    - change (n :: keys C = n :: l). now rewrite Hk.
    - intros n' q [[= <- <-]|I]; eauto. }
  exists d. split; [exact E|]. split; [rewrite K; now apply NoDup_filter|]. split.
  - intros v. rewrite K, filter_In, memb_In. tauto.
  - intros v a b Ea Eb.
    assert (In v (keys d)) as I. { rewrite K, filter_In, memb_In. split; eapply dget_Some_keys; eassumption. }
    apply keys_dget in I. destruct I as [z Ez]. exists z. split; [exact Ez|].
    destruct (V v z (dget_In _ _ Ez)) as (a' & b' & Ea' & Eb' & ->). rewrite Ea in Ea'. rewrite Eb in Eb'. injection Ea' as <-. injection Eb' as <-.
    split; [reflexivity|]. intros W e. apply point_inter. apply W.
Qed.
Print Assumptions C48_difference.

(** Two systems, RMSE-like metric of one statistic: difference of square roots of means. *)
Definition ex_arr (x : R) : da := mkDa [] (fun _ => Fin x) [].
Definition ex_state (x n : R) : state := Some (Dict [("SE", Dict [("t2m", Leaf (ex_arr x))])], Dict [("SE", Dict [("t2m", Leaf (ex_arr n))])]).
Definition ex_se : statistic da := mkStat "SE" (fun p _ => Ok p).
Definition ex_rmse : metric da := per_variable_metric [("mse", ex_se)]
  (fun l => match l with [(_, a)] => Ok (da_map vsqrt a) | _ => Err KeyError end).
Lemma ex_state_ok x n : statistics_state (ex_state x n).
Proof. exists [("SE", Dict [("t2m", Leaf (ex_arr x))])], [("SE", Dict [("t2m", Leaf (ex_arr n))])]. split; [reflexivity|]. split; repeat constructor; simpl; tauto. Qed.
Example C48_example : exists c v z,
  combine_aggregation_states (ex_state 18 2) (ex_state 8 2) = Ok c /\
  value_for (BaselineComparison ex_rmse None difference) c v /\ v = [("t2m", z)] /\ get z env0 = Fin 1.
Proof.
  eexists. eexists. eexists. split; [reflexivity|]. split; [unfold value_for; reflexivity|]. split; [reflexivity|].
  cbn [get binop da_map ex_arr]. unfold vdiv. destruct (Req_EM_T 2 0); [lra|]. unfold vsqrt.
  destruct (Rlt_dec (18 / 2) 0); [lra|]. destruct (Rlt_dec (8 / 2) 0); [lra|].
  replace (18 / 2)%R with (3 * 3)%R by lra. replace (8 / 2)%R with (2 * 2)%R by lra.
  rewrite !sqrt_square by lra. unfold vsub, vadd, vneg. f_equal. lra.
Qed.
Example C48_example_hyps : NoDup (keys (statistics ex_rmse)) /\
  state_metrics [("rmse", BaselineComparison ex_rmse None difference)] zero = Err TypeError.
Proof. split; [repeat constructor; simpl; tauto|reflexivity]. Qed.
