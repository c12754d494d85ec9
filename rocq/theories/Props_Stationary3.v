(** C65: the replicates of the stationary bootstrap, public statements. *)
From Coq Require Import String ZArith List Bool Lia Permutation Reals Lra.
Import ListNotations.
From Verif Require Import Prelude Values Model_XArray Spec_XArray Proofs_XArray Spec_Reduce Proofs_Reduce Model_Tree Model_MetricsBase Model_Aggregation
  Model_Ensemble Proofs_Ensemble Proofs_Ensemble2 Proofs_Deterministic Proofs_Beam9 Proofs_AggState Model_Deterministic Model_Categorical
  Model_Baseline Model_Bootstrap Spec_Bootstrap Props_Bootstrap Model_Resample Spec_Resample Proofs_Resample Props_Resample Proofs_Baseline Proofs_TTest Props_Slices Model_Autodiff
  Spec_Autodiff Proofs_Autodiff Proofs_Aggregator Model_Stationary Spec_Stationary Proofs_Stationary Proofs_Stationary2 Proofs_Stationary3 Proofs_Stationary4 Proofs_Stationary5 Proofs_Pointwise Props_Stationary Props_Stationary2.
Local Open Scope R_scope.
Local Open Scope string_scope.
Local Open Scope list_scope.

(** For a metric that is computed point by point, the point estimate at a point is the metric of the ratios of sums
    over all units, and every element of every replicate is the metric of the ratios of sums over drawn units: the same
    units for the values and for the weights of all its statistics, as many draws as there are units.  The draws come
    from one run of the index generator with the block length for the series of the linearized per-unit values at that
    point. *)
Theorem C65_replicates : forall d r given resolution size arch draw linearize metrics st ls points tangents points' resampled name m F var a lab,
  d <> REPLICATE_DIM ->
  unit_table d ls st -> (forall n v ws w, entry st n v (ws, w) -> proper_coords ws /\ ~ In REPLICATE_DIM (dnames ws) /\ ~ In REPLICATE_DIM (dnames w)) ->
  per_unit_values_linearized linearize metrics (state_of st) d = Ok (points, tangents) ->
  stationary_bootstrap d r given resolution size arch draw linearize metrics (state_of st) = Ok (points', resampled) ->
  dget metrics name = Some m -> pointwise_metric m F -> NoDup (keys (statistics m)) -> statistics m <> [] ->
  agreeing lab st m var -> entry points name var a ->
  points' = points /\
  exists replicates ps, entry resampled name var replicates /\ arrays_for st m var ps /\
    (forall e, point_of (dims a) e -> get a e = F (map (fun p => vdiv (vsum (along (fst p) d e)) (vsum (along (snd p) d e))) ps)) /\
    (forall k l, In l (labels_of (dims replicates) k) <-> In l (labels_of (dims a) k) \/ (k = REPLICATE_DIM /\ In l (positions r))) /\
    (ls <> [] -> proper_draws (length ls) r draw ->
     forall e k, point_of (dims a) e -> (k < r)%nat ->
     exists b rows, drawn_once draw (length ls) b rows /\
       (forall t, entry tangents name var t -> wf t -> block_length_for given (option_map (fun res x => logarithmic_round x res) resolution) arch (along t d e) b) /\
       (forall b0, given = Some b0 -> b = b0) /\
       length (draws_of rows k) = length ls /\ (forall i, In i (draws_of rows k) -> (i < length ls)%nat) /\
       get replicates (upd e REPLICATE_DIM (LZ (Z.of_nat k))) =
       F (map (fun p => vdiv (drawn_total (along (fst p) d e) (draws_of rows k)) (drawn_total (along (snd p) d e) (draws_of rows k))) ps)).
Proof. intros. eapply replicates_main; eassumption. Qed.
Print Assumptions C65_replicates.

Lemma drawn_total_finite xs draws : (forall i, In i draws -> (i < length xs)%nat) -> drawn_total (map Fin xs) draws = Fin (drawn_sum xs draws).
Proof.
  intros H. unfold drawn_total, drawn_sum.
  assert (map (fun i => nth i (map Fin xs) NaN) draws = map (fun i => Fin (nth i xs 0)) draws) as ->.
  { apply map_ext_in. intros i I. rewrite (nth_indep _ NaN (Fin 0)); [|rewrite map_length; auto]. now rewrite map_nth. }
  assert (filter (fun v => negb (isnan v)) (map (fun i => Fin (nth i xs 0)) draws) = map (fun i => Fin (nth i xs 0)) draws) as ->.
  { clear. induction draws as [|i l IH]; [reflexivity|]. cbn. now rewrite IH. }
  rewrite <- vsum_map_Fin', map_map. reflexivity.
Qed.
Lemma drawn_sum_perm xs draws : Permutation draws (seq 0 (length xs)) -> drawn_sum xs draws = rsum xs.
Proof.
  intros P. unfold drawn_sum. assert (forall l l' : list R, Permutation l l' -> rsum l = rsum l') as RP.
  { clear. induction 1; cbn; try lra. unfold rsum in *. cbn [fold_right]. lra. }
  rewrite (RP _ (map (fun i => nth i xs 0) (seq 0 (length xs)))) by (now apply Permutation_map). f_equal.
  clear. induction xs as [|x xs IH]; [reflexivity|]. cbn [length seq map nth]. f_equal. rewrite <- seq_shift, map_map. exact IH.
Qed.

(** With finite values and weights, everything is in ordinary sums; and if each unit is drawn exactly once,
    the replicate is the point estimate. *)
Definition finite_along (d : string) (e : env) (p : da * da) (q : list R * list R) : Prop :=
  along (fst p) d e = map Fin (fst q) /\ along (snd p) d e = map Fin (snd q).
Theorem C65_finite : forall d r given resolution size arch draw linearize metrics st ls points tangents points' resampled name m F var a lab,
  d <> REPLICATE_DIM ->
  unit_table d ls st -> (forall n v ws w, entry st n v (ws, w) -> proper_coords ws /\ ~ In REPLICATE_DIM (dnames ws) /\ ~ In REPLICATE_DIM (dnames w)) ->
  per_unit_values_linearized linearize metrics (state_of st) d = Ok (points, tangents) ->
  stationary_bootstrap d r given resolution size arch draw linearize metrics (state_of st) = Ok (points', resampled) ->
  dget metrics name = Some m -> pointwise_metric m F -> NoDup (keys (statistics m)) -> statistics m <> [] ->
  agreeing lab st m var -> entry points name var a -> ls <> [] -> proper_draws (length ls) r draw ->
  exists replicates ps, entry resampled name var replicates /\ arrays_for st m var ps /\
    forall e k qs, point_of (dims a) e -> (k < r)%nat -> Forall2 (finite_along d e) ps qs ->
    get a e = F (map (fun q => vdiv (Fin (rsum (fst q))) (Fin (rsum (snd q)))) qs) /\
    exists b rows, drawn_once draw (length ls) b rows /\
      (forall t, entry tangents name var t -> wf t -> block_length_for given (option_map (fun res x => logarithmic_round x res) resolution) arch (along t d e) b) /\
      (forall b0, given = Some b0 -> b = b0) /\
      get replicates (upd e REPLICATE_DIM (LZ (Z.of_nat k))) =
        F (map (fun q => vdiv (Fin (drawn_sum (fst q) (draws_of rows k))) (Fin (drawn_sum (snd q) (draws_of rows k)))) qs) /\
      (Permutation (draws_of rows k) (seq 0 (length ls)) -> get replicates (upd e REPLICATE_DIM (LZ (Z.of_nat k))) = get a e).
Proof.
  intros d r given resolution size arch draw linearize metrics st ls points tangents points' resampled name m F var a lab Nd T PC HL HS Hm PW NS NES AG Ha Nls Pd.
  destruct (C65_replicates _ _ _ _ _ _ _ _ _ _ _ _ _ _ _ _ _ _ _ _ _ Nd T PC HL HS Hm PW NS NES AG Ha) as (_ & r0 & ps & He & AF & GA & _ & GR).
  exists r0, ps. split; [exact He|]. split; [exact AF|]. intros e k qs P Hk FQ.
  assert (forall p q, In p ps -> finite_along d e p q -> length (fst q) = length ls /\ length (snd q) = length ls) as LQ.
  { intros p q I [E1 E2]. assert (exists n, exists s, dget (statistics m) n = Some s /\ entry st (unique_name s) var p) as (n & s & _ & Hp).
    { clear -AF I. unfold arrays_for in AF. induction AF as [|n p0 ns ps H AF IH]; [destruct I|]. destruct I as [->|I]; eauto. }
    destruct p as [ws w]. destruct T as (_ & _ & U). destruct (U _ _ _ _ Hp) as [[_ U1] [_ U2]]. cbn [fst snd] in *. apply (f_equal (@length val)) in E1, E2.
    unfold along, labels_of in E1, E2. rewrite !map_length in E1, E2. rewrite U1 in E1. rewrite U2 in E2. auto. }
  assert (get a e = F (map (fun q => vdiv (Fin (rsum (fst q))) (Fin (rsum (snd q)))) qs)) as GE.
  { rewrite (GA e P). f_equal. clear -FQ. induction FQ as [|p q ps qs [E1 E2] FQ IH]; [reflexivity|]. cbn [map]. now rewrite E1, E2, IH, !vsum_map_Fin'. }
  split; [exact GE|]. destruct (GR Nls Pd e k P Hk) as (b & rows & O & BL & BG & LD & RD & GV). exists b, rows. split; [exact O|]. split; [exact BL|]. split; [exact BG|].
  assert (get r0 (upd e REPLICATE_DIM (LZ (Z.of_nat k))) = F (map (fun q => vdiv (Fin (drawn_sum (fst q) (draws_of rows k))) (Fin (drawn_sum (snd q) (draws_of rows k)))) qs)) as GV'.
  { rewrite GV. f_equal. clear -FQ LQ RD. induction FQ as [|p q ps qs Hpq FQ IH]; [reflexivity|]. cbn [map]. rewrite IH by (intros; eapply LQ; [right|]; eassumption). f_equal.
    destruct (LQ p q (or_introl eq_refl) Hpq) as [L1 L2]. destruct Hpq as [-> ->]. rewrite !drawn_total_finite by (rewrite ?L1, ?L2; exact RD). reflexivity. }
  split; [exact GV'|]. intros PM. rewrite GV', GE. f_equal. clear -FQ LQ PM. induction FQ as [|p q ps qs Hpq FQ IH]; [reflexivity|]. cbn [map]. rewrite IH by (intros; eapply LQ; [right|]; eassumption). f_equal.
  destruct (LQ p q (or_introl eq_refl) Hpq) as [L1 L2]. rewrite !drawn_sum_perm by (rewrite ?L1, ?L2; exact PM). reflexivity.
Qed.
Print Assumptions C65_finite.

(** Metrics that are computed point by point: any statistic used as a metric, RMSE, CSI, the spread-skill ratio. *)
Theorem C65_pointwise_metrics :
  (forall s : statistic da, pointwise_metric (metric_of_statistic s) (fun vs => hd NaN vs)) /\
  pointwise_metric RMSE (fun vs => match vs with [x] => vsqrt x | _ => NaN end) /\
  pointwise_metric CSI (fun vs => match vs with [tp; fp; fn] => vdiv tp (vadd (vadd tp fp) fn) | _ => NaN end) /\
  (forall d skipna, pointwise_metric (UnbiasedSpreadSkillRatio d skipna) (fun vs => match vs with [v; e] => vsqrt (vdiv v e) | _ => NaN end)).
Proof. split; [exact pointwise_statistic|]. split; [exact pointwise_RMSE|]. split; [exact pointwise_CSI|exact pointwise_SpreadSkill]. Qed.
Print Assumptions C65_pointwise_metrics.

(** ** An instance: three units, block length 1, the draws 0, 2, 2 *)
Definition ex_mean : statistic da := mkStat "error" (fun _ _ => Ok []).
Definition ex_draw (j : nat) : (nat -> list R) * (nat -> list Z) := (fun _ => [1 / 2], fun t => match t with O => [0%Z] | _ => [2%Z] end).
Definition ex_run := stationary_bootstrap "init_time" 1 (Some 1) None 8 (fun _ => Ok None) ex_draw (fun f s _ => f s) [("mean", metric_of_statistic ex_mean)] (state_of ex_table).
Example C65_example : exists points tangents resampled a replicates,
  per_unit_values_linearized (fun f s _ => f s) [("mean", metric_of_statistic ex_mean)] (state_of ex_table) "init_time" = Ok (points, tangents) /\
  ex_run = Ok (points, resampled) /\ proper_draws 3 1 ex_draw /\
  agreeing (fun _ => [LZ 0; LZ 1; LZ 2]) ex_table (metric_of_statistic ex_mean) "temperature" /\
  entry points "mean" "temperature" a /\ entry resampled "mean" "temperature" replicates /\
  get a (fun _ => LZ 0) = Fin (7 / 4) /\
  get replicates (upd (fun _ => LZ 0) REPLICATE_DIM (LZ 0)) = Fin (9 / 5).
Proof.
  assert (exists points tangents a, per_unit_values_linearized (fun f s _ => f s) [("mean", metric_of_statistic ex_mean)] (state_of ex_table) "init_time" = Ok (points, tangents) /\
    entry points "mean" "temperature" a /\ dims a = []) as (points & tangents & a & HL & Ha & Da).
  { eexists. eexists. eexists. split; [reflexivity|]. split; [eexists; split; reflexivity|reflexivity]. }
  assert (forall j, stationary_bootstrap_indices 3 1 (fst (ex_draw j)) (snd (ex_draw j)) = Ok [[0]; [2]; [2]]%Z) as HI.
  { intros j. unfold stationary_bootstrap_indices. replace (Reqb 1 0) with false by (symmetry; destruct (Reqb 1 0) eqn:E; auto; apply Reqb_true in E; lra).
    cbn [ex_draw fst snd indices_from map combine]. replace (Rltb (1 / 2) (1 / 1)) with true by (symmetry; apply Rltb_true; lra). reflexivity. }
  assert (exists points' resampled, ex_run = Ok (points', resampled)) as (points' & resampled & HR).
  { assert (exists rows s, cached_indices 8 ex_draw (3%nat, 1) ([], 0%nat) = Ok (rows, s)) as (rows & s & EC).
    { unfold cached_indices. cbn [cache_find fst snd ex_draw]. specialize (HI O). cbn [fst snd ex_draw] in HI. rewrite HI. eexists. eexists. reflexivity. }
    unfold ex_run, stationary_bootstrap. 
    lazy -[cached_indices IZR Rdiv ex_draw].
    match goal with |- context [cached_indices ?a ?b ?c ?d] => change (cached_indices a b c d) with (cached_indices 8 ex_draw (3%nat, 1) ([], 0%nat)) end. rewrite EC. eexists. eexists. reflexivity. }
  assert (pointwise_metric (metric_of_statistic ex_mean) (fun vs => hd NaN vs)) as PW by apply C65_pointwise_metrics.
  destruct C49_units_exist as (T & PC & _ & _).
  assert (forall v p, entry ex_table "error" v p -> p = (ex_values ex_stat, ex_values ex_weight)) as K.
  { intros v p H. apply entry_In in H. destruct H as (vs & [[= <-]|[]] & [[= _ <-]|[]]). reflexivity. }
  assert (agreeing (fun _ => [LZ 0; LZ 1; LZ 2]) ex_table (metric_of_statistic ex_mean) "temperature") as AG.
  { intros n s ws w E H. cbn [metric_of_statistic statistics dget] in E. destruct (eq_dec n "self"); [|discriminate]. injection E as <-. apply K in H. injection H as -> ->. split; intros x l; cbn [ex_values dims dget]; destruct (eq_dec x "init_time"); congruence. }
  assert (proper_draws 3 1 ex_draw) as PD.
  { intros j. cbn [ex_draw fst snd]. split; intros t; (split; [destruct t; reflexivity|]); [intros u [<-|[]]; lra|]. intros i I. destruct t; destruct I as [<-|[]]; cbn; lia. }
  assert ("init_time" <> REPLICATE_DIM) as ND by discriminate.
  assert ([LZ 0; LZ 1; LZ 2] <> []) as NL by discriminate. assert (statistics (metric_of_statistic ex_mean) <> []) as NS by discriminate.
  assert (NoDup (keys (statistics (metric_of_statistic ex_mean)))) as NK by (cbn; constructor; [intros []|constructor]).
  assert (dget [("mean", metric_of_statistic ex_mean)] "mean" = Some (metric_of_statistic ex_mean)) as HM by reflexivity.
  destruct (C65_replicates _ _ _ _ _ _ _ _ _ _ _ _ _ _ _ _ _ _ _ _ _ ND T PC HL HR HM PW NK NS AG Ha) as (-> & _).
  destruct (C65_finite _ _ _ _ _ _ _ _ _ _ _ _ _ _ _ _ _ _ _ _ _ ND T PC HL HR HM PW NK NS AG Ha NL PD) as (r0 & ps & Hr & AF & HV).
  assert (ps = [(ex_values ex_stat, ex_values ex_weight)]) as ->.
  { unfold arrays_for in AF. cbn [metric_of_statistic statistics keys map fst] in AF. inversion AF as [|n p ns ps' (s & E & H) F]; subst. inversion F; subst. f_equal. cbn [dget] in E. destruct (eq_dec "self" "self"); [|congruence]. injection E as <-. now apply K in H. }
  exists points, tangents, resampled, a, r0. do 5 (split; [assumption|]). split; [exact Hr|].
  destruct (HV (fun _ => LZ 0) O [([1; 2; 4], [1; 1; 2])]) as (V1 & b & rows & (j & O) & _ & BG & V2 & _).
  { intros k l I. rewrite Da in I. destruct I. } { lia. } { constructor; [|constructor]. split; reflexivity. }
  rewrite (BG 1 eq_refl) in O.
  split.
  - rewrite V1. cbn [map hd fst snd]. rewrite vdiv_Fin; [|unfold rsum; cbn [fold_right]; lra]. f_equal. unfold rsum. cbn [fold_right]. field.
  - cbn [length] in O. rewrite HI in O. injection O as <-. change (upd (fun _ => LZ 0) REPLICATE_DIM (LZ 0)) with (upd (fun _ => LZ 0) REPLICATE_DIM (LZ (Z.of_nat 0))). rewrite V2. cbn [map hd fst snd draws_of nth Z.to_nat].
    change (Z.to_nat 0) with 0%nat. change (Z.to_nat 2) with 2%nat. unfold drawn_sum, rsum. change (Pos.to_nat 2) with 2%nat. cbn [map nth fold_right]. rewrite vdiv_Fin by lra. f_equal. field.
Qed.
