(** C22, C23: deterministic metrics (metrics/deterministic.py). *)
From Coq Require Import String List Bool Reals Lra ZArith.
Import ListNotations.
From Verif Require Import Prelude Values Model_XArray Spec_XArray Proofs_XArray Model_Tree Model_MetricsBase Model_Aggregation
  Spec_Aggregator Spec_Metrics Spec_Means Proofs_Means Model_Calendar Model_Deterministic Proofs_Deterministic.
Local Open Scope R_scope.
Local Open Scope string_scope.
Local Open Scope list_scope.

(** ** C22 *)
(** [err] are the errors (prediction - target) at the counted points, [wrs] the weights, [bs]
    the bins.  Either no point has weight (all four are NaN), or all are finite and related
    as stated, RMSE being zero exactly when every point with a weight has error 0. *)
Theorem C22_inequalities : forall g p t v pv tv err ws wrs ms bs bias mae mse rmse e,
  NoDup (keys p) -> dget p v = Some pv -> dget t v = Some tv ->
  weighted_input g (binop vsub pv tv) err ws wrs ms bs ->
  (forall q, 0 <= point_weight g (binop vsub pv tv) wrs bs q) ->
  metric_value g p t (metric_of_statistic Error) v bias ->
  metric_value g p t (metric_of_statistic AbsoluteError) v mae ->
  metric_value g p t (metric_of_statistic SquaredError) v mse ->
  metric_value g p t RMSE v rmse ->
  point_of (dims bias) e ->
  (get bias e = NaN /\ get mae e = NaN /\ get mse e = NaN /\ get rmse e = NaN) \/
  exists P b a s r, reduced_points (binop vsub pv tv :: ws ++ ms) (reduce_dims g) e P /\
    get bias e = Fin b /\ get mae e = Fin a /\ get mse e = Fin s /\ get rmse e = Fin r /\
    b ^ 2 <= s /\ Rabs b <= a <= r /\ r ^ 2 = s /\ 0 <= r /\
    (r = 0 <-> forall q, In q P -> point_weight g (binop vsub pv tv) wrs bs q <> 0 -> err q = 0).
Proof.
  intros g p t v pv tv err ws wrs ms bs bias mae mse rmse e Hn Hp Ht W Hu H1 H2 H3 H4 He.
  exact (det_inequalities g p t v pv tv err ws wrs ms bs Hn Hp Ht W Hu bias mae mse rmse e H1 H2 H3 H4 He).
Qed.
Print Assumptions C22_inequalities.

(** What the four metrics are. *)
Theorem C22_values : forall g p t v pv tv err ws wrs ms bs bias mae mse rmse e,
  NoDup (keys p) -> dget p v = Some pv -> dget t v = Some tv ->
  weighted_input g (binop vsub pv tv) err ws wrs ms bs ->
  (forall q, 0 <= point_weight g (binop vsub pv tv) wrs bs q) ->
  metric_value g p t (metric_of_statistic Error) v bias ->
  metric_value g p t (metric_of_statistic AbsoluteError) v mae ->
  metric_value g p t (metric_of_statistic SquaredError) v mse ->
  metric_value g p t RMSE v rmse ->
  point_of (dims bias) e ->
  let u := point_weight g (binop vsub pv tv) wrs bs in
  exists P, reduced_points (binop vsub pv tv :: ws ++ ms) (reduce_dims g) e P /\
    (rsum (map u P) = 0 -> get bias e = NaN /\ get mae e = NaN /\ get mse e = NaN /\ get rmse e = NaN) /\
    (rsum (map u P) <> 0 ->
       get bias e = Fin (wavg P u err) /\ get mae e = Fin (wavg P u (fun q => Rabs (err q))) /\
       get mse e = Fin (wavg P u (fun q => err q ^ 2)) /\ get rmse e = Fin (sqrt (wavg P u (fun q => err q ^ 2)))).
Proof.
  intros g p t v pv tv err ws wrs ms bs bias mae mse rmse e Hn Hp Ht W Hu H1 H2 H3 H4 He.
  exact (det_values g p t v pv tv err ws wrs ms bs Hn Hp Ht W Hu bias mae mse rmse e H1 H2 H3 H4 He).
Qed.
Print Assumptions C22_values.

(** Swapping predictions and targets: bias changes sign, the others are unchanged.  Equal
    dimension order and coordinates are needed: otherwise the results are transposed. *)
Theorem C22_swap : forall g p t v pv tv err ws wrs ms bs bias mae mse rmse bias' mae' mse' rmse' e,
  NoDup (keys p) -> NoDup (keys t) -> dget p v = Some pv -> dget t v = Some tv ->
  weighted_input g (binop vsub pv tv) err ws wrs ms bs ->
  (forall q, 0 <= point_weight g (binop vsub pv tv) wrs bs q) ->
  dims pv = dims tv -> aux pv = aux tv -> 
  metric_value g p t (metric_of_statistic Error) v bias -> metric_value g t p (metric_of_statistic Error) v bias' ->
  metric_value g p t (metric_of_statistic AbsoluteError) v mae -> metric_value g t p (metric_of_statistic AbsoluteError) v mae' ->
  metric_value g p t (metric_of_statistic SquaredError) v mse -> metric_value g t p (metric_of_statistic SquaredError) v mse' ->
  metric_value g p t RMSE v rmse -> metric_value g t p RMSE v rmse' ->
  point_of (dims bias) e -> point_of (dims mae) e -> point_of (dims mse) e ->
  get bias' e = vneg (get bias e) /\ get mae' e = get mae e /\ get mse' e = get mse e /\ get rmse' e = get rmse e.
Proof.
  intros g p t v pv tv err ws wrs ms bs bias mae mse rmse bias' mae' mse' rmse' e Hn Hn' Hp Ht W Hu Hd Ha B B' A A' S S' R R' E1 E2 E3.
  exact (det_swap_all g p t v pv tv err ws wrs ms bs bias mae mse rmse bias' mae' mse' rmse' e Hn Hn' Hp Ht W Hu Hd Ha B B' A A' S S' R R' E1 E2 E3).
Qed.
Print Assumptions C22_swap.

(** A NaN at a point the mean visits (nothing masked or skipped there) surfaces in every
    one of the metrics. *)
Theorem C22_nan : forall g p t v pv tv e q ws ms m a,
  NoDup (keys p) -> dget p v = Some pv -> dget t v = Some tv -> wf (binop vsub pv tv) -> mask_spans (binop vsub pv tv) ->
  (masked g = false \/ dget (aux (binop vsub pv tv)) "mask" = None) -> skipna g = false ->
  (forall w, In w (weigh_by g) -> uses_coords w) ->
  (forall b, In b (bin_by g) -> uses_coords (create_bin_mask b)) ->
  (forall w s x, In w (weigh_by g) -> w s = Ok x -> wf x) ->
  (forall b s x, In b (bin_by g) -> create_bin_mask b s = Ok x -> wf x) ->
  mapM (fun w => w (binop vsub pv tv)) (weigh_by g) = Ok ws ->
  mapM (fun b => create_bin_mask b (binop vsub pv tv)) (bin_by g) = Ok ms ->
  In m [metric_of_statistic Error; metric_of_statistic AbsoluteError; metric_of_statistic SquaredError; RMSE] ->
  metric_value g p t m v a -> point_of (dims a) e ->
  (forall d, ~ In d (reduce_dims g) -> q d = e d) ->
  (forall x d, In x (binop vsub pv tv :: ws ++ ms) -> In d (reduce_dims g) -> In d (dnames x) -> In (q d) (labels_of (dims x) d)) ->
  get pv q = NaN \/ get tv q = NaN ->
  get a e = NaN.
Proof. intros g p t v pv tv e q ws ms m a; exact (det_nan g p t v pv tv e q ws ms m a). Qed.
Print Assumptions C22_nan.

(** ** C23 *)
(** [x], [y]: prediction and target anomalies at the counted points. *)
Theorem C23_range : forall g p t clim v pv tv cv c x y ws wrs ms bs mcov acc e,
  NoDup (keys p) -> dget p v = Some pv -> dget t v = Some tv -> dget clim v = Some cv -> align_climatology pv cv = Ok c ->
  let cov := binop vmul (binop vsub pv c) (binop vsub tv c) in
  weighted_input g cov (fun q => x q * y q) ws wrs ms bs ->
  same_sample cov (da_map vsq (binop vsub pv c)) -> same_sample cov (da_map vsq (binop vsub tv c)) ->
  (forall q, point_of (dims cov) q -> counted g cov q = true ->
     get (binop vsub pv c) q = Fin (x q) /\ get (binop vsub tv c) q = Fin (y q)) ->
  let u := point_weight g cov wrs bs in
  (forall q, 0 <= u q) ->
  metric_value g p t (ACC clim) v acc ->
  metric_value g p t (metric_of_statistic (AnomalyCovariance clim)) v mcov -> point_of (dims mcov) e ->
  exists P, reduced_points (cov :: ws ++ ms) (reduce_dims g) e P /\
    let vp := wavg P u (fun q => x q ^ 2) in let vt := wavg P u (fun q => y q ^ 2) in
    (rsum (map u P) <> 0 -> 0 < vp -> 0 < vt ->
       exists a, get acc e = Fin a /\ a = wavg P u (fun q => x q * y q) / (sqrt vp * sqrt vt) /\ -1 <= a <= 1 /\
         ((forall q, In q P -> u q <> 0 -> x q = y q) -> a = 1)).
Proof. intros g p t clim v pv tv cv c x y ws wrs ms bs mcov acc e; exact (acc_full g p t clim v pv tv cv c x y ws wrs ms bs mcov acc e). Qed.
Print Assumptions C23_range.

(** Multiplying the forecast anomaly by a positive factor leaves ACC unchanged, by a
    negative one negates it. *)
Theorem C23_rescale : forall g p p' t clim v pv pv' tv cv c c' x y k ws wrs ms bs mcov acc acc' e,
  NoDup (keys p) -> NoDup (keys p') -> dget p v = Some pv -> dget p' v = Some pv' -> dget t v = Some tv -> dget clim v = Some cv ->
  align_climatology pv cv = Ok c -> align_climatology pv' cv = Ok c' ->
  let cov := binop vmul (binop vsub pv c) (binop vsub tv c) in
  weighted_input g cov (fun q => x q * y q) ws wrs ms bs ->
  same_sample cov (da_map vsq (binop vsub pv c)) -> same_sample cov (da_map vsq (binop vsub tv c)) ->
  same_sample cov (binop vmul (binop vsub pv' c') (binop vsub tv c')) ->
  same_sample cov (da_map vsq (binop vsub pv' c')) -> same_sample cov (da_map vsq (binop vsub tv c')) ->
  (forall q, point_of (dims cov) q -> counted g cov q = true -> get (binop vsub pv c) q = Fin (x q)) ->
  (forall q, point_of (dims cov) q -> counted g cov q = true -> get (binop vsub tv c) q = Fin (y q)) ->
  (forall q, point_of (dims cov) q -> counted g cov q = true -> get (binop vsub pv' c') q = Fin (k * x q)) ->
  (forall q, point_of (dims cov) q -> counted g cov q = true -> get (binop vsub tv c') q = Fin (y q)) ->
  let u := point_weight g cov wrs bs in
  (forall q, 0 <= u q) -> k <> 0 ->
  metric_value g p t (ACC clim) v acc -> metric_value g p' t (ACC clim) v acc' ->
  metric_value g p t (metric_of_statistic (AnomalyCovariance clim)) v mcov -> point_of (dims mcov) e ->
  exists P, reduced_points (cov :: ws ++ ms) (reduce_dims g) e P /\
    (rsum (map u P) <> 0 -> 0 < wavg P u (fun q => x q ^ 2) -> 0 < wavg P u (fun q => y q ^ 2) ->
     exists a, get acc e = Fin a /\ get acc' e = Fin ((if Rlt_dec 0 k then 1 else -1) * a)).
Proof.
  intros g p p' t clim v pv pv' tv cv c c' x y k ws wrs ms bs mcov acc acc' e H1 H2 H3 H4 H5 H6 H7 H8 cov W S1 S2 S3 S4 S5 X1 X2 X3 X4 u Hu Hk M1 M2 M3 He.
  exact (acc_rescale g p p' t clim v pv pv' tv cv c c' x y k ws wrs ms bs H1 H2 H3 H4 H5 H6 H7 H8 W S1 S2 S3 S4 S5 X1 X2 X3 X4 Hu Hk mcov acc acc' e M1 M2 M3 He).
Qed.
Print Assumptions C23_rescale.

(** The sample hypotheses hold when predictions and targets have the same coordinates
    (and mask) and all anomalies are finite. *)
Theorem C23_same_sample : forall pv tv c x y,
  wf pv -> wf tv -> wf c -> dims pv = dims tv -> aux pv = aux tv -> NoDup (keys (aux (binop vsub pv c))) ->
  (forall q, point_of (dims (binop vsub pv c)) q -> get (binop vsub pv c) q = Fin (x q)) ->
  (forall q, point_of (dims (binop vsub tv c)) q -> get (binop vsub tv c) q = Fin (y q)) ->
  let cov := binop vmul (binop vsub pv c) (binop vsub tv c) in
  same_sample cov (da_map vsq (binop vsub pv c)) /\ same_sample cov (da_map vsq (binop vsub tv c)) /\ wf cov /\
  dims cov = dims (binop vsub pv c) /\ aux cov = aux (binop vsub pv c).
Proof. intros pv tv c x y H1 H2 H3 H4 H5 H6 H7 H8. exact (anomalies_same_sample pv tv c x y H1 H2 H3 H4 H5 H6 H7 H8). Qed.
Print Assumptions C23_same_sample.

(** Example: two valid times, climatology 0; predictions 1, 2; targets 3, 1. *)
Definition vt_da (f : Z -> R) (x : dict string coord) : da :=
  mkDa [("valid_time", [LZ 0; LZ 1])] (fun e => Fin (f (time_value (e "valid_time")))) x.
Definition ex_clim : vars da := [("t", mkDa [("time", [LZ 0; LZ 1])] (fun _ => Fin 0) [])].
Definition ex_g : aggregator := mkAgg ["valid_time"] [] [] true false.
Definition ex_p : da := vt_da (fun z => if (z =? 0)%Z then 1 else 2) [].
Definition ex_t : da := vt_da (fun z => if (z =? 0)%Z then 3 else 1) [].
Definition ex_c : da := mkDa [("valid_time", [LZ 0; LZ 1])] (fun e => Fin 0) [].
Lemma wf_vt f x : wf (vt_da f x).
Proof.
  split; [repeat constructor; intros []|]. split.
  - intros d ls [[= <- <-]|[]]. repeat constructor; simpl; intuition discriminate.
  - intros e e' H. simpl. rewrite (H "valid_time"); [reflexivity|now left].
Qed.
Example C22_example :
  weighted_input ex_g (binop vsub ex_p ex_t) (fun e => (if (time_value (e "valid_time") =? 0)%Z then 1 else 2) - (if (time_value (e "valid_time") =? 0)%Z then 3 else 1)) [] [] [] [] /\
  (exists bias mae mse rmse,
     metric_value ex_g [("t", ex_p)] [("t", ex_t)] (metric_of_statistic Error) "t" bias /\
     metric_value ex_g [("t", ex_p)] [("t", ex_t)] (metric_of_statistic AbsoluteError) "t" mae /\
     metric_value ex_g [("t", ex_p)] [("t", ex_t)] (metric_of_statistic SquaredError) "t" mse /\
     metric_value ex_g [("t", ex_p)] [("t", ex_t)] RMSE "t" rmse /\ dims bias = [] /\ get bias env0 = Fin (-1/2)).
Proof.
  split.
  - constructor; [apply wf_binop; apply wf_vt|intros c H; discriminate H|intros ? []|intros ? []|reflexivity|reflexivity|intros ? []|constructor|constructor|intros e _ _; reflexivity].
  - do 4 eexists. split; [eexists; split; reflexivity|]. split; [eexists; split; reflexivity|]. split; [eexists; split; reflexivity|].
    split; [eexists; split; reflexivity|]. split; [reflexivity|].
    cbn -[Req_EM_T Rplus Rmult Ropp Rdiv IZR]. destruct (Req_EM_T _ 0); [lra|]. f_equal. field.
Qed.
Lemma acc_eval a b c d e : a / b = c -> b <> 0 -> 0 < d -> 0 < e ->
  vdiv (if Req_EM_T b 0 then vinf (rsign a) else Fin (a / b)) (vmul (vsqrt (Fin d)) (vsqrt (Fin e))) = Fin (c / (sqrt d * sqrt e)).
Proof.
  intros H Hb Hd He. destruct (Req_EM_T b 0); [contradiction|]. rewrite H, !vsqrt_Fin by lra. cbn [vmul vdiv].
  pose proof (sqrt_lt_R0 _ Hd). pose proof (sqrt_lt_R0 _ He). destruct (Req_EM_T _ 0) as [E|]; [|reflexivity]. apply Rmult_integral in E. lra.
Qed.
Lemma mean_eval a b d : a / b = d -> b <> 0 -> (if Req_EM_T b 0 then vinf (rsign a) else Fin (a / b)) = Fin d.
Proof. intros H Hb. destruct (Req_EM_T b 0); [contradiction|]. now rewrite H. Qed.
Example C23_example : align_climatology ex_p (snd (hd ("", da_empty) ex_clim)) = Ok ex_c /\
  exists acc, metric_value ex_g [("t", ex_p)] [("t", ex_t)] (ACC ex_clim) "t" acc /\
  get acc env0 = Fin (5 / 2 / (sqrt (5 / 2) * sqrt 5)).
Proof.
  split.
  - cbn. unfold ex_c. reflexivity.
  - eexists. split; [eexists; split; reflexivity|].
    cbn -[Req_EM_T Rplus Rmult Ropp Rdiv IZR Rlt_dec sqrt vsqrt].
    rewrite (mean_eval ((1 + - 0) * (1 + - 0) * 1 + ((2 + - 0) * (2 + - 0) * 1 + 0)) _ (5/2)) by lra.
    rewrite (mean_eval ((3 + - 0) * (3 + - 0) * 1 + ((1 + - 0) * (1 + - 0) * 1 + 0)) _ 5) by lra.
    apply acc_eval; lra.
Qed.
Example C23_example_sample : forall x y : env -> R,
  x = (fun q => if (time_value (q "valid_time") =? 0)%Z then 1 else 2) -> y = (fun q => if (time_value (q "valid_time") =? 0)%Z then 3 else 1) ->
  let cov := binop vmul (binop vsub ex_p ex_c) (binop vsub ex_t ex_c) in
  weighted_input ex_g cov (fun q => x q * y q) [] [] [] [] /\
  same_sample cov (da_map vsq (binop vsub ex_p ex_c)) /\ same_sample cov (da_map vsq (binop vsub ex_t ex_c)).
Proof.
  intros x y -> -> cov.
  assert (wf ex_c) as Wc.
  { split; [repeat constructor; intros []|]. split; [|reflexivity]. intros d ls [[= <- <-]|[]]. repeat constructor; simpl; intuition discriminate. }
  destruct (C23_same_sample ex_p ex_t ex_c (fun q => if (time_value (q "valid_time") =? 0)%Z then 1 else 2) (fun q => if (time_value (q "valid_time") =? 0)%Z then 3 else 1)) as (S1 & S2 & S3 & S4 & S5);
    [apply wf_vt|apply wf_vt|exact Wc|reflexivity|reflexivity|constructor|intros q _; simpl; f_equal; ring|intros q _; simpl; f_equal; ring|].
  split; [|split; assumption].
  constructor; [exact S3|intros c H; discriminate H|intros ? []|intros ? []|reflexivity|reflexivity|intros ? []|constructor|constructor|].
  intros e _ _. simpl. f_equal. ring.
Qed.

(** Without the sample hypotheses the bound fails: the targets carry a mask and the
    predictions do not, so the forecast variance is taken over all points and the covariance
    over the unmasked ones.  Here ACC is the square root of 2. *)
Definition ex_mask : coord := mkCoord ["valid_time"] (fun e => LB (time_value (e "valid_time") =? 0)%Z).
Definition ex_pm : da := vt_da (fun z => if (z =? 0)%Z then 1 else 0) [].
Definition ex_tm : da := vt_da (fun z => 1) [("mask", ex_mask)].
Theorem C23_mask_on_targets_only_refuted :
  exists acc, metric_value ex_g [("t", ex_pm)] [("t", ex_tm)] (ACC ex_clim) "t" acc /\
  exists a, get acc env0 = Fin a /\ 1 < a.
Proof.
  eexists. split; [eexists; split; reflexivity|].
  cbn -[Req_EM_T Rplus Rmult Ropp Rdiv IZR Rlt_dec sqrt vsqrt].
  eexists. split.
  - match goal with |- vdiv _ (vmul (vsqrt ?x) (vsqrt ?y)) = _ => 
      assert (x = Fin (1/2)) as -> by (apply mean_eval; lra); assert (y = Fin 1) as -> by (apply mean_eval; lra) end.
    rewrite !vsqrt_Fin by lra. cbn [vmul vdiv]. assert (0 < sqrt (1/2)) by (apply sqrt_lt_R0; lra). rewrite sqrt_1.
    destruct (Req_EM_T _ 0); [lra|reflexivity].
  - assert (sqrt (1/2) < 1) by (rewrite <- sqrt_1 at 2; apply sqrt_lt_1; lra).
    assert (0 < sqrt (1/2)) by (apply sqrt_lt_R0; lra). apply Rmult_lt_reg_r with (sqrt (1/2)); auto.
    replace (1 / (sqrt (1 / 2) * 1) * sqrt (1 / 2)) with 1 by (field; lra). lra.
Qed.
Print Assumptions C23_mask_on_targets_only_refuted.
