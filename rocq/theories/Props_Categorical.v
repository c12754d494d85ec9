(** C24-C26: categorical metrics (metrics/categorical.py). *)
From Coq Require Import String List Bool Reals Lra ZArith Psatz.
Import ListNotations.
From Verif Require Import Prelude Values Model_XArray Spec_XArray Proofs_XArray Model_Tree Model_MetricsBase Model_Aggregation
  Spec_Aggregator Spec_Metrics Proofs_Metrics Spec_Means Proofs_Means Model_Calendar Model_Deterministic Proofs_Deterministic
  Model_Categorical Spec_Reduce Spec_Categorical Proofs_Categorical Proofs_Seeps Proofs_Seeps2 Props_Deterministic.
Local Open Scope R_scope.
Local Open Scope string_scope.
Local Open Scope list_scope.

(** ** C24 *)
(** The four statistics at one point: NaN in either input makes all four NaN; for finite
    inputs exactly one is 1 and the others 0, chosen by whether forecast and target are
    non-zero. *)
Theorem C24_point : forall p t v pv tv rtp rtn rfp rfn tp tn fp fn e,
  NoDup (keys p) -> dget p v = Some pv -> dget t v = Some tv ->
  compute TruePositives p t = Ok rtp -> compute TrueNegatives p t = Ok rtn ->
  compute FalsePositives p t = Ok rfp -> compute FalseNegatives p t = Ok rfn ->
  dget rtp v = Some tp -> dget rtn v = Some tn -> dget rfp v = Some fp -> dget rfn v = Some fn ->
  (get pv e = NaN \/ get tv e = NaN -> get tp e = NaN /\ get tn e = NaN /\ get fp e = NaN /\ get fn e = NaN) /\
  (forall x y, get pv e = Fin x -> get tv e = Fin y ->
     get tp e = (if Req_EM_T x 0 then Fin 0 else if Req_EM_T y 0 then Fin 0 else Fin 1) /\
     get tn e = (if Req_EM_T x 0 then if Req_EM_T y 0 then Fin 1 else Fin 0 else Fin 0) /\
     get fp e = (if Req_EM_T x 0 then Fin 0 else if Req_EM_T y 0 then Fin 1 else Fin 0) /\
     get fn e = (if Req_EM_T x 0 then if Req_EM_T y 0 then Fin 0 else Fin 1 else Fin 0) /\
     vadd (get tp e) (vadd (get tn e) (vadd (get fp e) (get fn e))) = Fin 1).
Proof.
  intros p t v pv tv rtp rtn rfp rfn tp tn fp fn e Hn Hp Ht C1 C2 C3 C4 D1 D2 D3 D4.
  assert (forall name f r st, compute (per_variable_statistic name (fun p t => Ok (Some (contingency f p t)))) p t = Ok r -> dget r v = Some st -> st = contingency f pv tv) as K.
  { intros name f r st Hc Hd. apply (per_variable_statistic_spec name) in Hc; auto. destruct Hc as [_ Hc]. apply Hc in Hd. destruct Hd as (a & b & Ha & Hb & [= <-]).
    rewrite Hp in Ha. rewrite Ht in Hb. injection Ha as <-. injection Hb as <-. reflexivity. }
  rewrite (K _ _ _ _ C1 D1), (K _ _ _ _ C2 D2), (K _ _ _ _ C3 D3), (K _ _ _ _ C4 D4). clear K. rewrite !contingency_get. split.
  - intros [->| ->]; [destruct (get tv e)|destruct (get pv e)]; repeat split; reflexivity.
  - intros x y -> ->. cbn [vmul isnan].
    assert (forall z, vtruthy (Fin z) = if Req_EM_T z 0 then false else true) as V.
    { intros z. unfold vtruthy. cbn [veqb]. unfold Reqb. destruct (Req_EM_T z 0); reflexivity. }
    rewrite !V. destruct (Req_EM_T x 0), (Req_EM_T y 0); cbn [negb andb]; unfold b2v; repeat split; cbn [vadd]; f_equal; lra.
Qed.
Print Assumptions C24_point.

(** The four means, for any aggregator configuration with non-negative weights: either all
    NaN (no point has weight), or non-negative, adding up to 1, and equal to the weighted
    frequency of the four outcomes. *)
Theorem C24_means : forall g p t v pv tv s ws wrs ms bs tp tn fp fn e,
  NoDup (keys p) -> dget p v = Some pv -> dget t v = Some tv ->
  wf pv -> NoDup (keys (aux pv)) -> wf tv -> NoDup (keys (aux tv)) ->
  weighted_input g (contingency (fun x y => x && y) pv tv) s ws wrs ms bs ->
  let u := point_weight g (contingency (fun x y => x && y) pv tv) wrs bs in
  let yes (f : bool -> bool -> bool) (q : env) := if f (vtruthy (get pv q)) (vtruthy (get tv q)) then 1 else 0 in
  (forall q, 0 <= u q) ->
  metric_value g p t (metric_of_statistic TruePositives) v tp -> metric_value g p t (metric_of_statistic TrueNegatives) v tn ->
  metric_value g p t (metric_of_statistic FalsePositives) v fp -> metric_value g p t (metric_of_statistic FalseNegatives) v fn ->
  point_of (dims tp) e ->
  (get tp e = NaN /\ get tn e = NaN /\ get fp e = NaN /\ get fn e = NaN) \/
  exists P a b c d, reduced_points (contingency (fun x y => x && y) pv tv :: ws ++ ms) (reduce_dims g) e P /\
    get tp e = Fin a /\ get tn e = Fin b /\ get fp e = Fin c /\ get fn e = Fin d /\
    0 <= a /\ 0 <= b /\ 0 <= c /\ 0 <= d /\ a + b + c + d = 1 /\
    a = wavg P u (yes (fun x y => x && y)) /\ b = wavg P u (yes (fun x y => negb x && negb y)) /\
    c = wavg P u (yes (fun x y => x && negb y)) /\ d = wavg P u (yes (fun x y => negb x && y)).
Proof.
  intros g p t v pv tv s ws wrs ms bs tp tn fp fn e Hn Hp Ht W1 N1 W2 N2 W u yes Hu H1 H2 H3 H4 He.
  exact (table_means g p t v pv tv s ws wrs ms bs Hn Hp Ht (conj W1 N1) (conj W2 N2) W Hu tp tn fp fn e H1 H2 H3 H4 He).
Qed.
Print Assumptions C24_means.

(** ** C25: values of the scores at a contingency table (tp, tn, fp, fn) *)
Theorem C25_values : forall g p t v e tp tn fp fn x, table_at g p t v e tp tn fp fn ->
  (score g p t CSI v e x -> quotient tp (tp + fp + fn) x) /\
  (score g p t Accuracy v e x -> quotient (tp + tn) (tp + tn + fp + fn) x) /\
  (score g p t Recall v e x -> quotient tp (tp + fn) x) /\
  (score g p t FalseAlarmRate v e x -> quotient fp (tp + fp) x) /\
  (score g p t Precision v e x -> quotient tp (tp + fp) x) /\
  (score g p t F1Score v e x -> quotient (2 * tp) (2 * tp + fp + fn) x) /\
  (score g p t FrequencyBias v e x ->
     (tp + fn <> 0 -> x = Fin ((tp + fp) / (tp + fn))) /\ (tp + fn = 0 -> x = if Req_EM_T fp 0 then NaN else PInf)) /\
  (score g p t HSS v e x -> quotient (2 * (tp * tn - fp * fn)) ((tp + fn) * (fn + tn) + (tp + fp) * (fp + tn)) x) /\
  (score g p t ETS v e x ->
     let n := tp + fp + fn + tn in let chance := (tp + fp) * (tp + fn) / n in
     (n = 0 -> x = NaN) /\ (n <> 0 -> quotient (tp - chance) (tp + fp + fn - chance) x)).
Proof.
  intros g p t v e tp tn fp fn x H. split; [intros S; exact (csi_value g p t v e tp tn fp fn x H S)|]. split.
  { intros S. pose proof (acc_score g p t v e tp tn fp fn x H S) as Q. replace (tp + tn + fp + fn) with (tp + fp + fn + tn) by ring. exact Q. }
  split; [intros S; exact (recall_value g p t v e tp tn fp fn x H S)|]. split; [intros S; exact (far_value g p t v e tp tn fp fn x H S)|].
  split; [intros S; exact (precision_value g p t v e tp tn fp fn x H S)|]. split; [intros S; exact (f1_value g p t v e tp tn fp fn x H S)|].
  split; [intros S; exact (fbias_value g p t v e tp tn fp fn x H S)|]. split; [intros S; exact (hss_value g p t v e tp tn fp fn x H S)|intros S; exact (ets_value g p t v e tp tn fp fn x H S)].
Qed.
Print Assumptions C25_values.

Lemma table_nonneg g p t v e tp tn fp fn : table_at g p t v e tp tn fp fn -> 0 <= tp /\ 0 <= tn /\ 0 <= fp /\ 0 <= fn.
Proof. intros (A & B & C & D & _). auto. Qed.
Lemma quot_unit n d x : 0 <= n <= d -> quotient n d x -> x = NaN \/ exists r, x = Fin r /\ 0 <= r <= 1.
Proof.
  intros Hb [[_ ->]|[Hd ->]]; [auto|right]. eexists. split; [reflexivity|]. assert (0 < d) by lra. split.
  - apply Rmult_le_pos; [lra|]. left. now apply Rinv_0_lt_compat.
  - apply Rmult_le_reg_r with d; auto. unfold Rdiv. rewrite Rmult_assoc, Rinv_l by lra. lra.
Qed.

(** Ranges. *)
Theorem C25_unit_range : forall g p t v e tp tn fp fn m x, table_at g p t v e tp tn fp fn ->
  In m [CSI; Accuracy; Recall; FalseAlarmRate; Precision; F1Score] -> score g p t m v e x ->
  x = NaN \/ exists r, x = Fin r /\ 0 <= r <= 1.
Proof.
  intros g p t v e tp tn fp fn m x H Hm S. pose proof (table_nonneg _ _ _ _ _ _ _ _ _ H) as (A & B & C & D).
  destruct (C25_values g p t v e tp tn fp fn x H) as (V1 & V2 & V3 & V4 & V5 & V6 & _).
  destruct Hm as [<-|[<-|[<-|[<-|[<-|[<-|[]]]]]]];
    [apply V1 in S|apply V2 in S|apply V3 in S|apply V4 in S|apply V5 in S|apply V6 in S]; (eapply quot_unit; [|exact S]); lra.
Qed.
Print Assumptions C25_unit_range.

(** Each is NaN exactly when its denominator is zero: no event counted by it. *)
Theorem C25_nan_exactly : forall g p t v e tp tn fp fn x, table_at g p t v e tp tn fp fn ->
  (score g p t CSI v e x -> (x = NaN <-> tp = 0 /\ fp = 0 /\ fn = 0)) /\
  (score g p t Accuracy v e x -> (x = NaN <-> tp = 0 /\ tn = 0 /\ fp = 0 /\ fn = 0)) /\
  (score g p t Recall v e x -> (x = NaN <-> tp = 0 /\ fn = 0)) /\
  (score g p t FalseAlarmRate v e x -> (x = NaN <-> tp = 0 /\ fp = 0)) /\
  (score g p t Precision v e x -> (x = NaN <-> tp = 0 /\ fp = 0)) /\
  (score g p t F1Score v e x -> (x = NaN <-> tp = 0 /\ fp = 0 /\ fn = 0)).
Proof.
  intros g p t v e tp tn fp fn x H. pose proof (table_nonneg _ _ _ _ _ _ _ _ _ H) as (A & B & C & D).
  destruct (C25_values g p t v e tp tn fp fn x H) as (V1 & V2 & V3 & V4 & V5 & V6 & _).
  assert (forall n d (P : Prop), quotient n d x -> (d = 0 <-> P) -> (x = NaN <-> P)) as K.
  { intros n d P [[E ->]|[E ->]] HP; split; intros Q; try reflexivity; try discriminate; [now apply HP|apply HP in Q; contradiction]. }
  split; [intros S; apply (K _ _ _ (V1 S)); lra|]. split; [intros S; apply (K _ _ _ (V2 S)); lra|]. split; [intros S; apply (K _ _ _ (V3 S)); lra|].
  split; [intros S; apply (K _ _ _ (V4 S)); lra|]. split; [intros S; apply (K _ _ _ (V5 S)); lra|intros S; apply (K _ _ _ (V6 S)); lra].
Qed.
Print Assumptions C25_nan_exactly.

Lemma quot_Fin n d r : quotient n d (Fin r) -> d <> 0 /\ r = n / d.
Proof. intros [[_ H]|[H [= ->]]]; [discriminate|auto]. Qed.

(** Relations between the scores (where they are finite). *)
Theorem C25_precision_far : forall g p t v e tp tn fp fn x y, table_at g p t v e tp tn fp fn ->
  score g p t Precision v e (Fin x) -> score g p t FalseAlarmRate v e (Fin y) -> x + y = 1.
Proof.
  intros g p t v e tp tn fp fn x y H S1 S2.
  pose proof (precision_value g p t v e tp tn fp fn _ H S1) as Q1. pose proof (far_value g p t v e tp tn fp fn _ H S2) as Q2.
  apply quot_Fin in Q1, Q2. destruct Q1 as [N ->], Q2 as [_ ->]. field. exact N.
Qed.
Print Assumptions C25_precision_far.

Theorem C25_f1 : forall g p t v e tp tn fp fn f1 pr re csi, table_at g p t v e tp tn fp fn ->
  score g p t F1Score v e (Fin f1) ->
  (score g p t Precision v e (Fin pr) -> score g p t Recall v e (Fin re) -> pr + re <> 0 -> f1 = 2 * pr * re / (pr + re)) /\
  (score g p t CSI v e (Fin csi) -> f1 = 2 * csi / (1 + csi) /\ csi <= f1).
Proof.
  intros g p t v e tp tn fp fn f1 pr re csi H S1. pose proof (table_nonneg _ _ _ _ _ _ _ _ _ H) as (A & B & C & D).
  pose proof (f1_value g p t v e tp tn fp fn _ H S1) as Q1. apply quot_Fin in Q1. destruct Q1 as [N1 E1]. split.
  - intros S2 S3 N. pose proof (precision_value g p t v e tp tn fp fn _ H S2) as Q2. pose proof (recall_value g p t v e tp tn fp fn _ H S3) as Q3.
    apply quot_Fin in Q2, Q3. destruct Q2 as [N2 ->], Q3 as [N3 ->]. rewrite E1. field. split; [auto|split; [auto|split; [|auto]]].
    intros E. destruct (Req_dec tp 0) as [Z|Z]; [apply N; rewrite Z; unfold Rdiv; ring|].
    assert (0 < tp) by lra. assert (0 < tp * (tp + fn)) by (apply Rmult_lt_0_compat; lra). assert (0 <= tp * (tp + fp)) by (apply Rmult_le_pos; lra). lra.
  - intros S2. pose proof (csi_value g p t v e tp tn fp fn _ H S2) as Q2. apply quot_Fin in Q2. destruct Q2 as [N2 ->].
    assert (0 < tp + fp + fn) by lra. split.
    + rewrite E1. field. split; lra.
    + rewrite E1. apply Rmult_le_reg_r with (tp + fp + fn); auto. unfold Rdiv at 1. rewrite Rmult_assoc, Rinv_l by lra. rewrite Rmult_1_r.
      replace (2 * tp / (2 * tp + fp + fn) * (tp + fp + fn)) with (tp + tp * (fp + fn) / (2 * tp + fp + fn)) by (field; lra).
      assert (0 <= tp * (fp + fn) / (2 * tp + fp + fn)); [|lra]. apply Rmult_le_pos; [nra|]. left. apply Rinv_0_lt_compat. lra.
Qed.
Print Assumptions C25_f1.

Lemma hss_den tp tn fp fn : 0 <= tp -> 0 <= tn -> 0 <= fp -> 0 <= fn -> 0 <= (tp + fn) * (fn + tn) + (tp + fp) * (fp + tn).
Proof. intros. assert (0 <= (tp + fn) * (fn + tn)) by (apply Rmult_le_pos; lra). assert (0 <= (tp + fp) * (fp + tn)) by (apply Rmult_le_pos; lra). lra. Qed.
Lemma div_bounds n d lo hi : 0 < d -> lo * d <= n <= hi * d -> lo <= n / d <= hi.
Proof. intros Hd [H1 H2]. split; apply Rmult_le_reg_r with d; auto; unfold Rdiv; rewrite Rmult_assoc, Rinv_l, Rmult_1_r by lra; lra. Qed.

(** HSS: in [-1, 1]; 1 exactly for a perfect forecast, 0 exactly when forecasts and
    observations are independent (tp * tn = fp * fn). *)
Theorem C25_hss : forall g p t v e tp tn fp fn h, table_at g p t v e tp tn fp fn -> score g p t HSS v e (Fin h) ->
  -1 <= h <= 1 /\ (h = 1 <-> fp = 0 /\ fn = 0) /\ (h = 0 <-> tp * tn = fp * fn) /\ (0 < h <-> fp * fn < tp * tn).
Proof.
  intros g p t v e tp tn fp fn h H S. pose proof (table_nonneg _ _ _ _ _ _ _ _ _ H) as (A & B & C & D).
  pose proof (hss_value g p t v e tp tn fp fn _ H S) as Q. apply quot_Fin in Q. destruct Q as [N ->].
  pose proof (hss_den tp tn fp fn A B C D) as Hd. set (den := (tp + fn) * (fn + tn) + (tp + fp) * (fp + tn)) in *. assert (0 < den) as Hp by lra.
  pose proof (Rmult_le_pos _ _ C D) as K1. pose proof (Rmult_le_pos _ _ A B) as K2. pose proof (Rmult_le_pos _ _ A C) as K3. pose proof (Rmult_le_pos _ _ A D) as K4.
  pose proof (Rmult_le_pos _ _ B C) as K5. pose proof (Rmult_le_pos _ _ B D) as K6. pose proof (Rle_0_sqr fp) as K7. pose proof (Rle_0_sqr fn) as K8. pose proof (Rle_0_sqr (fp - fn)) as K9. unfold Rsqr in K7, K8, K9.
  split; [|split; [|split]].
  - apply div_bounds; auto. unfold den. split; lra.
  - split.
    + intros E. assert (2 * (tp * tn - fp * fn) = den) as E1 by (replace den with (1 * den) by ring; rewrite <- E; field; lra).
      unfold den in E1. assert (fn * fn = 0) as Z1 by lra. assert (fp * fp = 0) as Z2 by lra. apply Rmult_integral in Z1, Z2. lra.
    + intros [-> ->]. unfold den in *. field. lra.
  - split.
    + intros E. assert (2 * (tp * tn - fp * fn) = 0 * den) by (rewrite <- E; field; lra). lra.
    + intros E. rewrite E. unfold Rdiv. ring.
  - split.
    + intros E. apply Rmult_lt_compat_r with (r := den) in E; auto. unfold Rdiv in E. rewrite Rmult_assoc, Rinv_l in E by lra. lra.
    + intros E. apply Rdiv_lt_0_compat; lra.
Qed.
Print Assumptions C25_hss.

Theorem C25_ets : forall g p t v e tp tn fp fn h x, table_at g p t v e tp tn fp fn ->
  score g p t ETS v e (Fin x) -> score g p t HSS v e (Fin h) ->
  x = h / (2 - h) /\ -1/3 <= x <= 1 /\ (x = 1 <-> fp = 0 /\ fn = 0) /\ (x = 0 <-> tp * tn = fp * fn).
Proof.
  intros g p t v e tp tn fp fn h x H S1 S2. pose proof (table_nonneg _ _ _ _ _ _ _ _ _ H) as (A & B & C & D).
  destruct (C25_hss g p t v e tp tn fp fn h H S2) as (Hb & H1 & H0 & _).
  pose proof (hss_value g p t v e tp tn fp fn _ H S2) as Q2. apply quot_Fin in Q2. destruct Q2 as [N2 E2].
  destruct (ets_value g p t v e tp tn fp fn _ H S1) as [Z1 Z2]. cbn zeta in *.
  destruct (Req_dec (tp + fp + fn + tn) 0) as [E|E]; [apply Z1 in E; discriminate|]. apply Z2 in E as Q1. apply quot_Fin in Q1. destruct Q1 as [N1 E1].
  assert (x = h / (2 - h)) as Ex.
  { rewrite E1, E2.
    assert (2 * ((tp + fn) * (fn + tn) + (tp + fp) * (fp + tn)) - 2 * (tp * tn - fp * fn) <> 0) as K.
    { intros K. apply N1. replace ((tp + fp) * (tp + fn) / (tp + fp + fn + tn)) with (tp + fp + fn); [ring|].
      assert (2 * ((tp + fn) * (fn + tn) + (tp + fp) * (fp + tn)) - 2 * (tp * tn - fp * fn) = 2 * ((tp + fp + fn) * (tp + fp + fn + tn) - (tp + fp) * (tp + fn))) as K2 by ring.
      rewrite K2 in K. assert ((tp + fp) * (tp + fn) = (tp + fp + fn) * (tp + fp + fn + tn)) as -> by lra. field. exact E. }
    field. repeat match goal with |- _ /\ _ => split end; auto; intros K3; apply K; lra. }
  split; [exact Ex|]. assert (0 < 2 - h) by lra. split; [rewrite Ex; apply div_bounds; lra|]. split.
  - rewrite <- H1. split; intros K; [|rewrite Ex, K; lra].
    assert (h = 1 * (2 - h)) by (rewrite <- K, Ex; field; lra). lra.
  - rewrite <- H0. split; intros K; [|rewrite Ex, K; lra].
    assert (h = 0 * (2 - h)) by (rewrite <- K, Ex; field; lra). lra.
Qed.
Print Assumptions C25_ets.

(** SEDI: NaN exactly when there are no events or no non-events; otherwise the formula of
    the (clipped) hit rate and false alarm rate, strictly between -1 and 1, positive exactly
    when the clipped hit rate exceeds the clipped false alarm rate. *)
Theorem C25_sedi : forall g p t v e tp tn fp fn x, table_at g p t v e tp tn fp fn -> score g p t SEDI v e x ->
  (tp + fn = 0 \/ fp + tn = 0 -> x = NaN) /\
  (tp + fn <> 0 -> fp + tn <> 0 ->
     let clip z := Rmin (1 - 1 / 1000000) (Rmax (1 / 1000000) z) in
     let h := clip (tp / (tp + fn)) in let f := clip (fp / (fp + tn)) in
     exists s, x = Fin s /\ s = (ln f - ln h + ln (1 - h) - ln (1 - f)) / (ln h + ln f + ln (1 - h) + ln (1 - f)) /\
       -1 < s < 1 /\ (0 < s <-> f < h) /\ (s = 0 <-> f = h)).
Proof.
  intros g p t v e tp tn fp fn x H S. destruct (sedi_value g p t v e tp tn fp fn x H S) as [Z1 Z2]. split; [exact Z1|].
  intros N1 N2. cbv zeta beta. specialize (Z2 N1 N2).
  assert (forall z, Rmin (1 - 1 / 1000000) (Rmax (1 / 1000000) z) = clip01 z) as E by (intros z; unfold clip01, sedi_eps; f_equal; [lra|f_equal; lra]).
  rewrite !E. eexists. split; [exact Z2|]. split; [reflexivity|]. apply sedi_range; apply clip01_bounds.
Qed.
Print Assumptions C25_sedi.

(** Example: four valid times, one of each outcome. *)
Definition c_da (f : Z -> R) : da :=
  mkDa [("valid_time", [LZ 0; LZ 1; LZ 2; LZ 3])] (fun e => Fin (f (time_value (e "valid_time")))) [].
Definition c_p : vars da := [("t", c_da (fun z => if (z <? 2)%Z then 1 else 0))].
Definition c_t : vars da := [("t", c_da (fun z => if (z =? 0)%Z then 1 else if (z =? 2)%Z then 1 else 0))].
Lemma truthy1 : vtruthy (Fin 1) = true. Proof. unfold vtruthy. cbn [veqb]. rewrite (proj2 (Reqb_false 1 0)) by lra. reflexivity. Qed.
Lemma truthy0 : vtruthy (Fin 0) = false. Proof. unfold vtruthy. cbn [veqb]. rewrite (proj2 (Reqb_true 0 0)) by lra. reflexivity. Qed.
Example C25_example : table_at ex_g c_p c_t "t" env0 (1/4) (1/4) (1/4) (1/4) /\
  exists x, score ex_g c_p c_t HSS "t" env0 x /\ exists y, score ex_g c_p c_t ETS "t" env0 y.
Proof.
  split.
  - split; [lra|]. split; [lra|]. split; [lra|]. split; [lra|]. do 4 eexists.
    split; [eexists; split; reflexivity|]. split.
    { cbn -[Req_EM_T Rplus Rmult Ropp Rdiv IZR vtruthy]. rewrite ?truthy1, ?truthy0. cbn -[Req_EM_T Rplus Rmult Ropp Rdiv IZR vtruthy]. rewrite ?vtruthy_b2v. unfold b2v. cbn -[Req_EM_T Rplus Rmult Ropp Rdiv IZR vtruthy]. apply mean_eval; lra. }
    split; [eexists; split; reflexivity|]. split.
    { cbn -[Req_EM_T Rplus Rmult Ropp Rdiv IZR vtruthy]. rewrite ?truthy1, ?truthy0. cbn -[Req_EM_T Rplus Rmult Ropp Rdiv IZR vtruthy]. rewrite ?vtruthy_b2v. unfold b2v. cbn -[Req_EM_T Rplus Rmult Ropp Rdiv IZR vtruthy]. apply mean_eval; lra. }
    split; [eexists; split; reflexivity|]. split.
    { cbn -[Req_EM_T Rplus Rmult Ropp Rdiv IZR vtruthy]. rewrite ?truthy1, ?truthy0. cbn -[Req_EM_T Rplus Rmult Ropp Rdiv IZR vtruthy]. rewrite ?vtruthy_b2v. unfold b2v. cbn -[Req_EM_T Rplus Rmult Ropp Rdiv IZR vtruthy]. apply mean_eval; lra. }
    split; [eexists; split; reflexivity|].
    { cbn -[Req_EM_T Rplus Rmult Ropp Rdiv IZR vtruthy]. rewrite ?truthy1, ?truthy0. cbn -[Req_EM_T Rplus Rmult Ropp Rdiv IZR vtruthy]. rewrite ?vtruthy_b2v. unfold b2v. cbn -[Req_EM_T Rplus Rmult Ropp Rdiv IZR vtruthy]. apply mean_eval; lra. }
  - eexists. split; [eexists; split; [eexists; split; reflexivity|reflexivity]|].
    eexists. eexists. split; [eexists; split; reflexivity|reflexivity].
Qed.

(** ** C26 *)
(** SEEPS at a point with finite precipitation amounts (metres), a wet threshold [w] above
    the dry threshold and an average dry fraction [q] inside the accepted range. *)
Theorem C26_value : forall wc dc p t r dry_mm lo hi e x y w q,
  (forall a, In a [wc; dc; p; t] -> wf a) -> times_ok p ->
  (forall a, In a [wc; dc; p; t] -> ~ In "forecast_cat" (dnames a) /\ ~ In "truth_cat" (dnames a)) ->
  point_of (dims p) e -> point_of (dims t) e ->
  point_outside ["dayofyear"; "hour"] wc e -> point_outside ["dayofyear"; "hour"] dc e ->
  seeps_var wc dc dry_mm lo hi p t = Ok r ->
  get p e = Fin x -> get t e = Fin y -> wet_threshold_at wc p e (Fin w) -> dry_fraction_at dc e q ->
  dry_mm / 1000 < w -> 0 < q < 1 -> lo <= q <= hi ->
  get r e = Fin (seeps_error q (cat_of (dry_mm / 1000) w x) (cat_of (dry_mm / 1000) w y)).
Proof.
  intros wc dc p t r dry_mm lo hi e x y w q H1 H2 H3 H4 H5 H6 H7 H8 H9 H10 H11 H12 H13 H14 H15.
  exact (seeps_value wc dc p t r dry_mm lo hi e H1 H2 H3 H4 H5 H6 H7 H8 x y w q H9 H10 H11 H12 H13 H14 H15).
Qed.
Print Assumptions C26_value.

(** The error matrix: zero exactly on the diagonal, positive elsewhere, and equitable: every
    constant forecast has the climatological expected score 1. *)
Theorem C26_matrix : forall q f o, 0 < q < 1 ->
  seeps_error q f f = 0 /\ (f <> o -> 0 < seeps_error q f o) /\
  clim_freq q Dry + clim_freq q Light + clim_freq q Heavy = 1 /\ clim_freq q Light = 2 * clim_freq q Heavy /\
  clim_freq q Dry * seeps_error q f Dry + clim_freq q Light * seeps_error q f Light + clim_freq q Heavy * seeps_error q f Heavy = 1.
Proof.
  intros q f o H. split; [apply seeps_diag|]. split; [now apply seeps_pos|]. split; [cbn; field|]. split; [cbn; field|]. now apply seeps_equitable.
Qed.
Print Assumptions C26_matrix.

Theorem C26_missing : forall wc dc p t r dry_mm lo hi e,
  (forall a, In a [wc; dc; p; t] -> wf a) -> times_ok p ->
  (forall a, In a [wc; dc; p; t] -> ~ In "forecast_cat" (dnames a) /\ ~ In "truth_cat" (dnames a)) ->
  point_of (dims p) e -> point_of (dims t) e ->
  point_outside ["dayofyear"; "hour"] wc e -> point_outside ["dayofyear"; "hour"] dc e ->
  seeps_var wc dc dry_mm lo hi p t = Ok r ->
  (get p e = NaN \/ get t e = NaN -> get r e = NaN) /\
  (forall q, dry_fraction_at dc e q -> q < lo \/ hi < q -> get r e = NaN) /\
  exists m, dget (aux r) "mask" = Some m /\
    (dget (aux p) "mask" = None \/ dget (aux t) "mask" = None) /\
    forall q, dry_fraction_at dc e q ->
      c_get m e = LB ((if Rle_dec lo q then true else false) && (if Rle_dec q hi then true else false) &&
        match dget (aux p) "mask" with Some c => label_is_one (c_get c e) | None => true end &&
        match dget (aux t) "mask" with Some c => label_is_one (c_get c e) | None => true end).
Proof.
  intros wc dc p t r dry_mm lo hi e H1 H2 H3 H4 H5 H6 H7 H8.
  destruct (seeps_out_of_range wc dc p t r dry_mm lo hi e H1 H2 H3 H4 H5 H6 H7 H8) as [A B].
  split; [exact B|]. split; [exact A|]. exact (seeps_mask_value wc dc p t r dry_mm lo hi e H1 H2 H3 H4 H5 H6 H7 H8).
Qed.
Print Assumptions C26_missing.

(** Example (also the non-vacuity witness): one point, wet threshold 2 mm or as given. *)
Definition s_p (x : val) : da := mkDa [("init_time", [LZ 0]); ("lead_time", [LZ 0])] (fun _ => x) [].
Definition s_c (x : val) : da := mkDa [("dayofyear", [LZ 1]); ("hour", [LZ 0])] (fun _ => x) [].
Lemma wf_s ds x : NoDup (map fst ds) -> (forall d ls, In (d, ls) ds -> NoDup ls) -> wf (mkDa ds (fun _ => x) []).
Proof. intros A B. split; [exact A|]. split; [exact B|]. reflexivity. Qed.
Lemma wf_sp x : wf (s_p x).
Proof. apply wf_s; [repeat constructor; simpl; intuition discriminate|]. intros d ls [[= <- <-]|[[= <- <-]|[]]]; repeat constructor; intros []. Qed.
Lemma wf_sc x : wf (s_c x).
Proof. apply wf_s; [repeat constructor; simpl; intuition discriminate|]. intros d ls [[= <- <-]|[[= <- <-]|[]]]; repeat constructor; intros []. Qed.
Lemma ex_seeps_ok xp xt w q : exists r, seeps_var (s_c w) (s_c q) (1/4) (1/10) (85/100) (s_p xp) (s_p xt) = Ok r.
Proof.
  assert (match seeps_var (s_c w) (s_c q) (1/4) (1/10) (85/100) (s_p xp) (s_p xt) with Ok _ => true | Err _ => false end = true) as H by (vm_compute; reflexivity).
  destruct (seeps_var _ _ _ _ _ _ _); [eauto|discriminate].
Qed.
Definition e_s : env := fun _ => LZ 0.
Example C26_example : exists r, seeps_var (s_c (Fin (2/1000))) (s_c (Fin (1/2))) (1/4) (1/10) (85/100) (s_p (Fin (3/1000))) (s_p (Fin 0)) = Ok r /\
  get r e_s = Fin (8 / 5).
Proof.
  destruct (ex_seeps_ok (Fin (3/1000)) (Fin 0) (Fin (2/1000)) (Fin (1/2))) as [r Hr]. exists r. split; [exact Hr|].
  rewrite (C26_value (s_c (Fin (2/1000))) (s_c (Fin (1/2))) (s_p (Fin (3/1000))) (s_p (Fin 0)) r (1/4) (1/10) (85/100) e_s (3/1000) 0 (2/1000) (1/2)); auto; try lra.
  - unfold cat_of. destruct (Rle_dec (3/1000) (1/4/1000)); [lra|]. destruct (Rlt_dec (3/1000) (2/1000)); [lra|]. destruct (Rle_dec 0 (1/4/1000)); [|lra]. cbn. f_equal. field.
  - intros a [<-|[<-|[<-|[<-|[]]]]]; first [apply wf_sp|apply wf_sc].
  - intros n c _ H. discriminate H.
  - intros a [<-|[<-|[<-|[<-|[]]]]]; split; simpl; intuition discriminate.
  - intros d ls [[= <- <-]|[[= <- <-]|[]]]; simpl; auto.
  - intros d ls [[= <- <-]|[[= <- <-]|[]]]; simpl; auto.
  - intros d ls Hin Hni; destruct Hin as [[= <- <-]|[[= <- <-]|[]]]; exfalso; apply Hni; simpl; auto.
  - intros d ls Hin Hni; destruct Hin as [[= <- <-]|[[= <- <-]|[]]]; exfalso; apply Hni; simpl; auto.
  - exists 0%Z, 0%Z. repeat split; reflexivity.
  - exists [upd (upd e_s "dayofyear" (LZ 1)) "hour" (LZ 0)]. split.
    + pose proof (Proofs_Reduce.sum_points_spec ["hour"; "dayofyear"] (s_c (Fin (1/2))) e_s (wf_sc _)) as K. exact K.
    + exists [1/2]. split; [reflexivity|]. split; [discriminate|]. simpl. field.
Qed.

(** Without the threshold order the categories overlap: an amount between a wet threshold and
    a larger dry threshold is both dry and heavy, and a perfect forecast of it gets both
    off-diagonal penalties. *)
Theorem C26_overlap_refuted : forall wc dc p t r dry_mm lo hi e x w q,
  (forall a, In a [wc; dc; p; t] -> wf a) -> times_ok p ->
  (forall a, In a [wc; dc; p; t] -> ~ In "forecast_cat" (dnames a) /\ ~ In "truth_cat" (dnames a)) ->
  point_of (dims p) e -> point_of (dims t) e ->
  point_outside ["dayofyear"; "hour"] wc e -> point_outside ["dayofyear"; "hour"] dc e ->
  seeps_var wc dc dry_mm lo hi p t = Ok r ->
  get p e = Fin x -> get t e = Fin x -> wet_threshold_at wc p e (Fin w) -> dry_fraction_at dc e q ->
  w <= x <= dry_mm / 1000 -> 0 < q < 1 -> lo <= q <= hi ->
  get r e = Fin (seeps_error q Dry Heavy + seeps_error q Heavy Dry) /\ 0 < seeps_error q Dry Heavy + seeps_error q Heavy Dry.
Proof.
  intros wc dc p t r dry_mm lo hi e x w q H1 H2 H3 H4 H5 H6 H7 H8 H9 H10 H11 H12 H13 H14 H15. split.
  - exact (seeps_overlap wc dc p t r dry_mm lo hi e H1 H2 H3 H4 H5 H6 H7 H8 x w q H9 H10 H11 H12 H13 H14 H15).
  - pose proof (seeps_pos q Dry Heavy H14 ltac:(discriminate)). pose proof (seeps_pos q Heavy Dry H14 ltac:(discriminate)). lra.
Qed.
Print Assumptions C26_overlap_refuted.
(** A NaN wet threshold does not make the score NaN: a forecast above the dry threshold scores 0
    whatever happens. *)
Theorem C26_missing_threshold_refuted : forall wc dc p t r dry_mm lo hi e x y q,
  (forall a, In a [wc; dc; p; t] -> wf a) -> times_ok p ->
  (forall a, In a [wc; dc; p; t] -> ~ In "forecast_cat" (dnames a) /\ ~ In "truth_cat" (dnames a)) ->
  point_of (dims p) e -> point_of (dims t) e ->
  point_outside ["dayofyear"; "hour"] wc e -> point_outside ["dayofyear"; "hour"] dc e ->
  seeps_var wc dc dry_mm lo hi p t = Ok r ->
  get p e = Fin x -> get t e = Fin y -> wet_threshold_at wc p e NaN -> dry_fraction_at dc e q ->
  dry_mm / 1000 < x -> 0 < q < 1 -> lo <= q <= hi ->
  get r e = Fin 0.
Proof.
  intros wc dc p t r dry_mm lo hi e x y q H1 H2 H3 H4 H5 H6 H7 H8 H9 H10 H11 H12 H13 H14 H15.
  exact (seeps_missing_threshold wc dc p t r dry_mm lo hi e H1 H2 H3 H4 H5 H6 H7 H8 x y q H9 H10 H11 H12 H13 H14 H15).
Qed.
Print Assumptions C26_missing_threshold_refuted.
(** Both inputs carrying a mask is an error. *)
Theorem C26_two_masks : forall wc dc dry_mm lo hi p t c c', dget (aux p) "mask" = Some c -> dget (aux t) "mask" = Some c' ->
  exists er, seeps_var wc dc dry_mm lo hi p t = Err er.
Proof. exact seeps_two_masks. Qed.
Print Assumptions C26_two_masks.
(** The witnesses of C26_example also satisfy the hypotheses of both refutations. *)
Example C26_refuted_example : exists r, seeps_var (s_c NaN) (s_c (Fin (1/2))) (1/4) (1/10) (85/100) (s_p (Fin (3/1000))) (s_p (Fin 0)) = Ok r /\
  wet_threshold_at (s_c NaN) (s_p (Fin (3/1000))) e_s NaN /\
  exists r', seeps_var (s_c (Fin (1/10000))) (s_c (Fin (1/2))) (1/4) (1/10) (85/100) (s_p (Fin (2/10000))) (s_p (Fin (2/10000))) = Ok r' /\
  wet_threshold_at (s_c (Fin (1/10000))) (s_p (Fin (2/10000))) e_s (Fin (1/10000)).
Proof.
  destruct (ex_seeps_ok (Fin (3/1000)) (Fin 0) NaN (Fin (1/2))) as [r Hr]. exists r. split; [exact Hr|]. split; [exists 0%Z, 0%Z; repeat split; reflexivity|].
  destruct (ex_seeps_ok (Fin (2/10000)) (Fin (2/10000)) (Fin (1/10000)) (Fin (1/2))) as [r' Hr']. exists r'. split; [exact Hr'|]. exists 0%Z, 0%Z; repeat split; reflexivity.
Qed.

(** The statistic: one entry per listed variable, each the score above; a listed variable missing
    from predictions, targets or climatology is a KeyError; unequal argument lengths an
    AssertionError. *)
Theorem C26_per_variable : forall name vs clim ds mins maxs s p t out,
  SEEPS name vs clim ds mins maxs = Ok s -> compute s p t = Ok out -> NoDup vs ->
  (forall v, In v (keys out) <-> In v vs) /\
  forall i v d lo hi, nth_error vs i = Some v -> nth_error ds i = Some d -> nth_error mins i = Some lo -> nth_error maxs i = Some hi ->
    exists pv tv wc dc r, dget p v = Some pv /\ dget t v = Some tv /\
      dget clim (v ++ "_seeps_threshold")%string = Some wc /\ dget clim (v ++ "_seeps_dry_fraction")%string = Some dc /\
      seeps_var wc dc d lo hi pv tv = Ok r /\ dget out v = Some r.
Proof. exact seeps_statistic. Qed.
Print Assumptions C26_per_variable.
