(** Proofs about categorical statistics and scores (C24-C26). *)
From Coq Require Import String List Bool Reals Lra Permutation ZArith.
Import ListNotations.
From Verif Require Import Prelude Values Model_XArray Spec_XArray Proofs_XArray Model_Tree Spec_Tree Model_MetricsBase Model_Aggregation
  Spec_Aggregator Proofs_Aggregator Proofs_Aggregator2 Spec_Metrics Proofs_Metrics Spec_Means Proofs_Means Model_Calendar Model_Deterministic Proofs_Deterministic Model_Categorical.
Local Open Scope R_scope.
Local Open Scope string_scope.
Local Open Scope list_scope.

Lemma NoDup_map_filter {A B} (f : A -> B) (p : A -> bool) l : NoDup (map f l) -> NoDup (map f (filter p l)).
Proof.
  induction l as [|x l IH]; intros H; [constructor|]. simpl in *. inversion H as [|? ? Hn Hl]; subst.
  destruct (p x); [|auto]. simpl. constructor; [|auto]. intros Hin. apply Hn. apply in_map_iff in Hin. destruct Hin as (y & <- & Hy).
  apply filter_In in Hy. now apply in_map.
Qed.
Lemma merge_aux_NoDup ds x y : NoDup (keys x) -> NoDup (keys y) -> NoDup (keys (merge_aux ds x y)).
Proof.
  intros Hx Hy. unfold merge_aux, keys. rewrite map_app. apply NoDup_app_intro; try (apply NoDup_map_filter; assumption).
  intros k H1 H2. apply in_map_iff in H1. destruct H1 as ([k1 c1] & <- & H1). apply filter_In in H1. destruct H1 as [H1 _].
  apply in_map_iff in H2. destruct H2 as ([k2 c2] & E & H2). apply filter_In in H2. destruct H2 as [_ H2]. cbn [fst] in *. subst k2.
  assert (memb k1 (map fst x) = true) as K by (apply memb_In; apply in_map_iff; exists (k1, c1); auto). rewrite K in H2. discriminate.
Qed.

(** The array shape of the contingency statistics. *)
Definition good (a : da) : Prop := wf a /\ NoDup (keys (aux a)).
Lemma good_binop f a b : good a -> good b -> good (binop f a b).
Proof. intros [H1 H2] [H3 H4]. split; [now apply wf_binop|]. simpl. now apply merge_aux_NoDup. Qed.
Lemma good_map f a : good a -> good (da_map f a).
Proof. intros [H1 H2]. split; [now apply wf_map|exact H2]. Qed.
Lemma binop_same f (a b : da) : good a -> dims b = dims a -> aux b = aux a -> dims (binop f a b) = dims a /\ aux (binop f a b) = aux a.
Proof.
  intros [Hw Hn] Hd Ha. assert (dims (binop f a b) = dims a) as E.
  { simpl. rewrite Hd. apply merge_self. apply Hw. }
  split; [exact E|]. change (merge_aux (dims (binop f a b)) (aux a) (aux b) = aux a). rewrite Ha. now apply merge_aux_self.
Qed.

Lemma contingency_shape f p t : good p -> good t ->
  dims (contingency f p t) = dims (binop vmul p t) /\ aux (contingency f p t) = aux (binop vmul p t) /\ good (contingency f p t).
Proof.
  intros Hp Ht. unfold contingency, da_where_nan.
  destruct (binop_same (fun x c => if vtruthy c then x else NaN) (binop (fun x y => b2v (f (vtruthy x) (vtruthy y))) p t) (notnull (binop vmul p t))) as [D A];
    [now apply good_binop|reflexivity|reflexivity|].
  rewrite D, A. split; [reflexivity|]. split; [reflexivity|]. apply good_binop; [now apply good_binop|]. apply good_map. now apply good_binop.
Qed.
Lemma vtruthy_b2v b : vtruthy (b2v b) = b.
Proof. unfold vtruthy, veqb, b2v. destruct b; [rewrite (proj2 (Reqb_false 1 0)) by lra|rewrite (proj2 (Reqb_true 0 0)) by lra]; reflexivity. Qed.
Lemma contingency_get f p t e : get (contingency f p t) e =
  if isnan (vmul (get p e) (get t e)) then NaN else b2v (f (vtruthy (get p e)) (vtruthy (get t e))).
Proof.
  unfold contingency, da_where_nan, notnull. cbn [binop da_map get]. rewrite vtruthy_b2v. destruct (isnan _); reflexivity.
Qed.
Lemma contingency_sample f f' p t : good p -> good t -> same_sample (contingency f p t) (contingency f' p t).
Proof.
  intros Hp Ht. destruct (contingency_shape f p t Hp Ht) as (D & A & G). destruct (contingency_shape f' p t Hp Ht) as (D' & A' & G').
  split; [congruence|]. split; [congruence|]. split; [apply G'|]. intros e _. rewrite !contingency_get. destruct (isnan (vmul _ _)); reflexivity.
Qed.

(** ** Metrics from the values of their statistics *)
Lemma mean_array_fun g st m m' : mean_array g st m -> mean_array g st m' -> m = m'.
Proof. intros (x & y & H & ->) (x' & y' & H' & ->). rewrite H in H'. now injection H' as -> ->. Qed.

Lemma value_from_parts g p t stats F v a parts :
  (forall s raw, In s (map snd stats) -> compute s p t = Ok raw -> NoDup (keys raw)) ->
  (forall s s', In s (map snd stats) -> In s' (map snd stats) -> unique_name s = unique_name s' -> compute s p t = compute s' p t) ->
  NoDup (map fst stats) ->
  metric_value g p t (per_variable_metric stats F) v a ->
  Forall2 (fun ks sa => fst ks = fst sa /\ metric_value g p t (metric_of_statistic (snd ks)) v (snd sa)) stats parts ->
  F parts = Ok a.
Proof.
  intros H1 H2 H3 Hm HP. destruct (value_of_metric g p t stats F v a H1 H2 H3 Hm) as (pv & HF & HL).
  assert (pv = parts) as EP; [|rewrite <- EP; exact HF].
  assert (forall ks, In ks stats -> forall raw, compute (snd ks) p t = Ok raw -> NoDup (keys raw)) as H1'.
  { intros ks Hk raw. apply (H1 (snd ks) raw). now apply in_map. }
  clear -H1' HP HL. revert pv parts HP HL. induction stats as [|[k s] stats IH]; intros pv parts HP HL.
  - inversion HL; inversion HP; reflexivity.
  - inversion HL as [|? [k1 m1] ? l1 (E1 & raw & st & A & B & C) HL']; subst. inversion HP as [|? [k2 m2] ? l2 (E2 & M) HP']; subst.
    cbn [fst snd] in *. subst k1 k2.
    apply value_of_statistic in M; [|intros raw'; apply (H1' (k, s) (or_introl eq_refl))].
    destruct M as (raw' & st' & A' & B' & C'). rewrite A in A'. injection A' as <-. rewrite B in B'. injection B' as <-.
    rewrite (mean_array_fun _ _ _ _ C C'). f_equal. apply IH; auto. intros ks Hk. apply H1'. now right.
Qed.

Definition is_contingency (ks : string * statistic da) : Prop :=
  exists f, snd ks = per_variable_statistic (fst ks) (fun p t => Ok (Some (contingency f p t))).
Lemma score_value g p t (stats : list (string * statistic da)) F v a parts :
  (forall ks, In ks stats -> is_contingency ks) -> NoDup (map fst stats) ->
  metric_value g p t (per_variable_metric stats F) v a ->
  Forall2 (fun ks sa => fst ks = fst sa /\ metric_value g p t (metric_of_statistic (snd ks)) v (snd sa)) stats parts ->
  F parts = Ok a.
Proof.
  intros H Hn Hm HP. apply (value_from_parts g p t stats F v a parts); auto.
  - intros s raw Hs. apply in_map_iff in Hs. destruct Hs as (ks & <- & Hk). destruct (H ks Hk) as (f & ->). apply per_var_outputs.
  - intros s s' Hs Hs' E. apply in_map_iff in Hs. destruct Hs as (ks & <- & Hk). apply in_map_iff in Hs'. destruct Hs' as (ks' & <- & Hk').
    assert (ks = ks') as ->; [|reflexivity]. destruct ks as [k s], ks' as [k' s']. destruct (H _ Hk) as (f & E1). destruct (H _ Hk') as (f' & E2).
    cbn [fst snd] in *. subst s s'. simpl in E. subst k'.
    apply In_dget in Hk; [|exact Hn]. apply In_dget in Hk'; [|exact Hn]. rewrite Hk in Hk'. congruence.
Qed.

(** ** Means of the contingency table *)
Section Table.
  Variables (g : aggregator) (p t : vars da) (v : string) (pv tv : da).
  Variables (s : env -> R) (ws : list da) (wrs : list (env -> R)) (ms : list da) (bs : list (env -> bool)).
  Hypothesis Hn : NoDup (keys p).
  Hypothesis Hp : dget p v = Some pv.
  Hypothesis Ht : dget t v = Some tv.
  Hypothesis Gp : good pv.
  Hypothesis Gt : good tv.
  Let tpst := contingency (fun x y => x && y) pv tv.
  Hypothesis W : weighted_input g tpst s ws wrs ms bs.
  Let u := point_weight g tpst wrs bs.
  Hypothesis Hu : forall q, 0 <= u q.
  Let yes (f : bool -> bool -> bool) (q : env) : R := if f (vtruthy (get pv q)) (vtruthy (get tv q)) then 1 else 0.

  Lemma table_mean tp e : metric_value g p t (metric_of_statistic TruePositives) v tp -> point_of (dims tp) e ->
    exists P, reduced_points (tpst :: ws ++ ms) (reduce_dims g) e P /\
    forall name f m, metric_value g p t (metric_of_statistic (per_variable_statistic name (fun p t => Ok (Some (contingency f p t))))) v m ->
      (rsum (map u P) = 0 -> get m e = NaN) /\ (rsum (map u P) <> 0 -> get m e = Fin (wavg P u (yes f))).
  Proof.
    intros H1 He.
    apply value_of_per_variable in H1; auto. destruct H1 as (p1 & t1 & s1 & E1 & E2 & [= <-] & M1). rewrite Hp in E1. rewrite Ht in E2. injection E1 as <-. injection E2 as <-.
    destruct (joint_means g tpst s ws wrs ms bs tp e W M1 He) as (P & HP & _ & HJ).
    exists P. split; [exact HP|]. intros name f m H2.
    apply value_of_per_variable in H2; auto. destruct H2 as (p1 & t1 & s1 & E1 & E2 & [= <-] & M2). rewrite Hp in E1. rewrite Ht in E2. injection E1 as <-. injection E2 as <-.
    destruct (HJ (contingency f pv tv) (yes f) m) as (_ & A & B); auto.
    { now apply contingency_sample. }
    intros q Hq Hc. pose proof (wi_finite _ _ _ _ _ _ _ W q Hq Hc) as Hf. unfold tpst in Hf. rewrite contingency_get in *.
    destruct (isnan (vmul (get pv q) (get tv q))); [discriminate|]. reflexivity.
  Qed.

  Theorem table_means tp tn fp fn e :
    metric_value g p t (metric_of_statistic TruePositives) v tp -> metric_value g p t (metric_of_statistic TrueNegatives) v tn ->
    metric_value g p t (metric_of_statistic FalsePositives) v fp -> metric_value g p t (metric_of_statistic FalseNegatives) v fn ->
    point_of (dims tp) e ->
    (get tp e = NaN /\ get tn e = NaN /\ get fp e = NaN /\ get fn e = NaN) \/
    exists P a b c d, reduced_points (tpst :: ws ++ ms) (reduce_dims g) e P /\
      get tp e = Fin a /\ get tn e = Fin b /\ get fp e = Fin c /\ get fn e = Fin d /\
      0 <= a /\ 0 <= b /\ 0 <= c /\ 0 <= d /\ a + b + c + d = 1 /\
      a = wavg P u (yes (fun x y => x && y)) /\ b = wavg P u (yes (fun x y => negb x && negb y)) /\
      c = wavg P u (yes (fun x y => x && negb y)) /\ d = wavg P u (yes (fun x y => negb x && y)).
  Proof.
    intros H1 H2 H3 H4 He. destruct (table_mean tp e H1 He) as (P & HP & HM).
    destruct (HM _ _ _ H1) as [N1 V1]. destruct (HM _ _ _ H2) as [N2 V2]. destruct (HM _ _ _ H3) as [N3 V3]. destruct (HM _ _ _ H4) as [N4 V4].
    destruct (Req_dec (rsum (map u P)) 0) as [E|E]; [left; auto|right].
    assert (forall f, 0 <= wavg P u (yes f)) as Hpos.
    { intros f. apply wavg_nonneg; auto. intros q _ _. unfold yes. destruct (f _ _); lra. }
    do 5 eexists. split; [exact HP|]. do 4 (split; [auto|]). do 4 (split; [apply Hpos|]). split; [|auto].
    rewrite <- !wavg_add by auto. rewrite (wavg_ext P u u _ (fun _ => 1)); [apply wavg_const; auto|auto|].
    intros q _ _. unfold yes. destruct (vtruthy (get pv q)), (vtruthy (get tv q)); simpl; lra.
  Qed.
End Table.

(** ** Scores *)
From Verif Require Import Spec_Categorical.
Lemma is_cont_tp : is_contingency tp_. Proof. eexists; reflexivity. Qed.
Lemma is_cont_tn : is_contingency tn_. Proof. eexists; reflexivity. Qed.
Lemma is_cont_fp : is_contingency fp_. Proof. eexists; reflexivity. Qed.
Lemma is_cont_fn : is_contingency fn_. Proof. eexists; reflexivity. Qed.

Ltac score_start :=
  intros (Ha & Hb & Hc & Hd & A & B & C & D & MA & EA & MB & EB & MC & EC & MD & ED) (s & MS & ->).
Ltac score_parts parts :=
  match goal with MS : metric_value _ _ _ _ _ ?s |- _ =>
    let K := fresh "K" in
    assert (Ok s = Ok s) as K by reflexivity; clear K;
    eapply (score_value _ _ _ _ _ _ _ parts) in MS;
    [ | intros ks Hks; simpl in Hks; repeat (destruct Hks as [<-|Hks]; [apply is_cont_tp || apply is_cont_tn || apply is_cont_fp || apply is_cont_fn|]); destruct Hks
      | simpl; repeat constructor; simpl; intuition discriminate
      | repeat (constructor; [split; [reflexivity|assumption]|]); constructor ];
    unfold dgetE in MS; simpl in MS; injection MS as <- end.

Lemma vdiv_quot n d : 0 <= n -> (d = 0 -> n = 0) -> quotient n d (vdiv (Fin n) (Fin d)).
Proof.
  intros Hn H. simpl. destruct (Req_EM_T d 0) as [E|E]; [left|right; auto]. split; auto.
  rewrite (H E). unfold rsign. destruct (Rlt_dec 0 0); [lra|]. destruct (Rlt_dec 0 0); [lra|reflexivity].
Qed.
Lemma vdiv_quot' n d : (d = 0 -> n = 0) -> quotient n d (vdiv (Fin n) (Fin d)).
Proof.
  intros H. simpl. destruct (Req_EM_T d 0) as [E|E]; [left|right; auto]. split; auto.
  rewrite (H E). unfold rsign. destruct (Rlt_dec 0 0); [lra|]. destruct (Rlt_dec 0 0); [lra|reflexivity].
Qed.

Section Scores.
  Variables (g : aggregator) (p t : vars da) (v : string) (e : env) (a b c d : R) (x : val).
  Lemma csi_value : table_at g p t v e a b c d -> score g p t CSI v e x -> quotient a (a + c + d) x.
  Proof. score_start. score_parts [("TruePositives", A); ("FalsePositives", C); ("FalseNegatives", D)].
    cbn [binop get]. rewrite EA, EC, ED. apply vdiv_quot; lra. Qed.
  Lemma acc_score : table_at g p t v e a b c d -> score g p t Accuracy v e x -> quotient (a + b) (a + c + d + b) x.
  Proof. score_start. score_parts [("TruePositives", A); ("FalsePositives", C); ("FalseNegatives", D); ("TrueNegatives", B)].
    cbn [binop get]. rewrite EA, EB, EC, ED. apply vdiv_quot; lra. Qed.
  Lemma recall_value : table_at g p t v e a b c d -> score g p t Recall v e x -> quotient a (a + d) x.
  Proof. score_start. score_parts [("TruePositives", A); ("FalseNegatives", D)].
    cbn [binop get]. rewrite EA, ED. apply vdiv_quot; lra. Qed.
  Lemma far_value : table_at g p t v e a b c d -> score g p t FalseAlarmRate v e x -> quotient c (a + c) x.
  Proof. score_start. score_parts [("TruePositives", A); ("FalsePositives", C)].
    cbn [binop get]. rewrite EA, EC. apply vdiv_quot; lra. Qed.
  Lemma precision_value : table_at g p t v e a b c d -> score g p t Precision v e x -> quotient a (a + c) x.
  Proof. score_start. score_parts [("TruePositives", A); ("FalsePositives", C)].
    cbn [binop get]. rewrite EA, EC. apply vdiv_quot; lra. Qed.
  Lemma f1_value : table_at g p t v e a b c d -> score g p t F1Score v e x -> quotient (2 * a) (2 * a + c + d) x.
  Proof. score_start. score_parts [("TruePositives", A); ("FalsePositives", C); ("FalseNegatives", D)].
    unfold times. cbn [binop get da_map]. rewrite EA, EC, ED. apply vdiv_quot; lra. Qed.
  Lemma fbias_value : table_at g p t v e a b c d -> score g p t FrequencyBias v e x ->
    (a + d <> 0 -> x = Fin ((a + c) / (a + d))) /\ (a + d = 0 -> x = if Req_EM_T c 0 then NaN else PInf).
  Proof.
    score_start. score_parts [("TruePositives", A); ("FalsePositives", C); ("FalseNegatives", D)].
    cbn [binop get]. rewrite EA, EC, ED. cbn [vadd vdiv]. destruct (Req_EM_T (a + d) 0) as [E|E]; split; intros H; try contradiction; try reflexivity.
    assert (a = 0) as -> by lra. rewrite Rplus_0_l. unfold rsign. destruct (Req_EM_T c 0); destruct (Rlt_dec 0 c); try lra; try reflexivity.
    destruct (Rlt_dec c 0); [lra|reflexivity].
  Qed.
  Lemma hss_value : table_at g p t v e a b c d -> score g p t HSS v e x ->
    quotient (2 * (a * b - c * d)) ((a + d) * (d + b) + (a + c) * (c + b)) x.
  Proof.
    score_start. score_parts [("TruePositives", A); ("FalsePositives", C); ("FalseNegatives", D); ("TrueNegatives", B)].
    unfold times. cbn [binop get da_map]. rewrite EA, EB, EC, ED. unfold vsub. cbn [vneg vadd vmul]. apply vdiv_quot'. intros H.
    assert (0 <= (a + d) * (d + b)) by (apply Rmult_le_pos; lra). assert (0 <= (a + c) * (c + b)) by (apply Rmult_le_pos; lra).
    assert ((a + d) * (d + b) = 0) as Q1 by lra. assert ((a + c) * (c + b) = 0) as Q2 by lra.
    apply Rmult_integral in Q1. apply Rmult_integral in Q2.
    assert (a * b = 0 /\ c * d = 0) as [-> ->]; [|lra].
    destruct Q1, Q2; split; first [replace a with 0 by lra; ring|replace b with 0 by lra; ring|replace c with 0 by lra; ring|replace d with 0 by lra; ring].
  Qed.
  Lemma ets_value : table_at g p t v e a b c d -> score g p t ETS v e x ->
    let n := a + c + d + b in let r := (a + c) * (a + d) / n in
    (n = 0 -> x = NaN) /\ (n <> 0 -> quotient (a - r) (a + c + d - r) x).
  Proof.
    score_start. score_parts [("TruePositives", A); ("FalsePositives", C); ("FalseNegatives", D); ("TrueNegatives", B)].
    cbn [binop get]. rewrite EA, EB, EC, ED. cbn zeta. cbn [vadd vmul]. split; intros Hn.
    - assert (a = 0 /\ b = 0 /\ c = 0 /\ d = 0) as (-> & -> & -> & ->) by lra. cbn [vdiv]. destruct (Req_EM_T _ 0); [|lra].
      replace (rsign ((0 + 0) * (0 + 0))) with Eq; [reflexivity|]. unfold rsign. destruct (Rlt_dec 0 _); [lra|]. destruct (Rlt_dec _ 0); [lra|reflexivity].
    - assert (vdiv (Fin ((a + c) * (a + d))) (Fin (a + c + d + b)) = Fin ((a + c) * (a + d) / (a + c + d + b))) as ->.
      { cbn [vdiv]. destruct (Req_EM_T _ 0); [contradiction|reflexivity]. }
      unfold vsub. cbn [vneg vadd]. apply vdiv_quot'. intros H.
      assert ((a + c + d + b) * (a + c + d) = (a + c) * (a + d)) as E.
      { replace (a + c + d) with ((a + c) * (a + d) / (a + c + d + b)) at 2 by lra. field. exact Hn. }
      assert (0 <= (a + c + d) * b) by (apply Rmult_le_pos; lra). assert (0 <= a * c) by (apply Rmult_le_pos; lra). assert (0 <= a * d) by (apply Rmult_le_pos; lra). assert (0 <= c * d) by (apply Rmult_le_pos; lra).
      pose proof (Rle_0_sqr c) as S1. pose proof (Rle_0_sqr d) as S2. unfold Rsqr in S1, S2.
      assert (c * c = 0) by lra. assert (d * d = 0) by lra.
      assert (c = 0) by nra. assert (d = 0) by nra. lra.
  Qed.
End Scores.

(** ** SEDI *)
Definition clip01 (x : R) : R := Rmin (1 - sedi_eps) (Rmax sedi_eps x).
Lemma sedi_eps_bounds : 0 < sedi_eps < 1 / 2.
Proof. unfold sedi_eps. split; [apply Rinv_0_lt_compat; lra|]. apply Rmult_lt_reg_r with 1000000; [lra|]. rewrite Rinv_l by lra. lra. Qed.
Lemma clip01_bounds x : 0 < clip01 x < 1.
Proof.
  pose proof sedi_eps_bounds. unfold clip01. split.
  - apply Rmin_glb_lt; [lra|]. pose proof (Rmax_l sedi_eps x). lra.
  - pose proof (Rmin_l (1 - sedi_eps) (Rmax sedi_eps x)). lra.
Qed.
Lemma vln_Fin x : 0 < x -> vln (Fin x) = Fin (ln x).
Proof. intros H. simpl. destruct (Rlt_dec x 0); [lra|]. destruct (Req_EM_T x 0); [lra|reflexivity]. Qed.
Lemma ln_neg x : 0 < x < 1 -> ln x < 0.
Proof. intros H. rewrite <- ln_1. apply ln_increasing; lra. Qed.

Definition sedi_formula (h f : R) : R :=
  (ln f - ln h + ln (1 - h) - ln (1 - f)) / (ln h + ln f + ln (1 - h) + ln (1 - f)).
Lemma sedi_range h f : 0 < h < 1 -> 0 < f < 1 ->
  -1 < sedi_formula h f < 1 /\ (0 < sedi_formula h f <-> f < h) /\ (sedi_formula h f = 0 <-> f = h).
Proof.
  intros Hh Hf. unfold sedi_formula.
  pose proof (ln_neg h Hh) as L1. pose proof (ln_neg f Hf) as L2. assert (ln (1 - h) < 0) as L3 by (apply ln_neg; lra). assert (ln (1 - f) < 0) as L4 by (apply ln_neg; lra).
  set (n := ln f - ln h + ln (1 - h) - ln (1 - f)). set (D := ln h + ln f + ln (1 - h) + ln (1 - f)).
  assert (D < 0) as HD by (unfold D; lra). assert (- n < - D) as K1 by (unfold n, D; lra). assert (n < - D) as K2 by (unfold n, D; lra).
  assert (forall y, y < f -> f <= h -> True) as _ by auto.
  assert (f < h -> n < 0) as P1.
  { intros H. assert (ln f < ln h) by (apply ln_increasing; lra). assert (ln (1 - h) < ln (1 - f)) by (apply ln_increasing; lra). unfold n. lra. }
  assert (h < f -> 0 < n) as P2.
  { intros H. assert (ln h < ln f) by (apply ln_increasing; lra). assert (ln (1 - f) < ln (1 - h)) by (apply ln_increasing; lra). unfold n. lra. }
  assert (f = h -> n = 0) as P3 by (intros ->; unfold n; lra).
  assert (n / D = (- n) / (- D)) as E by (field; lra).
  split; [|split].
  - rewrite E. split; apply Rmult_lt_reg_r with (- D); try lra; unfold Rdiv; rewrite Rmult_assoc, Rinv_l by lra; lra.
  - rewrite E. split; intros H.
    + destruct (Rtotal_order f h) as [|[H0|H0]]; auto; exfalso.
      * rewrite (P3 H0) in H. unfold Rdiv in H. rewrite Ropp_0, Rmult_0_l in H. lra.
      * specialize (P2 H0). assert (- n / - D < 0); [|lra]. apply Rmult_lt_reg_r with (- D); [lra|]. unfold Rdiv. rewrite Rmult_assoc, Rinv_l by lra. lra.
    + apply Rmult_lt_0_compat; [specialize (P1 H); lra|]. apply Rinv_0_lt_compat. lra.
  - split; intros H.
    + assert (n = 0) as Hn by (apply Rmult_eq_reg_r with (/ D); [rewrite Rmult_0_l; exact H|apply Rinv_neq_0_compat; lra]).
      destruct (Rtotal_order f h) as [H0|[|H0]]; auto; exfalso; [specialize (P1 H0)|specialize (P2 H0)]; lra.
    + rewrite (P3 H). unfold Rdiv. ring.
Qed.

Lemma sedi_value g p t v e a b c d x : table_at g p t v e a b c d -> score g p t SEDI v e x ->
  (a + d = 0 \/ c + b = 0 -> x = NaN) /\
  (a + d <> 0 -> c + b <> 0 -> x = Fin (sedi_formula (clip01 (a / (a + d))) (clip01 (c / (c + b))))).
Proof.
  score_start. score_parts [("TruePositives", A); ("FalsePositives", C); ("FalseNegatives", D); ("TrueNegatives", B)].
  cbn [binop get da_map]. rewrite EA, EB, EC, ED. cbn [vadd].
  pose proof (vdiv_quot a (a + d) ltac:(lra) ltac:(lra)) as Q1. pose proof (vdiv_quot c (c + b) ltac:(lra) ltac:(lra)) as Q2.
  destruct Q1 as [[E1 ->]|[E1 ->]]; destruct Q2 as [[E2 ->]|[E2 ->]]; (split; [intros H|intros H1 H2]); try lra; try reflexivity; try contradiction.
  - cbn [vclip]. unfold vsub. cbn [vneg vadd vln]. repeat match goal with |- context [if ?q then _ else _] => destruct q end; reflexivity.
  - change (vclip sedi_eps (1 - sedi_eps) (Fin (a / (a + d)))) with (Fin (clip01 (a / (a + d)))).
    change (vclip sedi_eps (1 - sedi_eps) (Fin (c / (c + b)))) with (Fin (clip01 (c / (c + b)))).
    pose proof (clip01_bounds (a / (a + d))) as B1. pose proof (clip01_bounds (c / (c + b))) as B2.
    unfold vsub. cbn [vneg vadd]. rewrite !vln_Fin by lra. cbn [vneg vadd]. cbn [vdiv].
    change (1 + - clip01 (a / (a + d))) with (1 - clip01 (a / (a + d))). change (1 + - clip01 (c / (c + b))) with (1 - clip01 (c / (c + b))).
    assert (ln (clip01 (a / (a + d))) < 0) by now apply ln_neg. assert (ln (clip01 (c / (c + b))) < 0) by now apply ln_neg.
    assert (ln (1 - clip01 (a / (a + d))) < 0) by (apply ln_neg; lra). assert (ln (1 - clip01 (c / (c + b))) < 0) by (apply ln_neg; lra).
    destruct (Req_EM_T _ 0); [lra|]. reflexivity.
Qed.
