(** CRPS as a metric. *)
From Coq Require Import String ZArith List Bool Reals Permutation Lra Lia.
Import ListNotations.
From Verif Require Import Prelude Values Model_XArray Spec_XArray Proofs_XArray Model_Tree Model_MetricsBase Model_Aggregation
  Spec_Aggregator Spec_Metrics Proofs_Metrics Spec_Means Proofs_Means Model_Deterministic Proofs_Deterministic Model_Categorical
  Spec_Reduce Proofs_Reduce Spec_Statistic Spec_Ensemble Model_Ensemble Proofs_Ensemble Proofs_Ensemble2.
Local Open Scope R_scope.
Local Open Scope string_scope.
Local Open Scope list_scope.

(** The means a metric combines, for statistics over one common sample. *)
Theorem joint_metric g p t stats F v a st0 s0 ws wrs ms bs m0 e :
  (forall s raw, In s (map snd stats) -> compute s p t = Ok raw -> NoDup (keys raw)) ->
  (forall s s', In s (map snd stats) -> In s' (map snd stats) -> unique_name s = unique_name s' -> compute s p t = compute s' p t) ->
  NoDup (map fst stats) ->
  metric_value g p t (per_variable_metric stats F) v a ->
  weighted_input g st0 s0 ws wrs ms bs -> mean_array g st0 m0 -> point_of (dims m0) e ->
  exists P parts, reduced_points (st0 :: ws ++ ms) (reduce_dims g) e P /\ (forall q, In q P -> point_of (dims st0) q) /\ F parts = Ok a /\
    let u := point_weight g st0 wrs bs in
    Forall2 (fun (ks : string * statistic da) (sa : string * da) => fst ks = fst sa /\
      forall st s', statistic_value (snd ks) p t v st -> same_sample st0 st ->
        (forall q, point_of (dims st0) q -> counted g st0 q = true -> get st q = Fin (s' q)) ->
        point_of (dims (snd sa)) e /\
        (rsum (map u P) <> 0 -> get (snd sa) e = Fin (wavg P u s')) /\
        (rsum (map u P) = 0 -> (forall q, 0 <= u q) -> get (snd sa) e = NaN)) stats parts.
Proof.
  intros H1 H2 H3 Hm W M0 He. destruct (value_of_metric g p t stats F v a H1 H2 H3 Hm) as (parts & HF & HL).
  destruct (joint_means g st0 s0 ws wrs ms bs m0 e W M0 He) as (P & HP & HPin & HJ).
  exists P, parts. split; [exact HP|]. split; [exact HPin|]. split; [exact HF|]. cbv zeta. clear - HL HJ.
  induction HL as [|[k s] [k' m] stats parts [E (raw & st & A & B & C)] HL IH]; constructor; [|exact IH]. cbn [fst snd] in *. split; [exact E|].
  intros st' s' (raw' & A' & B') SS Hv. rewrite A in A'. injection A' as <-. rewrite B in B'. injection B' as <-.
  destruct (HJ st s' m SS Hv C) as (K1 & K2 & K3). auto.
Qed.

Lemma append_inj_l (x a b : string) : (x ++ a = x ++ b)%string -> a = b.
Proof. induction x as [|c x IH]; cbn [append]; intros H; [exact H|]. injection H as H. auto. Qed.

(** ** per-point CRPS *)
Lemma mean_dist_single xs y : mean_dist xs [y] = rsum (map (fun x => dist x y) xs) / size xs.
Proof.
  unfold mean_dist, sum2. assert (size [y] = 1) as -> by (unfold size; simpl; ring). rewrite Rmult_1_r. f_equal. apply rsum_map_ext. intros x _. cbn [map]. rewrite rsum_cons, rsum_nil. ring.
Qed.
Lemma crps_mean_dist fair xs y : crps fair xs y = mean_dist xs [y] - 1 / 2 * spread fair xs.
Proof. unfold crps. rewrite mean_dist_single. reflexivity. Qed.
Lemma crps_lower (fair : bool) xs y : (2 <= length xs)%nat ->
  (if fair then 0 else rsum (map (fun x => dist x y) xs) / (size xs * size xs)) <= crps fair xs y.
Proof.
  intros L. apply size_ge2 in L. rewrite crps_mean_dist. unfold spread. rewrite mean_dist_single. pose proof (cross_bound xs y) as K.
  set (n := size xs) in *. set (S := rsum (map (fun x => dist x y) xs)) in *. set (D := sum2 dist xs xs) in *.
  assert (0 < n) as Hn by lra. destruct fair.
  - assert (S / n - 1 / 2 * (D / (n * (n - 1))) = (2 * n * S - 2 * S - D) / (2 * n * (n - 1))) as -> by (field; lra).
    apply Rmult_le_pos; [lra|]. left. apply Rinv_0_lt_compat. nra.
  - apply Rle_trans with (S / n - 1 / 2 * ((2 * n * S - 2 * S) / (n * n))).
    + right. field. lra.
    + rewrite Rminus_0_r. assert (D / (n * n) <= (2 * n * S - 2 * S) / (n * n)); [|lra]. apply Rmult_le_compat_r; [|lra]. left. apply Rinv_0_lt_compat. nra.
Qed.
Lemma dist_zero x y : dist x y = 0 -> x = y.
Proof. unfold dist. intros H. destruct (Req_dec (x - y) 0); [lra|]. apply Rabs_no_R0 in H0. contradiction. Qed.
Lemma crps_nonneg fair xs y : (2 <= length xs)%nat -> 0 <= crps fair xs y.
Proof.
  intros L. pose proof (crps_lower fair xs y L) as K. destruct fair; [exact K|]. apply size_ge2 in L. eapply Rle_trans; [|exact K].
  apply Rmult_le_pos; [apply rsum_map_nonneg; intros; apply dist_nonneg|]. left. apply Rinv_0_lt_compat. nra.
Qed.
Lemma crps_equal fair xs y : (forall x, In x xs -> x = y) -> crps fair xs y = 0.
Proof.
  intros H. rewrite crps_mean_dist. unfold spread. rewrite mean_dist_single. rewrite (rsum_map_ext _ (fun _ => 0)), rsum_const by (intros x Hx; rewrite (H x Hx); apply dist_refl).
  rewrite (sum2_ext _ (fun _ _ => 0)) by (intros a b Ha Hb; rewrite (H a Ha), (H b Hb); apply dist_refl).
  unfold sum2. rewrite (rsum_map_ext _ (fun _ => 0)), rsum_const by (intros; rewrite rsum_const; ring). unfold Rdiv. ring.
Qed.
Lemma crps_zero xs y : (2 <= length xs)%nat -> crps false xs y = 0 -> forall x, In x xs -> x = y.
Proof.
  intros L H. pose proof (crps_lower false xs y L) as K. cbv iota in K. rewrite H in K. apply size_ge2 in L.
  assert (0 <= rsum (map (fun x => dist x y) xs)) as P by (apply rsum_map_nonneg; intros; apply dist_nonneg).
  assert (rsum (map (fun x => dist x y) xs) = 0) as Z.
  { set (S := rsum (map (fun x => dist x y) xs)) in *. assert (0 < size xs * size xs) as Q by nra. destruct (Rle_lt_dec S 0); [lra|].
    assert (0 < S / (size xs * size xs)); [|lra]. apply Rmult_lt_0_compat; [lra|]. now apply Rinv_0_lt_compat. }
  intros x Hx. apply dist_zero. exact (rsum_zero_inv (fun x => dist x y) xs (fun x _ => dist_nonneg x y) Z x Hx).
Qed.

(** ** the metric *)
Lemma same_self st : wf st -> same_sample st st.
Proof. intros W. split; [reflexivity|]. split; [reflexivity|]. split; [exact W|]. reflexivity. Qed.
Lemma crps_names d us fair argsort skipna :
  unique_name (CRPSSkill d skipna) <> unique_name (CRPSSpread argsort d us fair "predictions" skipna).
Proof. cbn [unique_name CRPSSkill CRPSSpread per_variable_statistic]. intros H. cbn [append] in H. discriminate. Qed.
Lemma unique_two (A B : statistic da) p t : unique_name A <> unique_name B -> forall s s', In s [A; B] -> In s' [A; B] -> unique_name s = unique_name s' -> compute s p t = compute s' p t.
Proof. intros H s s' [<-|[<-|[]]] [<-|[<-|[]]] E; congruence. Qed.
Lemma unique_three (A B C : statistic da) p t : unique_name A <> unique_name B -> unique_name A <> unique_name C -> unique_name B <> unique_name C ->
  forall s s', In s [A; B; C] -> In s' [A; B; C] -> unique_name s = unique_name s' -> compute s p t = compute s' p t.
Proof. intros H1 H2 H3 s s' [<-|[<-|[<-|[]]]] [<-|[<-|[<-|[]]]] E; congruence. Qed.

Theorem crps_metric argsort d us fair skipna g p t v sk sp s1 s2 ws wrs ms bs m0 a e :
  statistic_value (CRPSSkill d skipna) p t v sk ->
  statistic_value (CRPSSpread argsort d us fair "predictions" skipna) p t v sp ->
  weighted_input g sk s1 ws wrs ms bs -> same_sample sk sp ->
  (forall q, point_of (dims sk) q -> counted g sk q = true -> get sk q = Fin (s1 q) /\ get sp q = Fin (s2 q)) ->
  metric_value g p t (CRPSEnsemble argsort d us fair skipna) v a ->
  mean_array g sk m0 -> point_of (dims m0) e ->
  exists P, reduced_points (sk :: ws ++ ms) (reduce_dims g) e P /\ (forall q, In q P -> point_of (dims sk) q) /\
    let u := point_weight g sk wrs bs in
    (rsum (map u P) <> 0 -> get a e = Fin (wavg P u (fun q => s1 q - 1 / 2 * s2 q))) /\
    (rsum (map u P) = 0 -> (forall q, 0 <= u q) -> get a e = NaN).
Proof.
  intros H1 H2 W SS Hv Hm M0 He.
  unfold CRPSEnsemble in Hm. eapply joint_metric with (m0 := m0) (e := e) in Hm; [destruct Hm as (P & parts & HP & HPin & HF & HL)|..|exact W|exact M0|exact He].
  2:{ intros s raw [<-|[<-|[]]]; apply per_var_outputs. }
  2:{ apply unique_two, crps_names. }
  2:{ repeat constructor; simpl; intuition discriminate. }

  - exists P. split; [exact HP|]. split; [exact HPin|]. cbv zeta in *. set (u := point_weight g sk wrs bs) in *.
    inversion HL as [|? [k1 m1] ? l1 [E1 K1] HL1]; subst. inversion HL1 as [|? [k2 m2] ? l2 [E2 K2] HL2]; subst. inversion HL2; subst. cbn [fst snd] in *. subst k1 k2.
    cbn in HF. injection HF as <-. cbn [binop da_map get].
    destruct (K1 sk s1 H1 (same_self sk (wi_wf _ _ _ _ _ _ _ W)) (fun q A B => proj1 (Hv q A B))) as (_ & V1 & N1).
    destruct (K2 sp s2 H2 SS (fun q A B => proj2 (Hv q A B))) as (_ & V2 & N2). split.
    + intros Hu. rewrite V1, V2 by exact Hu. unfold vsub. cbn [vmul vneg vadd]. f_equal. unfold wavg.
      rewrite (rsum_map_ext (fun q => u q * (s1 q - 1 / 2 * s2 q)) (fun q => u q * s1 q + - (1 / 2) * (u q * s2 q))) by (intros; ring).
      rewrite rsum_map_add, rsum_map_scale. field. exact Hu.
    + intros Hu Hp. rewrite N1 by assumption. reflexivity.
Qed.

Theorem crps_distance_metric argsort d us fair g p t v sk sp ts s1 s2 s3 ws wrs ms bs m0 a e :
  statistic_value (CRPSSkill d false) p t v sk ->
  statistic_value (CRPSSpread argsort d us fair "predictions" false) p t v sp ->
  statistic_value (CRPSSpread argsort d us fair "targets" false) p t v ts ->
  weighted_input g sk s1 ws wrs ms bs -> same_sample sk sp -> same_sample sk ts ->
  (forall q, point_of (dims sk) q -> counted g sk q = true -> get sk q = Fin (s1 q) /\ get sp q = Fin (s2 q) /\ get ts q = Fin (s3 q)) ->
  metric_value g p t (CRPSEnsembleDistance argsort d us fair false) v a ->
  mean_array g sk m0 -> point_of (dims m0) e ->
  exists P, reduced_points (sk :: ws ++ ms) (reduce_dims g) e P /\ (forall q, In q P -> point_of (dims sk) q) /\
    let u := point_weight g sk wrs bs in
    (rsum (map u P) <> 0 -> get a e = Fin (wavg P u (fun q => s1 q - 1 / 2 * s2 q - 1 / 2 * s3 q))).
Proof.
  intros H1 H2 H3 W SS ST Hv Hm M0 He.
  unfold CRPSEnsembleDistance in Hm. eapply joint_metric with (m0 := m0) (e := e) in Hm; [destruct Hm as (P & parts & HP & HPin & HF & HL)|..|exact W|exact M0|exact He].
  2:{ intros s raw [<-|[<-|[<-|[]]]]; apply per_var_outputs. }
  3:{ repeat constructor; simpl; intuition discriminate. }
  2:{ apply unique_three; cbn [unique_name CRPSSkill CRPSSpread per_variable_statistic]; intros H.
    + cbn [append] in H. discriminate.
    + cbn [append] in H. discriminate.
    + apply append_inj_l in H. apply append_inj_l in H. apply append_inj_l in H. destruct fair; cbn [append] in H; discriminate. }
  - exists P. split; [exact HP|]. split; [exact HPin|]. cbv zeta in *. set (u := point_weight g sk wrs bs) in *.
    inversion HL as [|? [k1 m1] ? l1 [E1 K1] HL1]; subst. inversion HL1 as [|? [k2 m2] ? l2 [E2 K2] HL2]; subst. inversion HL2 as [|? [k3 m3] ? l3 [E3 K3] HL3]; subst. inversion HL3; subst. cbn [fst snd] in *. subst k1 k2 k3.
    cbn in HF. injection HF as <-. cbn [binop da_map get].
    destruct (K1 sk s1 H1 (same_self sk (wi_wf _ _ _ _ _ _ _ W)) (fun q A B => proj1 (Hv q A B))) as (_ & V1 & N1).
    destruct (K2 sp s2 H2 SS (fun q A B => proj1 (proj2 (Hv q A B)))) as (_ & V2 & N2).
    destruct (K3 ts s3 H3 ST (fun q A B => proj2 (proj2 (Hv q A B)))) as (_ & V3 & N3).
    intros Hu. rewrite V1, V2, V3 by exact Hu. unfold vsub. cbn [vmul vneg vadd]. f_equal. unfold wavg.
    rewrite (rsum_map_ext (fun q => u q * (s1 q - 1 / 2 * s2 q - 1 / 2 * s3 q)) (fun q => (u q * s1 q + - (1 / 2) * (u q * s2 q)) + - (1 / 2) * (u q * s3 q))) by (intros; ring).
    rewrite !rsum_map_add, !rsum_map_scale. field. exact Hu.
Qed.
