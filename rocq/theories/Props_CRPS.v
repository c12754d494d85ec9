(** C28: CRPS. *)
From Coq Require Import String ZArith List Bool Reals Permutation Lra Lia Sorted.
Import ListNotations.
From Verif Require Import Prelude Values Model_XArray Spec_XArray Proofs_XArray Model_Tree Model_MetricsBase Model_Aggregation
  Spec_Aggregator Spec_Metrics Proofs_Metrics Spec_Means Proofs_Means Model_Deterministic Proofs_Deterministic Model_Categorical Proofs_Categorical
  Spec_Reduce Proofs_Reduce Spec_Statistic Spec_Ensemble Model_Ensemble Proofs_Ensemble Proofs_Ensemble2 Proofs_Ensemble3 Proofs_Ensemble4 Props_Ensemble Proofs_Det2
  Props_Deterministic.
Local Open Scope R_scope.
Local Open Scope string_scope.
Local Open Scope list_scope.

Lemma fixed_pair d pv tv : ensemble_pair d pv tv -> fixed d pv.
Proof. intros [E1 E2 E3 E4]. split; [split; [exact E3|]|]; intros n c H; destruct (E4 n c H) as (? & ? & ?); auto. Qed.
Lemma fixed_pair_t d pv tv : ensemble_pair d pv tv -> fixed d tv.
Proof.
  intros [E1 E2 E3 E4]. split; [split; rewrite E2; [exact E3|]|rewrite E2]; intros n c H; destruct (E4 n c H) as (K1 & K2 & K3); auto.
  intros m Hm. assert (In m (map fst (keep (fun n => negb (eqb n d)) (dims pv)))) as Q.
  { apply names_keep. split; [now apply K2|]. unfold eqb. destruct (eq_dec m d) as [->|]; [contradiction|reflexivity]. }
  rewrite <- E1 in Q. apply names_keep in Q. tauto.
Qed.
Lemma crps_spread_stat argsort d us fair which sk p t v pv tv st : NoDup (keys p) -> dget p v = Some pv -> dget t v = Some tv ->
  statistic_value (CRPSSpread argsort d us fair which sk) p t v st -> crps_spread_var argsort d us fair which sk pv tv = Ok st.
Proof.
  intros Hn Hp Ht H. apply (per_variable_value _ _ _ _ _ pv tv) in H; auto. destruct (crps_spread_var _ _ _ _ _ _ pv tv) as [r|] eqn:E; [|discriminate]. cbn [bind] in H. congruence.
Qed.
Lemma crps_skill_stat d sk p t v pv tv st : NoDup (keys p) -> dget p v = Some pv -> dget t v = Some tv ->
  statistic_value (CRPSSkill d sk) p t v st -> crps_skill_var d sk pv tv = Ok st.
Proof.
  intros Hn Hp Ht H. apply (per_variable_value _ _ _ _ _ pv tv) in H; auto. destruct (crps_skill_var _ _ pv tv) as [r|] eqn:E; [|discriminate]. cbn [bind] in H. congruence.
Qed.
Lemma wf_labels_absent a d : ~ In d (dnames a) -> forall e, along a d e = [].
Proof. intros H e. unfold along, labels_of. destruct (dget (dims a) d) eqn:E; [|reflexivity]. apply dget_Some_keys in E. contradiction. Qed.

(** ** values at a point *)
(** CRPSSkill minus half of CRPSSpread, at a point with finite members [xs] and observation [y]. *)
Theorem C28_pointwise : forall argsort d use_sort (fair : bool) p t v pv tv sk sp e xs y, argsort_ok argsort ->
  NoDup (keys p) -> dget p v = Some pv -> dget t v = Some tv -> wf pv -> wf tv -> ~ In d (dnames tv) ->
  statistic_value (CRPSSkill d false) p t v sk -> statistic_value (CRPSSpread argsort d use_sort fair "predictions" false) p t v sp ->
  along pv d e = map Fin xs -> get tv e = Fin y ->
  exists a b, get sk e = Fin a /\ get sp e = Fin b /\
    a - 1 / 2 * b = rsum (map (fun x => Rabs (x - y)) xs) / size xs - 1 / 2 * spread fair xs /\
    0 <= a - 1 / 2 * b /\
    ((forall x, In x xs -> x = y) -> a - 1 / 2 * b = 0) /\
    (fair = false -> a - 1 / 2 * b = 0 -> forall x, In x xs -> x = y) /\
    (fair = false -> forall zs, StronglySorted Rle zs -> incl (y :: xs) zs ->
       a - 1 / 2 * b = step_integral zs (fun z => (ecdf xs z - (if Rle_dec y z then 1 else 0)) ^ 2)).
Proof.
  intros argsort d us fair p t v pv tv sk sp e xs y HA Hn Hp Ht Wp Wt Hd H1 H2 Hx Hy.
  apply (crps_spread_stat _ _ _ _ _ _ _ _ _ pv tv) in H2; auto. apply (crps_skill_stat _ _ _ _ _ pv tv) in H1; auto.
  destruct (spread_value _ _ _ _ "predictions" _ _ _ _ _ HA Wp H2 Hx) as [L E2].
  assert (xs <> []) as Nx by (destruct xs; [simpl in L; lia|discriminate]).
  pose proof (skill_single d false pv tv sk e xs y Wp Wt Hd H1 Hx Hy Nx) as E1.
  exists (mean_dist xs [y]), (spread fair xs). split; [exact E1|]. split; [exact E2|]. rewrite <- crps_mean_dist. split; [reflexivity|].
  split; [now apply crps_nonneg|]. split; [now apply crps_equal|]. split.
  - intros ->. now apply crps_zero.
  - intros -> zs Hs Hi. rewrite crps_mean_dist.
    pose proof (energy_cdf zs xs [y] Nx ltac:(discriminate) Hs ltac:(intros z Hz; apply Hi; now right) ltac:(intros z [<-|[]]; apply Hi; now left)) as K.
    assert (spread false [y] = 0) as Z. { unfold spread, sum2, size. cbn [map length]. rewrite !rsum_cons, !rsum_nil, dist_refl. unfold Rdiv. ring. }
    rewrite Z in K. replace (mean_dist xs [y] - 1 / 2 * spread false xs) with (mean_dist xs [y] - 1 / 2 * spread false xs - 1 / 2 * 0) by ring.
    rewrite K. apply step_ext. intros z Hz. f_equal. f_equal. unfold ecdf, size, Rleb. cbn [filter]. destruct (Rle_dec y z); cbn [length INR]; field.
Qed.
Print Assumptions C28_pointwise.

(** Fair and non-fair spread differ by the factor M / (M - 1). *)
Theorem C28_fair_factor : forall argsort d use_sort use_sort' p t v pv tv sf su e xs, argsort_ok argsort ->
  NoDup (keys p) -> dget p v = Some pv -> dget t v = Some tv -> wf pv ->
  statistic_value (CRPSSpread argsort d use_sort true "predictions" false) p t v sf ->
  statistic_value (CRPSSpread argsort d use_sort' false "predictions" false) p t v su ->
  along pv d e = map Fin xs ->
  exists f u, get sf e = Fin f /\ get su e = Fin u /\ f = size xs / (size xs - 1) * u.
Proof.
  intros argsort d us us' p t v pv tv sf su e xs HA Hn Hp Ht Wp H1 H2 Hx.
  apply (crps_spread_stat _ _ _ _ _ _ _ _ _ pv tv) in H1; auto. apply (crps_spread_stat _ _ _ _ _ _ _ _ _ pv tv) in H2; auto.
  destruct (spread_value _ _ _ _ "predictions" _ _ _ _ _ HA Wp H1 Hx) as [L E1]. destruct (spread_value _ _ _ _ "predictions" _ _ _ _ _ HA Wp H2 Hx) as [_ E2].
  exists (spread true xs), (spread false xs). split; [exact E1|]. split; [exact E2|]. apply size_ge2 in L. unfold spread. field. lra.
Qed.
Print Assumptions C28_fair_factor.

(** With skipna an ensemble with one valid member scores the absolute error (non-fair). *)
Theorem C28_single_member : forall argsort d p t v pv tv sk sp e x y,
  NoDup (keys p) -> dget p v = Some pv -> dget t v = Some tv -> wf pv -> wf tv -> ~ In d (dnames tv) ->
  statistic_value (CRPSSkill d true) p t v sk -> statistic_value (CRPSSpread argsort d false false "predictions" true) p t v sp ->
  filter (fun a => negb (isnan a)) (along pv d e) = [Fin x] -> get tv e = Fin y ->
  exists a b, get sk e = Fin a /\ get sp e = Fin b /\ a - 1 / 2 * b = Rabs (x - y).
Proof.
  intros argsort d p t v pv tv sk sp e x y Hn Hp Ht Wp Wt Hd H1 H2 Hx Hy.
  apply (crps_spread_stat _ _ _ _ _ _ _ _ _ pv tv) in H2; auto. apply (crps_skill_stat _ _ _ _ _ pv tv) in H1; auto.
  pose proof (skill_single d true pv tv sk e [x] y Wp Wt Hd H1 Hx Hy ltac:(discriminate)) as E1.
  destruct (spread_skipna argsort d false pv tv sp e [x] Wp H2 Hx) as [E2 _]. cbv zeta in E2.
  assert (spread false [x] = 0) as Z. { unfold spread, sum2, size. cbn [map length]. rewrite !rsum_cons, !rsum_nil, dist_refl. unfold Rdiv. ring. }
  exists (mean_dist [x] [y]), (spread false [x]). split; [exact E1|]. split; [apply E2; unfold size, fair1; simpl; lra|].
  rewrite Z, mean_dist_single. cbn [map]. rewrite rsum_cons, rsum_nil. unfold size, dist. cbn [length INR]. field.
Qed.
Print Assumptions C28_single_member.

(** ** the metric *)
Lemma metric_statistics g p t stats F v a : (forall s raw, In s (map snd stats) -> compute s p t = Ok raw -> NoDup (keys raw)) ->
  (forall s s', In s (map snd stats) -> In s' (map snd stats) -> unique_name s = unique_name s' -> compute s p t = compute s' p t) ->
  NoDup (map fst stats) -> metric_value g p t (per_variable_metric stats F) v a ->
  forall s, In s (map snd stats) -> exists st, statistic_value s p t v st.
Proof.
  intros H1 H2 H3 Hm s Hs. destruct (value_of_metric g p t stats F v a H1 H2 H3 Hm) as (parts & _ & HL). clear - HL Hs.
  induction HL as [|[k s0] [k' m] stats parts [E (raw & st & A & B & C)] HL IH]; [destruct Hs|]. cbn [map snd] in *. destruct Hs as [<-|Hs]; [|auto]. exists st, raw. auto.
Qed.

(** The metric is the weighted average over the reduced points of the CRPS of the ensemble at
    each point: non-negative, and (non-fair, positive weights) zero only for perfect ensembles. *)
Theorem C28_metric : forall argsort d use_sort (fair : bool) g p t v pv tv xs y sk s1 ws wrs ms bs m0 a e, argsort_ok argsort ->
  NoDup (keys p) -> dget p v = Some pv -> dget t v = Some tv -> wf pv -> wf tv -> ~ In d (dnames tv) -> ensemble_pair d pv tv ->
  (forall q, point_of (dims tv) q -> along pv d q = map Fin (xs q) /\ get tv q = Fin (y q)) ->
  metric_value g p t (CRPSEnsemble argsort d use_sort fair false) v a ->
  statistic_value (CRPSSkill d false) p t v sk -> weighted_input g sk s1 ws wrs ms bs -> mean_array g sk m0 -> point_of (dims m0) e ->
  exists P, reduced_points (sk :: ws ++ ms) (reduce_dims g) e P /\ (forall q, In q P -> point_of (dims tv) q) /\
    let u := point_weight g sk wrs bs in
    (rsum (map u P) <> 0 -> exists r, get a e = Fin r /\
       r = wavg P u (fun q => rsum (map (fun x => Rabs (x - y q)) (xs q)) / size (xs q) - 1 / 2 * spread fair (xs q)) /\
       ((forall q, 0 <= u q) -> 0 <= r) /\
       ((forall q x, In q P -> In x (xs q) -> x = y q) -> r = 0) /\
       ((forall q, In q P -> 0 < u q) -> fair = false -> r = 0 -> forall q x, In q P -> In x (xs q) -> x = y q)) /\
    (rsum (map u P) = 0 -> (forall q, 0 <= u q) -> get a e = NaN).
Proof.
  intros argsort d us fair g p t v pv tv xs y sk s1 ws wrs ms bs m0 a e HA Hn Hp Ht Wp Wt Hd EP Hxy Hm Hsk W M0 He.
  assert (exists sp, statistic_value (CRPSSpread argsort d us fair "predictions" false) p t v sp) as [sp Hsp].
  { eapply metric_statistics; [..|exact Hm|right; left; reflexivity].
    - intros s raw [<-|[<-|[]]]; apply per_var_outputs.
    - apply unique_two, crps_names.
    - repeat constructor; simpl; intuition discriminate. }
  pose proof (crps_spread_stat _ _ _ _ _ _ _ _ _ pv tv _ Hn Hp Ht Hsp) as S2. pose proof (crps_skill_stat _ _ _ _ _ pv tv _ Hn Hp Ht Hsk) as S1.
  destruct (spread_shape _ _ _ _ _ _ _ _ S2) as (D2 & A2 & W2); [exact Wp|now apply (fixed_pair d pv tv)|]. cbn in D2, A2.
  destruct (skill_shape _ _ _ _ _ S1 Wp Wt EP) as (D1 & A1 & W1); [contradiction|].
  assert (dims tv = dims sk) as Dt.
  { rewrite D1, <- (ep_dims _ _ _ EP). unfold keep. symmetry. apply filter_all. intros [n l] Hin. cbn [fst]. unfold eqb.
    destruct (eq_dec n d) as [->|]; [|reflexivity]. exfalso. apply Hd. apply (in_map fst) in Hin. exact Hin. }
  assert (forall q, point_of (dims sk) q -> (2 <= length (xs q))%nat /\ get sk q = Fin (mean_dist (xs q) [y q]) /\ get sp q = Fin (spread fair (xs q))) as V.
  { intros q Hq. rewrite <- Dt in Hq. destruct (Hxy q Hq) as [X Y]. destruct (spread_value _ _ _ _ "predictions" _ _ _ _ _ HA Wp S2 X) as [L E2].
    assert (xs q <> []) as Nx by (destruct (xs q); [simpl in L; lia|discriminate]). split; [exact L|]. split; [|exact E2]. exact (skill_single d false pv tv sk q (xs q) (y q) Wp Wt Hd S1 X Y Nx). }
  assert (same_sample sk sp) as SS.
  { split; [congruence|]. split; [congruence|]. split; [exact W2|]. intros q Hq. destruct (V q Hq) as (_ & -> & ->). reflexivity. }
  assert (forall q, point_of (dims sk) q -> counted g sk q = true -> s1 q = mean_dist (xs q) [y q]) as V1.
  { intros q Hq Hc. pose proof (wi_finite _ _ _ _ _ _ _ W q Hq Hc) as K. destruct (V q Hq) as (_ & K' & _). congruence. }
  destruct (crps_metric argsort d us fair false g p t v sk sp s1 (fun q => spread fair (xs q)) ws wrs ms bs m0 a e Hsk Hsp W SS) as (P & HP & HPin & HV & HN); auto.
  { intros q Hq Hc. destruct (V q Hq) as (_ & K1 & K2). rewrite (V1 q Hq Hc). auto. }
  exists P. split; [exact HP|]. split; [intros q Hq; rewrite Dt; auto|]. cbv zeta in *. set (u := point_weight g sk wrs bs) in *. split; [|exact HN].
  intros Hu. rewrite (HV Hu). exists (wavg P u (fun q => crps fair (xs q) (y q))).
  assert (forall q, In q P -> u q * (s1 q - 1 / 2 * spread fair (xs q)) = u q * crps fair (xs q) (y q)) as EQ.
  { intros q Hq. destruct (counted g sk q) eqn:C.
    - rewrite (V1 q (HPin q Hq) C), crps_mean_dist. reflexivity.
    - unfold u, point_weight. rewrite C. cbn [andb]. ring. }
  split; [f_equal; unfold wavg; f_equal; apply rsum_map_ext; exact EQ|]. split; [reflexivity|].
  assert (forall q, In q P -> 0 <= crps fair (xs q) (y q)) as NN by (intros q Hq; apply crps_nonneg, (V q (HPin q Hq))).
  split; [|split].
  - intros Hp0. apply wavg_nonneg; auto.
  - intros HE. unfold wavg. rewrite (rsum_map_ext _ (fun _ => 0)), rsum_const by (intros q Hq; rewrite crps_equal by (intros x; now apply HE); ring). unfold Rdiv. ring.
  - intros Hpos Hf Hr q x Hq Hx. subst fair. apply (crps_zero (xs q) (y q)); auto; [apply (V q (HPin q Hq))|].
    assert (rsum (map (fun q => u q * crps false (xs q) (y q)) P) = 0) as Z. { unfold wavg in Hr. apply Rmult_integral in Hr. destruct Hr as [?|Hr]; [auto|]. apply Rinv_neq_0_compat in Hu. contradiction. }
    pose proof (rsum_zero_inv (fun q => u q * crps false (xs q) (y q)) P) as K. cbv beta in K. specialize (K ltac:(intros z Hz; apply Rmult_le_pos; [left; now apply Hpos|now apply NN]) Z q Hq).
    apply Rmult_integral in K. destruct K as [K|K]; [specialize (Hpos q Hq); lra|exact K].
Qed.
Print Assumptions C28_metric.

(** The distance of two ensembles, at each point; non-negative if not fair. *)
Theorem C28_distance : forall argsort d use_sort (fair : bool) g p t v pv tv xs ys sk s1 ws wrs ms bs m0 a e, argsort_ok argsort ->
  NoDup (keys p) -> dget p v = Some pv -> dget t v = Some tv -> wf pv -> wf tv -> In d (dnames tv) ->
  ~ In (d ++ "_PSEUDO_FOR_TARGETS")%string (dnames pv) -> ensemble_pair d pv tv ->
  (forall q, point_of (keep (fun n => negb (eqb n d)) (dims tv)) q -> along pv d q = map Fin (xs q) /\ along tv d q = map Fin (ys q)) ->
  metric_value g p t (CRPSEnsembleDistance argsort d use_sort fair false) v a ->
  statistic_value (CRPSSkill d false) p t v sk -> weighted_input g sk s1 ws wrs ms bs -> mean_array g sk m0 -> point_of (dims m0) e ->
  exists P, reduced_points (sk :: ws ++ ms) (reduce_dims g) e P /\ (forall q, In q P -> point_of (keep (fun n => negb (eqb n d)) (dims tv)) q) /\
    let u := point_weight g sk wrs bs in
    rsum (map u P) <> 0 -> exists r, get a e = Fin r /\
       r = wavg P u (fun q => mean_dist (xs q) (ys q) - 1 / 2 * spread fair (xs q) - 1 / 2 * spread fair (ys q)) /\
       ((forall q, 0 <= u q) -> fair = false -> 0 <= r).
Proof.
  intros argsort d us fair g p t v pv tv xs ys sk s1 ws wrs ms bs m0 a e HA Hn Hp Ht Wp Wt Hd Hps EP Hxy Hm Hsk W M0 He.
  assert (forall which, In which ["predictions"; "targets"] -> exists sp, statistic_value (CRPSSpread argsort d us fair which false) p t v sp) as HS.
  { intros which Hw. eapply metric_statistics; [..|exact Hm|right; destruct Hw as [<-|[<-|[]]]; [left|right; left]; reflexivity].
    - intros s raw [<-|[<-|[<-|[]]]]; apply per_var_outputs.
    - apply unique_three; cbn [unique_name CRPSSkill CRPSSpread per_variable_statistic]; intros H.
      + cbn [append] in H. discriminate.
      + cbn [append] in H. discriminate.
      + apply append_inj_l in H. apply append_inj_l in H. apply append_inj_l in H. destruct fair; cbn [append] in H; discriminate.
    - repeat constructor; simpl; intuition discriminate. }
  destruct (HS "predictions" ltac:(now left)) as [sp Hsp]. destruct (HS "targets" ltac:(right; now left)) as [ts Hts].
  pose proof (crps_spread_stat _ _ _ _ _ _ _ _ _ pv tv _ Hn Hp Ht Hsp) as S2. pose proof (crps_skill_stat _ _ _ _ _ pv tv _ Hn Hp Ht Hsk) as S1.
  pose proof (crps_spread_stat _ _ _ _ _ _ _ _ _ pv tv _ Hn Hp Ht Hts) as S3.
  destruct (spread_shape _ _ _ _ _ _ _ _ S2) as (D2 & A2 & W2); [exact Wp|now apply (fixed_pair d pv tv)|]. cbn in D2, A2.
  destruct (spread_shape _ _ _ _ _ _ _ _ S3) as (D3 & A3 & W3); [exact Wt|now apply (fixed_pair_t d pv tv)|]. cbn in D3, A3.
  destruct (skill_shape _ _ _ _ _ S1 Wp Wt EP) as (D1 & A1 & W1); [auto|]. pose proof (ep_dims _ _ _ EP) as ED. pose proof (ep_aux _ _ _ EP) as EA.
  assert (forall q, point_of (dims sk) q -> get sk q = Fin (mean_dist (xs q) (ys q)) /\ get sp q = Fin (spread fair (xs q)) /\ get ts q = Fin (spread fair (ys q)) /\ xs q <> [] /\ ys q <> []) as V.
  { intros q Hq. rewrite D1, <- ED in Hq. destruct (Hxy q Hq) as [X Y]. destruct (spread_value _ _ _ _ "predictions" _ _ _ _ _ HA Wp S2 X) as [L E2].
    destruct (spread_value _ _ _ _ "targets" _ _ _ _ _ HA Wt S3 Y) as [L3 E3].
    assert (xs q <> []) as Nx by (destruct (xs q); [simpl in L; lia|discriminate]). assert (ys q <> []) as Ny by (destruct (ys q); [simpl in L3; lia|discriminate]).
    split; [|auto]. exact (skill_ensemble d false pv tv sk q (xs q) (ys q) Wp Wt Hd Hps S1 X Y Nx Ny). }
  assert (same_sample sk sp) as SS.
  { split; [congruence|]. split; [congruence|]. split; [exact W2|]. intros q Hq. destruct (V q Hq) as (-> & -> & _). reflexivity. }
  assert (same_sample sk ts) as ST.
  { split; [congruence|]. split; [congruence|]. split; [exact W3|]. intros q Hq. destruct (V q Hq) as (-> & _ & -> & _). reflexivity. }
  assert (forall q, point_of (dims sk) q -> counted g sk q = true -> s1 q = mean_dist (xs q) (ys q)) as V1.
  { intros q Hq Hc. pose proof (wi_finite _ _ _ _ _ _ _ W q Hq Hc) as K. destruct (V q Hq) as (K' & _). congruence. }
  destruct (crps_distance_metric argsort d us fair g p t v sk sp ts s1 (fun q => spread fair (xs q)) (fun q => spread fair (ys q)) ws wrs ms bs m0 a e Hsk Hsp Hts W SS ST) as (P & HP & HPin & HV); auto.
  { intros q Hq Hc. destruct (V q Hq) as (K1 & K2 & K3 & _). rewrite (V1 q Hq Hc). auto. }
  exists P. split; [exact HP|]. split; [intros q Hq; rewrite ED, <- D1; auto|]. cbv zeta in *. set (u := point_weight g sk wrs bs) in *.
  intros Hu. rewrite (HV Hu). exists (wavg P u (fun q => energy fair (xs q) (ys q))).
  assert (forall q, In q P -> u q * (s1 q - 1 / 2 * spread fair (xs q) - 1 / 2 * spread fair (ys q)) = u q * energy fair (xs q) (ys q)) as EQ.
  { intros q Hq. destruct (counted g sk q) eqn:C.
    - rewrite (V1 q (HPin q Hq) C). reflexivity.
    - unfold u, point_weight. rewrite C. cbn [andb]. ring. }
  split; [f_equal; unfold wavg; f_equal; apply rsum_map_ext; exact EQ|]. split; [reflexivity|].
  intros Hp0 ->. apply wavg_nonneg; auto. intros q Hq _. apply energy_nonneg; apply (V q (HPin q Hq)).
Qed.
Print Assumptions C28_distance.

(** ** examples and refutations *)
Definition ens_at (f : Z -> val * val) (x : dict string coord) : da :=
  mkDa [("valid_time", [LZ 0; LZ 1]); ("number", [LZ 0; LZ 1])]
       (fun e => (if (time_value (e "number") =? 0)%Z then fst else snd) (f (time_value (e "valid_time")))) x.
Definition obs_at (f : Z -> val) (x : dict string coord) : da :=
  mkDa [("valid_time", [LZ 0; LZ 1])] (fun e => f (time_value (e "valid_time"))) x.
Definition g_skipna : aggregator := mkAgg ["valid_time"] [] [] true true.
Lemma vdiv_NaN_l x : vdiv NaN x = NaN.
Proof. now destruct x. Qed.
Ltac real_abs := repeat match goal with |- context[Rabs ?x] => first [rewrite (Rabs_pos_eq x) by lra | rewrite (Rabs_left1 x) by lra] end.
Ltac real_value := cbn -[Req_EM_T Rplus Rmult Ropp Rdiv IZR Rlt_dec Rabs vdiv]; unfold np_mean; cbn -[Req_EM_T Rplus Rmult Ropp Rdiv IZR Rlt_dec Rabs vdiv]; real_abs;
  repeat (first [rewrite vdiv_fin by lra | rewrite vdiv_NaN_l]; cbn -[Req_EM_T Rplus Rmult Ropp Rdiv IZR Rlt_dec Rabs vdiv]).
(** The CRPS becomes negative when the aggregator skips NaN and an observation is missing: the
    skill is averaged over the remaining times, the spread over all. *)
Theorem C28_missing_observation_refuted : forall argsort, exists a,
  metric_value g_skipna [("t", ens_at (fun z => if (z =? 0)%Z then (Fin 0, Fin 2) else (Fin 0, Fin 10)) [])]
     [("t", obs_at (fun z => if (z =? 0)%Z then Fin 1 else NaN) [])] (CRPSEnsemble argsort "number" false false false) "t" a /\
  get a env0 = Fin (- (1 / 2)).
Proof.
  intros argsort. eexists. split; [eexists; split; reflexivity|]. real_value. f_equal. field.
Qed.
Print Assumptions C28_missing_observation_refuted.
(** The same happens with a mask that only the observations carry: it masks the skill but not
    the spread. *)
Theorem C28_mask_on_observations_refuted : forall argsort, exists a,
  metric_value ex_g [("t", ens_at (fun z => if (z =? 0)%Z then (Fin 0, Fin 2) else (Fin 0, Fin 10)) [])]
     [("t", obs_at (fun z => Fin 1) [("mask", ex_mask)])] (CRPSEnsemble argsort "number" false false false) "t" a /\
  get a env0 = Fin (- (1 / 2)).
Proof.
  intros argsort. eexists. split; [eexists; split; reflexivity|]. real_value. f_equal. field.
Qed.
Print Assumptions C28_mask_on_observations_refuted.
(** The fair distance of an ensemble to itself is negative. *)
Theorem C28_fair_distance_refuted : forall argsort, exists a,
  metric_value ex_g [("t", ens_at (fun _ => (Fin 0, Fin 2)) [])] [("t", ens_at (fun _ => (Fin 0, Fin 2)) [])]
    (CRPSEnsembleDistance argsort "number" false true false) "t" a /\
  get a env0 = Fin (- (1)).
Proof.
  intros argsort. eexists. split; [eexists; split; reflexivity|]. real_value. f_equal. field.
Qed.
Print Assumptions C28_fair_distance_refuted.
Lemma wf_ens_at f x : wf (ens_at f x).
Proof.
  split; [repeat constructor; simpl; intuition discriminate|]. split.
  - intros d ls [[= <- <-]|[[= <- <-]|[]]]; repeat constructor; simpl; intuition discriminate.
  - intros e e' H. simpl. rewrite (H "valid_time"), (H "number"); [reflexivity|right; now left|now left].
Qed.
Lemma wf_obs_at f x : wf (obs_at f x).
Proof.
  split; [repeat constructor; simpl; intuition discriminate|]. split.
  - intros d ls [[= <- <-]|[]]; repeat constructor; simpl; intuition discriminate.
  - intros e e' H. simpl. rewrite (H "valid_time"); [reflexivity|now left].
Qed.
(** Members 0 and 2, then 0 and 10; observations 1 and 4: CRPS 1/2 at the first time, 5 - 5/2 at the second. *)
Definition ex_ens : da := ens_at (fun z => if (z =? 0)%Z then (Fin 0, Fin 2) else (Fin 0, Fin 10)) [].
Definition ex_obs : da := obs_at (fun z => if (z =? 0)%Z then Fin 1 else Fin 4) [].
Example C28_example : ensemble_pair "number" ex_ens ex_obs /\ wf ex_ens /\ wf ex_obs /\
  (forall q, point_of (dims ex_obs) q -> along ex_ens "number" q = map Fin (if (time_value (q "valid_time") =? 0)%Z then [0; 2] else [0; 10]) /\
     get ex_obs q = Fin (if (time_value (q "valid_time") =? 0)%Z then 1 else 4)) /\
  exists a sk m0 s1, metric_value ex_g [("t", ex_ens)] [("t", ex_obs)] (CRPSEnsemble argsort0 "number" false false false) "t" a /\
    statistic_value (CRPSSkill "number" false) [("t", ex_ens)] [("t", ex_obs)] "t" sk /\ weighted_input ex_g sk s1 [] [] [] [] /\
    mean_array ex_g sk m0 /\ point_of (dims m0) env0 /\ get a env0 = Fin (3 / 2).
Proof.
  split; [constructor; [reflexivity|reflexivity|constructor|intros n c []]|]. split; [apply wf_ens_at|]. split; [apply wf_obs_at|]. split.
  - intros q _. unfold along. cbn. unfold upd. cbn. destruct (time_value (q "valid_time") =? 0)%Z; split; reflexivity.
  - destruct (crps_skill_var "number" false ex_ens ex_obs) as [sk|] eqn:E; [|discriminate].
    assert (statistic_value (CRPSSkill "number" false) [("t", ex_ens)] [("t", ex_obs)] "t" sk) as Hs by (apply single_value; rewrite E; reflexivity).
    assert (wf sk) as W. { eapply wf_reduce; [|exact E]. apply wf_map, wf_binop; [apply wf_ens_at|apply wf_obs_at]. }
    injection E as <-. eexists. eexists. eexists. eexists (fun q => if (time_value (q "valid_time") =? 0)%Z then 1 else 5).
    split; [eexists; split; reflexivity|]. split; [exact Hs|]. split.
    + constructor; [exact W|intros c H; discriminate H|intros ? []|intros ? []|reflexivity|reflexivity|intros ? []|constructor|constructor|].
      intros e _ _. cbn -[Req_EM_T Rplus Rmult Ropp Rdiv IZR Rlt_dec Rabs vdiv]. unfold upd. cbn -[Req_EM_T Rplus Rmult Ropp Rdiv IZR Rlt_dec Rabs vdiv].
      destruct (time_value (e "valid_time") =? 0)%Z; unfold np_mean; cbn -[Req_EM_T Rplus Rmult Ropp Rdiv IZR Rlt_dec Rabs vdiv]; real_abs; rewrite vdiv_fin by lra; f_equal; field.
    + split; [do 2 eexists; split; reflexivity|]. split; [intros d ls []|]. real_value. f_equal. field.
Qed.
