(** C60: coverage, confidence and Jaccard distance of prediction intervals. *)
From Coq Require Import String ZArith QArith Qcanon List Bool Reals Qreals Lra Lia Permutation Sorted.
Import ListNotations.
From Verif Require Import Prelude Values Model_XArray Spec_XArray Proofs_XArray Model_MetricsBase Model_Deterministic Model_Ensemble Spec_Reduce Proofs_Ensemble2
  Model_Bootstrap Proofs_Bootstrap Spec_Binning Spec_Calendar Spec_Loaders Spec_Climatology Proofs_Climatology Model_Intervals Spec_Intervals Proofs_Intervals Spec_Statistic Props_EnsMean
  Proofs_Deterministic Proofs_Categorical Proofs_Seeps.
Local Open Scope R_scope.
Local Open Scope string_scope.
Local Open Scope list_scope.

Lemma shows_b2v b P : (b = true <-> P) -> shows (b2v b) P.
Proof. intros H. destruct b; [left; split; [now apply H|reflexivity]|right; split; [intros K; apply H in K; discriminate|reflexivity]]. Qed.
Lemma covered_get d lo hi p t r e : wf p -> covered_var d lo hi p t = Ok r ->
  get r e = b2v (vleb (list_quantile (qr lo) (along p d e)) (get t e) && vleb (get t e) (list_quantile (qr hi) (along p d e))).
Proof.
  intros W H. unfold covered_var in H. destruct (quantile lo d p) as [pl|] eqn:E1; [|discriminate]. cbn [bind] in H. destruct (quantile hi d p) as [ph|] eqn:E2; [|discriminate]. cbn [bind] in H. injection H as <-.
  unfold band. cbn [get binop]. rewrite (quantile_get _ _ _ _ e W E1), (quantile_get _ _ _ _ e W E2), !vtruthy_b2v. reflexivity.
Qed.
Lemma covered_value fmt d lo hi p t v pv tv st : dget p v = Some pv -> dget t v = Some tv -> NoDup (keys p) ->
  statistic_value (Covered fmt d lo hi) p t v st -> covered_var d lo hi pv tv = Ok st.
Proof.
  intros Hp Ht N H. apply (per_variable_value _ _ _ _ _ pv tv) in H; auto. destruct (covered_var d lo hi pv tv) as [r|]; [|discriminate]. cbn [bind] in H. congruence.
Qed.

(** ** Covered *)
(** 1 if the observation lies between the two quantiles of the valid members (both included),
    0 if not. *)
Theorem C60_covered : forall fmt d lo hi p t v pv tv st e xs y l h,
  NoDup (keys p) -> dget p v = Some pv -> dget t v = Some tv -> wf pv ->
  statistic_value (Covered fmt d lo hi) p t v st ->
  ensemble_of true (along pv d e) xs -> get tv e = Fin y ->
  quantile_of (qr lo) xs l -> quantile_of (qr hi) xs h ->
  shows (get st e) (l <= y <= h).
Proof.
  intros fmt d lo hi p t v pv tv st e xs y l h N Hp Ht W Hs Hx Hy Hl Hh. apply (covered_value _ _ _ _ _ _ _ pv tv) in Hs; auto.
  rewrite (covered_get _ _ _ _ _ _ e W Hs), (list_quantile_value _ _ _ _ Hx Hl), (list_quantile_value _ _ _ _ Hx Hh), Hy, !vleb_Fin. apply shows_b2v.
  rewrite andb_true_iff, !Rleb_true. reflexivity.
Qed.
Print Assumptions C60_covered.
(** Finding: a missing observation, or a forecast without a valid member, counts as not
    covered instead of missing. *)
Theorem C60_covered_missing_refuted : forall fmt d lo hi p t v pv tv st e,
  NoDup (keys p) -> dget p v = Some pv -> dget t v = Some tv -> wf pv ->
  statistic_value (Covered fmt d lo hi) p t v st ->
  get tv e = NaN \/ ensemble_of true (along pv d e) [] -> get st e = Fin 0.
Proof.
  intros fmt d lo hi p t v pv tv st e N Hp Ht W Hs HM. apply (covered_value _ _ _ _ _ _ _ pv tv) in Hs; auto. rewrite (covered_get _ _ _ _ _ _ e W Hs). destruct HM as [->|HM].
  - assert (forall x, vleb x NaN = false) as -> by (intros []; reflexivity). reflexivity.
  - rewrite !(list_quantile_none _ _ HM). reflexivity.
Qed.
Print Assumptions C60_covered_missing_refuted.
(** The whole range (levels 0 and 1): covered iff not below or above all members. *)
Lemma qr0 : qr (Q2Qc 0) = 0. Proof. unfold qr. cbn. unfold Q2R. cbn. lra. Qed.
Lemma qr1 : qr (Q2Qc 1) = 1. Proof. unfold qr. cbn. unfold Q2R. cbn. lra. Qed.
Lemma extreme_quantiles xs : xs <> [] -> exists a b, In a xs /\ In b xs /\ (forall x, In x xs -> a <= x <= b) /\ quantile_of 0 xs a /\ quantile_of 1 xs b.
Proof.
  intros N. pose proof (sort_perm xs) as P. pose proof (sort_sorted xs) as S. pose proof (Permutation_length P) as PL.
  assert (length xs <> 0)%nat as LN by (destruct xs; [contradiction|discriminate]).
  exists (nth 0 (sort xs) 0), (nth (length xs - 1) (sort xs) 0).
  split; [apply (Permutation_in _ (Permutation_sym P)), nth_In; lia|]. split; [apply (Permutation_in _ (Permutation_sym P)), nth_In; lia|]. split.
  - intros x I. apply (Permutation_in _ P) in I. destruct (In_nth _ _ 0 I) as (i & Li & <-). split; apply sorted_le; auto; lia.
  - split; [exists (sort xs), 0%nat|exists (sort xs), (length xs - 1)%nat]; (split; [exact P|split; [exact S|split; [lia|left]]]).
    + split; [cbn [INR]; lra|reflexivity].
    + split; [rewrite <- PL, minus_INR by lia; cbn; lra|reflexivity].
Qed.
Theorem C60_covered_range : forall fmt d p t v pv tv st e xs y,
  NoDup (keys p) -> dget p v = Some pv -> dget t v = Some tv -> wf pv ->
  statistic_value (Covered fmt d (Q2Qc 0) (Q2Qc 1)) p t v st ->
  ensemble_of true (along pv d e) xs -> get tv e = Fin y -> xs <> [] ->
  shows (get st e) ((exists x, In x xs /\ x <= y) /\ exists x, In x xs /\ y <= x).
Proof.
  intros fmt d p t v pv tv st e xs y N Hp Ht W Hs Hx Hy Nx. destruct (extreme_quantiles xs Nx) as (a & b & Ia & Ib & R & Qa & Qb).
  assert (shows (get st e) (a <= y <= b)) as K. { apply (C60_covered fmt d (Q2Qc 0) (Q2Qc 1) p t v pv tv st e xs y a b); auto; [now rewrite qr0|now rewrite qr1]. }
  destruct K as [[[K1 K2] K]|[K1 K]]; [left|right]; split; auto.
  - split; eauto.
  - intros [(x & Ix & Hx1) (z & Iz & Hz)]. apply K1. pose proof (R _ Ix). pose proof (R _ Iz). lra.
Qed.
Print Assumptions C60_covered_range.
(** A wider pair of levels covers at least what a narrower one covers. *)
Lemma quantile_le q q' xs x y : 0 <= q -> q <= q' -> q' <= 1 -> quantile_of q xs x -> quantile_of q' xs y -> x <= y.
Proof.
  rewrite !quantile_is. intros H0 H H1 (N & _ & ->) (_ & _ & ->). apply quantile_mono; auto; [|apply sort_sorted].
  intros E. pose proof (sort_perm xs) as P. rewrite E in P. apply Permutation_sym, Permutation_nil in P. contradiction.
Qed.
Theorem C60_covered_monotone : forall fmt d lo hi lo' hi' p t v pv tv st st' e xs y,
  NoDup (keys p) -> dget p v = Some pv -> dget t v = Some tv -> wf pv ->
  statistic_value (Covered fmt d lo hi) p t v st -> statistic_value (Covered fmt d lo' hi') p t v st' ->
  ensemble_of true (along pv d e) xs -> get tv e = Fin y -> xs <> [] ->
  qr lo' <= qr lo -> qr hi <= qr hi' -> get st e = Fin 1 -> get st' e = Fin 1.
Proof.
  intros fmt d lo hi lo' hi' p t v pv tv st st' e xs y N Hp Ht W Hs Hs' Hx Hy Nx L1 L2 H.
  assert (forall a b s, statistic_value (Covered fmt d a b) p t v s -> (0 <= qr a <= 1) /\ 0 <= qr b <= 1) as RG.
  { intros a b s K. apply (covered_value _ _ _ _ _ _ _ pv tv) in K; auto. unfold covered_var in K. destruct (quantile a d pv) as [x|] eqn:E1; [|discriminate]. cbn [bind] in K. destruct (quantile b d pv) as [z|] eqn:E2; [|discriminate].
    split; [apply (quantile_Ok a d pv)|apply (quantile_Ok b d pv)]; eauto. }
  destruct (RG _ _ _ Hs) as [R1 R2]. destruct (RG _ _ _ Hs') as [R3 R4].
  destruct (C60_covered _ _ _ _ _ _ _ _ _ _ _ _ _ _ _ N Hp Ht W Hs Hx Hy (quantile_exists _ _ R1 Nx) (quantile_exists _ _ R2 Nx)) as [[K _]|[_ K]].
  2:{ rewrite K in H. exfalso. assert (forall a b, Fin a = Fin b -> a = b) as FI by (intros; congruence). apply FI in H. lra. }
  pose proof (quantile_le _ _ _ _ _ (proj1 R3) L1 (proj2 R1) (quantile_exists _ _ R3 Nx) (quantile_exists _ _ R1 Nx)) as A.
  pose proof (quantile_le _ _ _ _ _ (proj1 R2) L2 (proj2 R4) (quantile_exists _ _ R2 Nx) (quantile_exists _ _ R4 Nx)) as B.
  destruct (C60_covered _ _ _ _ _ _ _ _ _ _ _ _ _ _ _ N Hp Ht W Hs' Hx Hy (quantile_exists _ _ R3 Nx) (quantile_exists _ _ R4 Nx)) as [[_ K']|[K' _]]; auto. exfalso. apply K'. lra.
Qed.
Print Assumptions C60_covered_monotone.

(** ** Confident *)
(** [l], [h]: quantiles of the valid members; [cl], [ch]: the climatology's quantiles at the
    forecast's valid time. *)
Record quantiles_at (d : string) (lo hi : Qc) (p t clim : vars da) (v : string) (pv tv cv : da) (e : env) (xs : list R) (l h cl ch : R) : Prop := {
  qa_keys : NoDup (keys p); qa_p : dget p v = Some pv; qa_t : dget t v = Some tv; qa_c : dget clim v = Some cv;
  qa_wf : wf pv; qa_local : coords_local pv; qa_wfc : wf cv; qa_nodim : ~ In "quantile" (dnames pv);
  qa_xs : ensemble_of true (along pv d e) xs; qa_l : quantile_of (qr lo) xs l; qa_h : quantile_of (qr hi) xs h;
  qa_clim : exists T el eh, forecast_time pv e T /\
    climatology_point cv (upd e "quantile" (LQ lo)) T el /\ climatology_point cv (upd e "quantile" (LQ hi)) T eh /\
    get cv el = Fin cl /\ get cv eh = Fin ch }.
Lemma clim_quantile p cv c q r e T e' : wf p -> coords_local p -> wf cv -> ~ In "quantile" (dnames p) -> align_climatology p cv = Ok c -> sel_quantile q c = Ok r ->
  forecast_time p e T -> climatology_point cv (upd e "quantile" (LQ q)) T e' -> get r e = get cv e'.
Proof.
  intros W L Wc N A Hq HT HC. rewrite (sel_quantile_get _ _ _ e Hq). apply (aligned_value p cv c _ T); auto. now apply forecast_time_upd.
Qed.
Theorem C60_confident : forall fmt d lo hi threshold p t clim v pv tv cv st e xs l h cl ch,
  quantiles_at d lo hi p t clim v pv tv cv e xs l h cl ch ->
  statistic_value (Confident fmt d clim lo hi threshold) p t v st ->
  shows (get st e) (h - l < qr threshold * (ch - cl)).
Proof.
  intros fmt d lo hi threshold p t clim v pv tv cv st e xs l h cl ch [N Hp Ht Hc W L Wc Nq Hx Hl Hh (T & el & eh & HT & H1 & H2 & G1 & G2)] Hs.
  destruct (statistic_clim_r _ _ _ _ _ _ _ _ _ _ N Hp Ht Hc Hs) as (c & A & H). unfold confident_var in H.
  destruct (quantile hi d pv) as [ph|] eqn:E1; [|discriminate]. cbn [bind] in H. destruct (quantile lo d pv) as [pl|] eqn:E2; [|discriminate]. cbn [bind] in H.
  destruct (sel_quantile hi c) as [sh|] eqn:E3; [|discriminate]. cbn [bind] in H. destruct (sel_quantile lo c) as [sl|] eqn:E4; [|discriminate]. cbn [bind] in H. injection H as <-.
  cbn [get binop da_map]. rewrite (quantile_get _ _ _ _ e W E1), (quantile_get _ _ _ _ e W E2), (list_quantile_value _ _ _ _ Hx Hl), (list_quantile_value _ _ _ _ Hx Hh).
  rewrite (clim_quantile _ _ _ _ _ _ _ _ W L Wc Nq A E3 HT H2), (clim_quantile _ _ _ _ _ _ _ _ W L Wc Nq A E4 HT H1), G1, G2. cbn [vsub vneg vadd vmul vltb].
  apply shows_b2v. rewrite Rltb_true. unfold Rminus. reflexivity.
Qed.
Print Assumptions C60_confident.

(** ** JaccardDistant *)
Lemma vmaximum_Fin x y : vmaximum (Fin x) (Fin y) = Fin (Rmax x y).
Proof. unfold vmaximum. rewrite vleb_Fin. unfold Rleb, Rmax. destruct (Rle_dec x y); reflexivity. Qed.
Lemma vminimum_Fin x y : vminimum (Fin x) (Fin y) = Fin (Rmin x y).
Proof. unfold vminimum. rewrite vleb_Fin. unfold Rleb, Rmin. destruct (Rle_dec x y); reflexivity. Qed.
Lemma common_is l h l' h' c : l <= h -> l' <= h' -> (common_length l h l' h' c <-> c = Rmax 0 (Rmin h h' - Rmax l l')).
Proof.
  intros H H'. assert (forall a b c, Rmax a b <= c <-> a <= c /\ b <= c) as MX by (intros; unfold Rmax; destruct (Rle_dec _ _); lra).
  assert (forall a b c, c <= Rmin a b <-> c <= a /\ c <= b) as MN by (intros; unfold Rmin; destruct (Rle_dec _ _); lra).
  assert (forall z, (l <= z <= h /\ l' <= z <= h') <-> Rmax l l' <= z <= Rmin h h') as E by (intros z; rewrite MX, MN; tauto).
  set (m := Rmax l l') in *. set (n := Rmin h h') in *. split.
  - intros [(x & y & Hxy & -> & K)|[-> K]].
    + assert (m <= x <= n) by (apply E, K; lra). assert (m <= y <= n) by (apply E, K; lra). assert (x <= m <= y) by (apply K, E; lra). assert (x <= n <= y) by (apply K, E; lra).
      unfold Rmax. destruct (Rle_dec _ _); lra.
    + assert (n < m). { apply Rnot_le_lt. intros J. apply (K m), E. lra. } unfold Rmax. destruct (Rle_dec _ _); lra.
  - intros ->. destruct (Rle_dec m n) as [J|J].
    + left. exists m, n. split; auto. split; [unfold Rmax; destruct (Rle_dec _ _); lra|exact E].
    + right. split; [unfold Rmax; destruct (Rle_dec _ _); lra|]. intros z Hz. apply E in Hz. lra.
Qed.
Lemma jaccard_get d threshold lo hi p cv c r e xs l h T el eh cl ch : wf p -> coords_local p -> wf cv -> ~ In "quantile" (dnames p) -> align_climatology p cv = Ok c ->
  ensemble_of true (along p d e) xs -> quantile_of (qr lo) xs l -> quantile_of (qr hi) xs h -> forecast_time p e T ->
  climatology_point cv (upd e "quantile" (LQ lo)) T el -> climatology_point cv (upd e "quantile" (LQ hi)) T eh -> get cv el = Fin cl -> get cv eh = Fin ch ->
  jaccard_var d threshold lo hi p c = Ok r ->
  let i := Rmax 0 (Rmin h ch - Rmax l cl) in let u := h - l + (ch - cl) - i in
  get r e = b2v (Rltb (qr threshold) (1 - (if Rltb 0 u then i / u else 1))).
Proof.
  intros W L Wc Nq A Hx Hl Hh HT H1 H2 G1 G2 H i u. unfold jaccard_var in H.
  destruct (quantile lo d p) as [pl|] eqn:E2; [|discriminate]. cbn [bind] in H. destruct (quantile hi d p) as [ph|] eqn:E1; [|discriminate]. cbn [bind] in H.
  destruct (sel_quantile lo c) as [sl|] eqn:E4; [|discriminate]. cbn [bind] in H. destruct (sel_quantile hi c) as [sh|] eqn:E3; [|discriminate]. cbn [bind] in H. injection H as <-.
  cbn [get binop da_map]. rewrite (quantile_get _ _ _ _ e W E1), (quantile_get _ _ _ _ e W E2), (list_quantile_value _ _ _ _ Hx Hl), (list_quantile_value _ _ _ _ Hx Hh).
  rewrite (clim_quantile _ _ _ _ _ _ _ _ W L Wc Nq A E3 HT H2), (clim_quantile _ _ _ _ _ _ _ _ W L Wc Nq A E4 HT H1), G1, G2.
  rewrite vmaximum_Fin, vminimum_Fin. cbn [vsub vneg vadd]. rewrite vmaximum_Fin. cbn [vsub vneg vadd]. change (Rmin h ch + - Rmax l cl) with (Rmin h ch - Rmax l cl). fold i.
  change (h + - l + (ch + - cl) + - i) with u. cbn [vltb]. destruct (Rltb 0 u) eqn:U.
  - cbn [vdiv]. apply Rltb_true in U. destruct (Req_EM_T u 0); [lra|]. cbn [vneg vadd]. reflexivity.
  - cbn [vneg vadd]. reflexivity.
Qed.
(** The Jaccard distance 1 - |A n B| / |A u B| of the two intervals is above the threshold; for
    two single points (union of length 0) the distance counts as 0. *)
Theorem C60_jaccard : forall fmt d lo hi threshold p t clim v pv tv cv st e xs l h cl ch c,
  quantiles_at d lo hi p t clim v pv tv cv e xs l h cl ch ->
  statistic_value (JaccardDistant fmt d clim threshold lo hi) p t v st ->
  qr lo <= qr hi -> cl <= ch -> common_length l h cl ch c ->
  let u := (h - l) + (ch - cl) - c in
  0 <= c <= u /\
  (0 < u -> shows (get st e) (qr threshold < 1 - c / u)) /\
  (u = 0 -> l = h /\ cl = ch /\ shows (get st e) (qr threshold < 0)).
Proof.
  intros fmt d lo hi threshold p t clim v pv tv cv st e xs l h cl ch c [N Hp Ht Hc W L Wc Nq Hx Hl Hh (T & el & eh & HT & H1 & H2 & G1 & G2)] Hs Hq Hcl Hcc u.
  destruct (statistic_clim_r _ _ _ _ _ _ _ _ _ _ N Hp Ht Hc Hs) as (al & A & H).
  assert (0 <= qr lo <= 1 /\ 0 <= qr hi <= 1) as [R1 R2].
  { unfold jaccard_var in H. destruct (quantile lo d pv) as [pl|] eqn:E2; [|discriminate]. cbn [bind] in H. destruct (quantile hi d pv) as [ph|] eqn:E1; [|discriminate].
    split; [apply (quantile_Ok lo d pv)|apply (quantile_Ok hi d pv)]; eauto. }
  assert (l <= h) as Hlh by (apply (quantile_le (qr lo) (qr hi) xs); auto; lra).
  apply (common_is l h cl ch c Hlh Hcl) in Hcc. pose proof (jaccard_get _ _ _ _ _ _ _ _ _ _ _ _ _ _ _ _ _ W L Wc Nq A Hx Hl Hh HT H1 H2 G1 G2 H) as K. cbv zeta in K. rewrite <- Hcc in K. fold u in K.
  assert (0 <= c /\ c <= h - l /\ c <= ch - cl) as (C0 & C1 & C2).
  { rewrite Hcc. unfold Rmax, Rmin. repeat destruct (Rle_dec _ _); lra. }
  split; [unfold u; lra|]. split.
  - intros U. replace (Rltb 0 u) with true in K by (symmetry; now apply Rltb_true). rewrite K. apply shows_b2v, Rltb_true.
  - intros U. replace (Rltb 0 u) with false in K by (symmetry; apply Rltb_false; lra). unfold u in U. split; [lra|]. split; [lra|]. rewrite K. apply shows_b2v. rewrite Rltb_true. lra.
Qed.
Print Assumptions C60_jaccard.
(** Intervals of positive length: the climatology's own interval is never distant, a disjoint one
    always. *)
Theorem C60_jaccard_extremes : forall fmt d lo hi threshold p t clim v pv tv cv st e xs l h cl ch,
  quantiles_at d lo hi p t clim v pv tv cv e xs l h cl ch ->
  statistic_value (JaccardDistant fmt d clim threshold lo hi) p t v st ->
  qr lo <= qr hi -> cl < ch -> 0 <= qr threshold < 1 ->
  (l = cl -> h = ch -> get st e = Fin 0) /\ (h < cl \/ ch < l -> get st e = Fin 1).
Proof.
  intros fmt d lo hi threshold p t clim v pv tv cv st e xs l h cl ch Q Hs Hq Hcl Ht. split.
  - intros -> ->. assert (common_length cl ch cl ch (ch - cl)) as CC by (left; exists cl, ch; split; [lra|split; [reflexivity|intros z; tauto]]).
    destruct (C60_jaccard _ _ _ _ _ _ _ _ _ _ _ _ _ _ _ _ _ _ _ _ Q Hs Hq (Rlt_le _ _ Hcl) CC) as (_ & K & _). destruct K as [[K _]|[_ K]]; [lra| |exact K]. exfalso.
    replace (ch - cl + (ch - cl) - (ch - cl)) with (ch - cl) in K by ring. replace ((ch - cl) / (ch - cl)) with 1 in K by (field; lra). lra.
  - intros HD. assert (common_length l h cl ch 0) as CC by (right; split; [reflexivity|intros z; lra]).
    destruct (C60_jaccard _ _ _ _ _ _ _ _ _ _ _ _ _ _ _ _ _ _ _ _ Q Hs Hq (Rlt_le _ _ Hcl) CC) as (CB & K & _).
    assert (l <= h) as Hlh. { destruct Q as [N Hp Htt Hc W L Wc Nq Hx Hl Hh _]. destruct (statistic_clim_r _ _ _ _ _ _ _ _ _ _ N Hp Htt Hc Hs) as (al & A & H).
      unfold jaccard_var in H. destruct (quantile lo d pv) as [pl|] eqn:E2; [|discriminate]. cbn [bind] in H. destruct (quantile hi d pv) as [ph|] eqn:E1; [|discriminate].
      assert (0 <= qr lo <= 1) by (apply (quantile_Ok lo d pv); eauto). assert (0 <= qr hi <= 1) by (apply (quantile_Ok hi d pv); eauto). apply (quantile_le (qr lo) (qr hi) xs); auto; lra. }
    destruct K as [[_ K]|[K _]]; [lra|exact K|]. exfalso. apply K. unfold Rdiv. rewrite Rmult_0_l. lra.
Qed.
Print Assumptions C60_jaccard_extremes.

(** Finding: a missing climatology or forecast never counts as distant (nor as confident). *)
Lemma sub_nan x y : x = NaN \/ y = NaN -> vsub x y = NaN.
Proof. intros [->| ->]; [reflexivity|destruct x; reflexivity]. Qed.
Theorem C60_missing_refuted : forall fmt d lo hi threshold p t clim v pv tv cv st st' e T el eh,
  NoDup (keys p) -> dget p v = Some pv -> dget t v = Some tv -> dget clim v = Some cv ->
  wf pv -> coords_local pv -> wf cv -> ~ In "quantile" (dnames pv) ->
  statistic_value (Confident fmt d clim lo hi threshold) p t v st ->
  statistic_value (JaccardDistant fmt d clim threshold lo hi) p t v st' -> 0 <= qr threshold ->
  forecast_time pv e T -> climatology_point cv (upd e "quantile" (LQ lo)) T el -> climatology_point cv (upd e "quantile" (LQ hi)) T eh ->
  ensemble_of true (along pv d e) [] \/ get cv el = NaN \/ get cv eh = NaN ->
  get st e = Fin 0 /\ get st' e = Fin 0.
Proof.
  intros fmt d lo hi threshold p t clim v pv tv cv st st' e T el eh N Hp Ht Hc W L Wc Nq Hs Hs' Hth HT H1 H2 HM.
  destruct (statistic_clim_r _ _ _ _ _ _ _ _ _ _ N Hp Ht Hc Hs) as (c & A & H). destruct (statistic_clim_r _ _ _ _ _ _ _ _ _ _ N Hp Ht Hc Hs') as (c' & A' & H'). assert (c' = c) as -> by congruence. clear A'.
  unfold confident_var in H. destruct (quantile hi d pv) as [ph|] eqn:E1; [|discriminate]. cbn [bind] in H. destruct (quantile lo d pv) as [pl|] eqn:E2; [|discriminate]. cbn [bind] in H.
  destruct (sel_quantile hi c) as [sh|] eqn:E3; [|discriminate]. cbn [bind] in H. destruct (sel_quantile lo c) as [sl|] eqn:E4; [|discriminate]. cbn [bind] in H. injection H as <-.
  unfold jaccard_var in H'. rewrite E1, E2 in H'. cbn [bind] in H'. rewrite E3, E4 in H'. cbn [bind] in H'. injection H' as <-. cbn [get binop da_map].
  rewrite (quantile_get _ _ _ _ e W E1), (quantile_get _ _ _ _ e W E2), (clim_quantile _ _ _ _ _ _ _ _ W L Wc Nq A E3 HT H2), (clim_quantile _ _ _ _ _ _ _ _ W L Wc Nq A E4 HT H1).
  set (a := list_quantile (qr hi) (along pv d e)). set (b := list_quantile (qr lo) (along pv d e)). set (x := get cv eh) in *. set (y := get cv el) in *.
  assert (vsub a b = NaN \/ vsub x y = NaN) as K.
  { destruct HM as [HM|[HM|HM]]; [left|right|right]; apply sub_nan; auto. left. apply list_quantile_none, HM. }
  assert (forall z, vmul z NaN = NaN) as MN by (intros []; reflexivity). assert (forall z, vadd z NaN = NaN) as AN by (intros []; reflexivity). assert (forall z, vltb z NaN = false) as LN by (intros []; reflexivity).
  split.
  - destruct K as [-> | ->]; [reflexivity|]. now rewrite MN, LN.
  - assert (vadd (vsub a b) (vsub x y) = NaN) as -> by (destruct K as [-> | ->]; [reflexivity|apply AN]). 
    change (b2v (Rltb (qr threshold) (1 + - (1))) = Fin 0). assert (Rltb (qr threshold) (1 + - (1)) = false) as -> by (apply Rltb_false; lra). reflexivity.
Qed.
Print Assumptions C60_missing_refuted.

(** ** Errors *)
(** The levels must be probabilities, the forecast must have the ensemble dimension (otherwise
    ValueError), and the climatology the two levels (otherwise KeyError). *)
Definition levels_ok (d : string) (lo hi : Qc) (pv : da) : Prop := 0 <= qr lo <= 1 /\ 0 <= qr hi <= 1 /\ In d (dnames pv).
Lemma two_quantiles d lo hi pv : levels_ok d lo hi pv -> (exists l, quantile lo d pv = Ok l) /\ (exists h, quantile hi d pv = Ok h).
Proof. intros (A & B & C). split; apply quantile_Ok; auto. Qed.
Lemma no_quantiles d lo hi pv : ~ levels_ok d lo hi pv -> quantile lo d pv = Err ValueError \/ quantile hi d pv = Err ValueError.
Proof.
  intros H. destruct (quantile lo d pv) as [l|x] eqn:E1; [|left; f_equal; now apply quantile_err in E1]. destruct (quantile hi d pv) as [h|x] eqn:E2; [|right; f_equal; now apply quantile_err in E2].
  exfalso. apply H. destruct (proj1 (quantile_Ok lo d pv) (ex_intro _ l E1)) as [A I]. destruct (proj1 (quantile_Ok hi d pv) (ex_intro _ h E2)) as [B _]. repeat split; tauto.
Qed.
Theorem C60_covered_errors : forall fmt d lo hi v pv tv,
  (levels_ok d lo hi pv -> exists raw, compute (Covered fmt d lo hi) [(v, pv)] [(v, tv)] = Ok raw) /\
  (~ levels_ok d lo hi pv -> compute (Covered fmt d lo hi) [(v, pv)] [(v, tv)] = Err ValueError).
Proof.
  intros fmt d lo hi v pv tv. cbn [compute Covered per_variable_statistic per_variable_compute dget fst]. destruct (eq_dec v v); [|contradiction]. unfold covered_var. split; intros H.
  - destruct (two_quantiles _ _ _ _ H) as [[l ->] [h ->]]. cbn [bind]. eauto.
  - destruct (quantile lo d pv) as [l|x] eqn:E1; [|apply quantile_err in E1; subst; reflexivity]. cbn [bind]. destruct (no_quantiles _ _ _ _ H) as [K|K]; [congruence|]. rewrite K. reflexivity.
Qed.
Print Assumptions C60_covered_errors.
Lemma aligned_labels p c a n : ~ In n (dnames p) -> ~ In n ["time"; "dayofyear"; "hour"] -> wf p -> coords_local p -> align_climatology p c = Ok a -> labels_of (dims a) n = labels_of (dims c) n.
Proof.
  intros Np Nt W L H. assert (exists r, valid_time_of p = Ok r) as [[ids f] E]. { unfold align_climatology in H. destruct (valid_time_of p); [eauto|discriminate]. }
  destruct (valid_time_dims _ _ _ W L E) as (A & B & _). rewrite (align_idx _ _ _ _ E) in H. apply Proofs_Loaders.sel_points_Ok in H. destruct H as [_ ->]. cbn [dims]. unfold labels_of. rewrite Proofs_Loaders.dget_app.
  destruct (dget ids n) as [ls|] eqn:G; [exfalso; apply Np, (dget_dnames p); apply B in G; eauto|].
  change (filter _ (dims c)) with (keep (fun k => negb (memb k (map fst (clim_idx c f))) && negb (memb k (map fst ids))) (dims c)). rewrite dget_keep.
  assert (memb n (map fst (clim_idx c f)) = false) as ->. { apply memb_false. intros K. apply Nt. unfold clim_idx in K. destruct (coord_of c "time"), (coord_of c "hour"); cbn in K |- *; tauto. }
  assert (memb n (map fst ids) = false) as ->; [|reflexivity]. apply memb_false. apply dget_None in G. exact G.
Qed.
(** [raw0]: the climatology can be aligned with the forecast (see C59). *)
Theorem C60_errors : forall fmt d lo hi threshold v pv tv clim cv s raw0,
  In s [Confident fmt d clim lo hi threshold; JaccardDistant fmt d clim threshold lo hi] ->
  wf pv -> coords_local pv -> ~ In "quantile" (dnames pv) -> dget clim v = Some cv ->
  compute (SquaredPredictionAnomaly clim) [(v, pv)] [(v, tv)] = Ok raw0 ->
  let found := In (LQ lo) (labels_of (dims cv) "quantile") /\ In (LQ hi) (labels_of (dims cv) "quantile") in
  (levels_ok d lo hi pv -> found -> exists raw, compute s [(v, pv)] [(v, tv)] = Ok raw) /\
  (levels_ok d lo hi pv -> ~ found -> compute s [(v, pv)] [(v, tv)] = Err KeyError) /\
  (~ levels_ok d lo hi pv -> compute s [(v, pv)] [(v, tv)] = Err ValueError).
Proof.
  intros fmt d lo hi threshold v pv tv clim cv s raw0 Hs W L Nq Hc Hr found.
  assert (exists c, align_climatology pv cv = Ok c) as [c A].
  { cbn [compute SquaredPredictionAnomaly climatology_statistic keys map fst mapM snd] in Hr. unfold dgetE in Hr. rewrite Hc in Hr. cbn [bind dget fst] in Hr. destruct (eq_dec v v); [|contradiction]. cbn [bind] in Hr.
    destruct (align_climatology pv cv); [eauto|discriminate]. }
  assert (found <-> In (LQ lo) (labels_of (dims c) "quantile") /\ In (LQ hi) (labels_of (dims c) "quantile")) as F.
  { unfold found. rewrite (aligned_labels _ _ _ "quantile" Nq ltac:(cbn; intuition discriminate) W L A). reflexivity. }
  assert (forall f name, compute (climatology_statistic_r name f clim) [(v, pv)] [(v, tv)] = (do r <- f pv tv c; Ok [(v, r)])) as CE.
  { intros f name. cbn [compute climatology_statistic_r keys map fst mapM snd]. unfold dgetE. rewrite Hc. cbn [bind dget fst]. destruct (eq_dec v v); [|contradiction]. cbn [bind]. rewrite A. cbn [bind]. destruct (f pv tv c); reflexivity. }
  assert (forall q, ~ In (LQ q) (labels_of (dims c) "quantile") -> sel_quantile q c = Err KeyError) as NS.
  { intros q K. destruct (sel_quantile q c) as [r|x] eqn:E; [exfalso; apply K, sel_quantile_Ok; eauto|f_equal; now apply sel_quantile_err in E]. }
  assert (forall q x, sel_quantile q c = Err x -> x = KeyError) as SE by (intros q x; apply sel_quantile_err).
  assert (forall q x, quantile q d pv = Err x -> x = ValueError) as QE by (intros q x; apply quantile_err).
  split; [|split].
  - intros HL HF. apply F in HF. destruct HF as [F1 F2]. apply sel_quantile_Ok in F1, F2. destruct F1 as [sl F1], F2 as [sh F2]. destruct (two_quantiles _ _ _ _ HL) as [[l E1] [h E2]].
    destruct Hs as [<-|[<-|[]]]; unfold Confident, JaccardDistant; rewrite CE; unfold confident_var, jaccard_var; rewrite E1, E2; cbn [bind]; rewrite F1, F2; cbn [bind]; eauto.
  - intros HL HF. destruct (two_quantiles _ _ _ _ HL) as [[l E1] [h E2]].
    assert (sel_quantile lo c = Err KeyError \/ sel_quantile hi c = Err KeyError) as K.
    { destruct (in_dec (fun a b => eq_dec a b) (LQ lo) (labels_of (dims c) "quantile")) as [I|I]; [|left; auto]. right. apply NS. intros I2. apply HF, F. auto. }
    destruct Hs as [<-|[<-|[]]]; unfold Confident, JaccardDistant; rewrite CE; unfold confident_var, jaccard_var; rewrite E1, E2; cbn [bind].
    + destruct (sel_quantile hi c) as [x|x] eqn:E3; [|apply SE in E3; subst; reflexivity]. cbn [bind]. destruct K as [K|K]; [|congruence]. now rewrite K.
    + destruct (sel_quantile lo c) as [x|x] eqn:E3; [|apply SE in E3; subst; reflexivity]. cbn [bind]. destruct K as [K|K]; [congruence|]. now rewrite K.
  - intros HL. apply no_quantiles in HL. destruct Hs as [<-|[<-|[]]]; unfold Confident, JaccardDistant; rewrite CE; unfold confident_var, jaccard_var.
    + destruct (quantile hi d pv) as [x|x] eqn:E; [|apply QE in E; subst; reflexivity]. cbn [bind]. destruct HL as [K|K]; [|congruence]. now rewrite K.
    + destruct (quantile lo d pv) as [x|x] eqn:E; [|apply QE in E; subst; reflexivity]. cbn [bind]. destruct HL as [K|K]; [congruence|]. now rewrite K.
Qed.
Print Assumptions C60_errors.

(** ** Examples: two members, levels 1/4 and 3/4 *)
Definition q1 : Qc := Q2Qc (1 # 4).
Definition q3 : Qc := Q2Qc (3 # 4).
Lemma qr_q1 : qr q1 = 1 / 4. Proof. unfold qr, q1. cbn. unfold Q2R. cbn. lra. Qed.
Lemma qr_q3 : qr q3 = 3 / 4. Proof. unfold qr, q3. cbn. unfold Q2R. cbn. lra. Qed.
Definition ex_fmt (q : Qc) : string := "x".
Definition ex_pi (x y : R) : da := mkDa [("valid_time", [LZ 0]); ("number", [LZ 0; LZ 1])] (fun e => Fin (if eqb (e "number") (LZ 0) then x else y)) [].
Definition ex_ci (a b : R) : da := mkDa [("time", [LZ 0]); ("quantile", [LQ q1; LQ q3])] (fun e => Fin (if eqb (e "quantile") (LQ q1) then a else b)) [].
Definition ex_obs (y : R) : da := mkDa [("valid_time", [LZ 0])] (fun _ => Fin y) [].
Lemma pair_quantile q x y : x <= y -> 0 <= q <= 1 -> quantile_of q [x; y] (x + q * (y - x)).
Proof.
  intros H Hq. exists [x; y], 0%nat. split; [reflexivity|]. split; [constructor; [repeat constructor|constructor; [exact H|constructor]]|]. split; [cbn; lia|]. cbv zeta. right. replace (INR (length [x; y])) with 2 by (cbn; lra). cbn [length nth INR]. split; [lia|]. split; [lra|]. ring.
Qed.
Lemma ex_quantiles_at x y a b z : x <= y -> quantiles_at "number" q1 q3 [("t", ex_pi x y)] [("t", ex_obs z)] [("t", ex_ci a b)] "t" (ex_pi x y) (ex_obs z) (ex_ci a b) env0 [x; y]
  (x + 1 / 4 * (y - x)) (x + 3 / 4 * (y - x)) a b.
Proof.
  intros H. constructor; try reflexivity.
  - repeat constructor; intros [].
  - split; [repeat constructor; cbn; intuition discriminate|]. split; [intros d ls [[= <- <-]|[[= <- <-]|[]]]; repeat constructor; cbn; intuition discriminate|].
    intros e e' K. cbn [get ex_pi]. rewrite (K "number") by (right; now left). reflexivity.
  - intros k c K. discriminate.
  - split; [repeat constructor; cbn; intuition discriminate|]. split; [intros d ls [[= <- <-]|[[= <- <-]|[]]]; repeat constructor; cbn; intuition discriminate|].
    intros e e' K. cbn [get ex_ci]. rewrite (K "quantile") by (right; now left). reflexivity.
  - cbn. intuition discriminate.
  - rewrite qr_q1. apply pair_quantile; auto; lra.
  - rewrite qr_q3. apply pair_quantile; auto; lra.
  - exists 0%Z, (upd (upd env0 "quantile" (LQ q1)) "time" (LZ 0)), (upd (upd env0 "quantile" (LQ q3)) "time" (LZ 0)). split; [left; left; split; [now left|reflexivity]|].
    assert (forall q, climatology_point (ex_ci a b) (upd env0 "quantile" (LQ q)) 0 (upd (upd env0 "quantile" (LQ q)) "time" (LZ 0))) as C.
    { intros q. apply cp_time; [left; now left|apply upd_same|]. intros d Hd. apply upd_other. intros ->. apply Hd. now left. }
    split; [apply C|]. split; [apply C|]. split; reflexivity.
Qed.
Lemma ex_levels x y : levels_ok "number" q1 q3 (ex_pi x y).
Proof. split; [rewrite qr_q1; lra|]. split; [rewrite qr_q3; lra|]. right. now left. Qed.
Lemma single_r name f clim v pv t raw : compute (climatology_statistic_r name f clim) [(v, pv)] t = Ok raw -> exists st, raw = [(v, st)].
Proof.
  cbn [compute climatology_statistic_r keys map fst mapM snd]. intros H. destruct (dgetE clim v); [|discriminate]. cbn [bind] in H. destruct (dgetE t v); [|discriminate]. cbn [bind] in H.
  destruct (align_climatology pv _) as [c|]; [|discriminate]. cbn [bind] in H. destruct (f pv _ c) as [r|]; [|discriminate]. cbn [bind] in H. injection H as <-. eauto.
Qed.
Lemma ex_computed x y a b z threshold s : In s [Confident ex_fmt "number" [("t", ex_ci a b)] q1 q3 threshold; JaccardDistant ex_fmt "number" [("t", ex_ci a b)] threshold q1 q3] -> x <= y ->
  exists st, statistic_value s [("t", ex_pi x y)] [("t", ex_obs z)] "t" st.
Proof.
  intros Hs H. destruct (ex_quantiles_at x y a b z H) as [N Hp Ht Hc W L Wc Nq Hx Hl Hh _].
  assert (exists raw0, compute (SquaredPredictionAnomaly [("t", ex_ci a b)]) [("t", ex_pi x y)] [("t", ex_obs z)] = Ok raw0) as [raw0 H0] by (eexists; reflexivity).
  destruct (C60_errors ex_fmt "number" q1 q3 threshold "t" (ex_pi x y) (ex_obs z) [("t", ex_ci a b)] (ex_ci a b) s raw0 Hs W L Nq Hc H0) as (K & _).
  destruct K as [raw Hraw]; [apply ex_levels|split; [now left|right; now left]|].
  assert (exists st, raw = [("t", st)]) as [st ->].
  { destruct Hs as [<-|[<-|[]]]; apply single_r in Hraw; exact Hraw. }
  exists st. exists [("t", st)]. split; auto.
Qed.
Example C60_example : exists st1 st2 st3,
  statistic_value (Covered ex_fmt "number" q1 q3) [("t", ex_pi 0 4)] [("t", ex_obs 2)] "t" st1 /\
  statistic_value (Confident ex_fmt "number" [("t", ex_ci 0 10)] q1 q3 (Q2Qc (1 # 2))) [("t", ex_pi 0 4)] [("t", ex_obs 2)] "t" st2 /\
  statistic_value (JaccardDistant ex_fmt "number" [("t", ex_ci 0 10)] (Q2Qc (3 # 4)) q1 q3) [("t", ex_pi 0 4)] [("t", ex_obs 2)] "t" st3 /\
  get st1 env0 = Fin 1 /\ get st2 env0 = Fin 1 /\ get st3 env0 = Fin 1.
Proof.
  assert (0 <= 4) as H04 by lra. pose proof (ex_quantiles_at 0 4 0 10 2 H04) as Q.
  destruct (ex_computed 0 4 0 10 2 (Q2Qc (1 # 2)) _ (or_introl eq_refl) H04) as [st2 S2].
  destruct (ex_computed 0 4 0 10 2 (Q2Qc (3 # 4)) _ (or_intror (or_introl eq_refl)) H04) as [st3 S3].
  assert (exists st1, statistic_value (Covered ex_fmt "number" q1 q3) [("t", ex_pi 0 4)] [("t", ex_obs 2)] "t" st1) as [st1 S1].
  { destruct (two_quantiles _ _ _ _ (ex_levels 0 4)) as [[l E1] [h E2]]. eexists. apply single_value. unfold covered_var. rewrite E1, E2. cbn [bind]. reflexivity. }
  exists st1, st2, st3. split; [exact S1|]. split; [exact S2|]. split; [exact S3|].
  assert (qr (Q2Qc (1 # 2)) = 1 / 2) as H12 by (unfold qr; cbn; unfold Q2R; cbn; lra). assert (qr (Q2Qc (3 # 4)) = 3 / 4) as H34 by apply qr_q3.
  split; [|split].
  - destruct Q as [N Hp Ht Hc W L Wc Nq Hx Hl Hh _]. destruct (C60_covered _ _ _ _ _ _ _ _ _ _ _ _ 2 _ _ N Hp Ht W S1 Hx eq_refl Hl Hh) as [[_ K]|[K _]]; auto. exfalso. apply K. lra.
  - destruct (C60_confident _ _ _ _ _ _ _ _ _ _ _ _ _ _ _ _ _ _ _ Q S2) as [[_ K]|[K _]]; auto. exfalso. apply K. rewrite H12. lra.
  - assert (common_length (0 + 1 / 4 * (4 - 0)) (0 + 3 / 4 * (4 - 0)) 0 10 2) as CC by (left; exists 1, 3; split; [lra|split; [lra|intros z; lra]]).
    destruct (C60_jaccard _ _ _ _ _ _ _ _ _ _ _ _ _ _ _ _ _ _ _ 2 Q S3) as (_ & K & _); [rewrite qr_q1, qr_q3; lra|lra|exact CC|]. destruct K as [[_ K]|[K _]]; [lra|exact K|]. exfalso. apply K. rewrite H34. lra.
Qed.
(** Finding: two different single points have an empty intersection and count as identical:
    the forecast is certain of 1, the climatology of 5, and it is not "distant". *)
Theorem C60_points_refuted : exists st,
  statistic_value (JaccardDistant ex_fmt "number" [("t", ex_ci 5 5)] (Q2Qc (3 # 4)) q1 q3) [("t", ex_pi 1 1)] [("t", ex_obs 1)] "t" st /\
  get st env0 = Fin 0 /\ forall z, ~ (1 <= z <= 1 /\ 5 <= z <= 5).
Proof.
  assert (1 <= 1) as H11 by lra. pose proof (ex_quantiles_at 1 1 5 5 1 H11) as Q. destruct (ex_computed 1 1 5 5 1 (Q2Qc (3 # 4)) _ (or_intror (or_introl eq_refl)) H11) as [st S].
  exists st. split; [exact S|]. split; [|intros z; lra]. assert (qr (Q2Qc (3 # 4)) = 3 / 4) as H34 by apply qr_q3.
  destruct (C60_jaccard _ _ _ _ _ _ _ _ _ _ _ _ _ _ _ _ _ _ _ 0 Q S) as (_ & _ & K); [rewrite qr_q1, qr_q3; lra|lra|right; split; [reflexivity|intros z; lra]|].
  destruct K as (_ & _ & [[K _]|[_ K]]); [lra|rewrite H34 in K; lra|exact K].
Qed.
Print Assumptions C60_points_refuted.
