(** C31: the relative economic value. *)
From Coq Require Import String ZArith QArith Qcanon Qreals List Bool Reals Lra Permutation Lia.
Import ListNotations.
From Verif Require Import Prelude Values Model_XArray Spec_XArray Proofs_XArray Model_Tree Spec_Tree Model_MetricsBase Model_Aggregation
  Spec_Aggregator Proofs_Aggregator Proofs_Aggregator2 Spec_Metrics Proofs_Metrics Spec_Means Proofs_Means Model_Calendar Model_Deterministic Proofs_Deterministic Props_Deterministic
  Model_Categorical Proofs_Categorical Model_Wrappers Spec_Wrappers Proofs_Wrappers Proofs_Transforms Props_Wrappers Proofs_Loaders Spec_Beam Proofs_Beam Model_Latency Proofs_Latency Proofs_Det2 Proofs_Binning4 Model_REV Spec_REV Proofs_REV Proofs_REV2 Proofs_REV3.
Local Open Scope R_scope.
Local Open Scope string_scope.
Local Open Scope list_scope.

Lemma reduced_points_dims a b l R e P : dims a = dims b -> reduced_points (a :: l) R e P -> reduced_points (b :: l) R e P.
Proof.
  intros D [N1 N2]. split; [exact N1|]. assert (dnames a = dnames b) as DN by (unfold dnames; rewrite D; reflexivity). intros q. rewrite N2. clear N2. split; intros [K1 K2]; split.
  - intros d Nd. apply K1. intros [I (w & [<-|J] & L)]; apply Nd; (split; [exact I|]); [exists b; split; [left; reflexivity|rewrite <- DN; exact L]|exists w; split; [right; exact J|exact L]].
  - intros w d [<-|J] I L; [rewrite <- D; apply K2; [left; reflexivity|exact I|rewrite DN; exact L]|apply K2; [right; exact J|exact I|exact L]].
  - intros d Nd. apply K1. intros [I (w & [<-|J] & L)]; apply Nd; (split; [exact I|]); [exists a; split; [left; reflexivity|rewrite DN; exact L]|exists w; split; [right; exact J|exact L]].
  - intros w d [<-|J] I L; [rewrite D; apply K2; [left; reflexivity|exact I|rewrite <- DN; exact L]|apply K2; [right; exact J|exact I|exact L]].
Qed.

Lemma decisions_sample ts pv tv y f : NoDup (map LQ ts) -> good pv -> good tv -> wf y -> aux y = aux pv -> ~ In "threshold" (dnames pv) -> decisions ts pv y ->
  same_sample (contingency f y tv) (contingency f (binarized ts pv) tv).
Proof.
  intros Nt Gp Gt Wy Ay Np [Dy Vy]. pose proof (binarized_good ts pv Nt Gp) as Gb. destruct (binarized_decisions ts pv (proj1 Gp) Np) as [Db Vb].
  assert (good y) as Gy by (split; [exact Wy|rewrite Ay; apply Gp]). pose proof (binarized_aux ts pv (proj2 Gp)) as Ab.
  destruct (contingency_shape f y tv Gy Gt) as (D1 & A1 & G1). destruct (contingency_shape f (binarized ts pv) tv Gb Gt) as (D2 & A2 & G2).
  assert (dims (contingency f (binarized ts pv) tv) = dims (contingency f y tv)) as ED by (rewrite D1, D2; cbn [binop dims]; rewrite Dy, Db; reflexivity).
  split; [exact ED|]. split; [rewrite A1, A2; cbn [binop aux]; rewrite Dy, Db, Ay, Ab; reflexivity|]. split; [apply G2|].
  intros e He. rewrite !contingency_get. assert (get (binarized ts pv) e = get y e) as ->; [|destruct (isnan (vmul _ _)); reflexivity].
  assert (In (e "threshold") (map LQ ts)) as I.
  { rewrite D1 in He. cbn [binop dims] in He. assert (In "threshold" (map fst (merge_dims inter_labels (dims y) (dims tv)))) as IN by (apply names_merge; left; rewrite Dy, map_app; apply in_app_iff; right; left; reflexivity).
    rewrite point_of_labels in He by (apply NoDup_merge; [apply Wy|apply Gt]). specialize (He _ IN). unfold labels_of in He. rewrite dget_merge, Dy, Proofs_Loaders.dget_app in He.
    assert (dget (dims pv) "threshold" = None) as E by (apply dget_None; exact Np). rewrite E in He. cbn [dget] in He. destruct (eq_dec "threshold" "threshold"); [|contradiction].
    destruct (dget (dims tv) "threshold"); [apply In_inter in He; apply He|exact He]. }
  apply in_map_iff in I. destruct I as (q & Eq & I). rewrite (Vb e q (eq_sym Eq) I), (Vy e q (eq_sym Eq) I). reflexivity.
Qed.

Lemma case_shape g a ts p t v pv tv y s ws wrs ms bs : rev_case g a ts p t v pv tv y s ws wrs ms bs ->
  good pv /\ good tv /\ NoDup (map LQ ts) /\ ~ In "threshold" (dnames pv) /\
  same_sample (contingency andb y tv) (contingency andb (binarized ts pv) tv) /\
  weighted_input g (contingency andb (binarized ts pv) tv) (fun q => if vtruthy (get (binarized ts pv) q) && vtruthy (get tv q) then 1 else 0) ws wrs ms bs /\
  mask_local (contingency andb (binarized ts pv) tv).
Proof.
  intros C. destruct (rc_wf _ _ _ _ _ _ _ _ _ _ _ _ _ _ C) as (W1 & W2 & W3). destruct (rc_coords _ _ _ _ _ _ _ _ _ _ _ _ _ _ C) as (A1 & A2 & A3).
  assert (good pv) as Gp by (split; auto). assert (good tv) as Gt by (split; auto).
  assert (NoDup (map LQ ts)) as Nt by (pose proof (rc_distinct _ _ _ _ _ _ _ _ _ _ _ _ _ _ C) as N; inversion N as [|? ? _ H]; subst; apply NoDup_remove_1 in H; rewrite app_nil_r in H; exact H).
  assert (~ In "threshold" (dnames pv)) as Np by (apply (rc_new _ _ _ _ _ _ _ _ _ _ _ _ _ _ C); left; reflexivity).
  pose proof (decisions_sample ts pv tv y andb Nt Gp Gt W3 A3 Np (rc_decisions _ _ _ _ _ _ _ _ _ _ _ _ _ _ C)) as SS.
  split; [exact Gp|]. split; [exact Gt|]. split; [exact Nt|]. split; [exact Np|]. split; [exact SS|]. split.
  - eapply same_weighted; [apply (rc_input _ _ _ _ _ _ _ _ _ _ _ _ _ _ C)|exact SS|]. intros q Hq Hc. pose proof (wi_finite _ _ _ _ _ _ _ (rc_input _ _ _ _ _ _ _ _ _ _ _ _ _ _ C) q Hq Hc) as Hf.
    destruct SS as (_ & _ & _ & SN). specialize (SN q Hq). rewrite Hf in SN. rewrite contingency_get in *. destruct (isnan (vmul (get (binarized ts pv) q) (get tv q))); [discriminate|]. reflexivity.
  - destruct SS as (D & A & _). pose proof (rc_mask _ _ _ _ _ _ _ _ _ _ _ _ _ _ C) as ML. unfold mask_local, dnames in *. rewrite D, A. exact ML.
Qed.

(** The value: for every ratio and threshold (0 and 1 included) the economic value of the
    decisions, with the weighted shares of hits, false alarms and misses; NaN if no weight. *)
Theorem C31_value : forall g a m ts p t v pv tv y s ws wrs ms bs arr,
  rev_case g a ts p t v pv tv y s ws wrs ms bs -> RelativeEconomicValue a = Ok m -> ra_optimal a = None -> metric_value g p t m v arr ->
  wf arr /\ dget (dims arr) "cost_loss_ratio" = Some (map fst (ra_ratios a)) /\ dget (dims arr) "threshold" = Some (LQ 0 :: map LQ ts ++ [LQ 1]) /\
  ts <> [] /\
  forall e, point_of (dims arr) e -> exists P r,
    dget (ra_ratios a) (e "cost_loss_ratio") = Some r /\
    reduced_points (contingency andb y tv :: ws ++ ms) (reduce_dims g) (sample_point ts e) P /\
    (forall q, In q P -> point_of (dims (contingency andb y tv)) q) /\
    let u := point_weight g (contingency andb y tv) wrs bs in
    let share f := wavg P u (outcome pv tv (e "threshold") f) in
    (rsum (map u P) = 0 -> get arr e = NaN) /\
    (rsum (map u P) <> 0 -> economic_value r (share hit) (share false_alarm) (share miss) (get arr e)).
Proof.
  intros g a m ts p t v pv tv y s ws wrs ms bs arr C Hm Ho H.
  destruct (case_shape _ _ _ _ _ _ _ _ _ _ _ _ _ _ C) as (Gp & Gt & Nt & Np & SS & W & ML).
  destruct (rev_parts g a m ts p t v pv tv arr Hm (rc_thresholds _ _ _ _ _ _ _ _ _ _ _ _ _ _ C) (rc_predictions _ _ _ _ _ _ _ _ _ _ _ _ _ _ C) (rc_targets _ _ _ _ _ _ _ _ _ _ _ _ _ _ C) (rc_vars _ _ _ _ _ _ _ _ _ _ _ _ _ _ C) H) as (T & N & F & M & HV & HT & HF & HM).
  pose proof (rc_new _ _ _ _ _ _ _ _ _ _ _ _ _ _ C) as NEW.
  assert (forall st q, 0 <= point_weight g st wrs bs q) as Hu.
  { intros st q. unfold point_weight. destruct (_ && _); [|lra]. pose proof (rc_weights _ _ _ _ _ _ _ _ _ _ _ _ _ _ C) as RW. clear -RW. induction wrs as [|r l IH]; [cbn; lra|]. cbn [map]. change (rprod (r q :: map (fun r => r q) l)) with (r q * rprod (map (fun r => r q) l)).
    apply Rmult_le_pos; [apply RW; left; reflexivity|apply IH; intros r' I; apply RW; right; exact I]. }
  destruct (rev_main g a ts v pv tv arr T N F M _ ws wrs ms bs Gp Gt Np (rc_distinct _ _ _ _ _ _ _ _ _ _ _ _ _ _ C) W ML (Hu _) HT HF HM) as (R1 & R2 & R3 & R4 & _ & _ & R5); auto.
  - apply NEW. right. left. reflexivity.
  - intros w I. apply NEW. right. right. exact I.
  - apply (rc_ratios _ _ _ _ _ _ _ _ _ _ _ _ _ _ C).
  - intros w I. apply NEW, I.
  - split; [exact R1|]. split; [exact R2|]. split; [exact R3|]. split; [exact R4|]. intros e He. destruct (R5 e He) as (P & r & Hr & HP & HQ & Z & V). exists P, r. split; [exact Hr|].
    destruct SS as (SD & SA & SW & SN). split.
    { eapply reduced_points_dims; [exact SD|exact HP]. }
    split; [intros q I; rewrite <- SD; apply HQ, I|]. cbv zeta. assert (forall q, In q P -> point_weight g (contingency andb (binarized ts pv) tv) wrs bs q = point_weight g (contingency andb y tv) wrs bs q) as PW.
    { intros q I. apply point_weight_same; [exact SA|]. apply SN. rewrite <- SD. apply HQ, I. }
    rewrite <- (rsum_map_ext _ _ _ PW). split; [exact Z|]. intros Nz. specialize (V Nz).
    rewrite <- !(wavg_ext P (point_weight g (contingency andb (binarized ts pv) tv) wrs bs) (point_weight g (contingency andb y tv) wrs bs)) with (s := outcome pv tv (e "threshold") _) by (auto; reflexivity).
    exact V.
Qed.
Print Assumptions C31_value.

Lemma case_weights g a ts p t v pv tv y s ws wrs ms bs st q : rev_case g a ts p t v pv tv y s ws wrs ms bs -> 0 <= point_weight g st wrs bs q.
Proof.
  intros C. unfold point_weight. destruct (_ && _); [|lra]. pose proof (rc_weights _ _ _ _ _ _ _ _ _ _ _ _ _ _ C) as RW. clear -RW. induction wrs as [|r l IH]; [cbn; lra|]. cbn [map]. change (rprod (r q :: map (fun r => r q) l)) with (r q * rprod (map (fun r => r q) l)).
  apply Rmult_le_pos; [apply RW; left; reflexivity|apply IH; intros r' I; apply RW; right; exact I].
Qed.
Lemma shares pv tv l P u : (forall q, 0 <= u q) -> rsum (map u P) <> 0 ->
  let share f := wavg P u (outcome pv tv l f) in
  0 <= share hit /\ 0 <= share false_alarm /\ 0 <= share miss /\ share hit + share miss = wavg P u (event tv) /\ 0 <= wavg P u (event tv) <= 1.
Proof.
  intros Hu Nz share. assert (forall f, 0 <= share f) as Hp by (intros f; apply wavg_nonneg; auto; intros q _ _; unfold outcome; destruct (f _ _); lra).
  do 3 (split; [apply Hp|]). split.
  - unfold share. rewrite <- wavg_add by auto. apply wavg_ext; auto. intros q _ _. unfold outcome, event, hit, miss. destruct (acts l (get pv q)), (vtruthy (get tv q)); cbn; lra.
  - apply wavg_bounds; auto. intros q _ _. unfold event. destruct (vtruthy _); lra.
Qed.
Lemma possible_pos r b : 0 <= r <= 1 -> 0 <= b <= 1 -> 0 <= Rmin r b - r * b /\ (Rmin r b - r * b = 0 <-> ~ (0 < r < 1 /\ 0 < b < 1)).
Proof.
  intros Hr Hb. unfold Rmin. destruct (Rle_dec r b) as [L|L].
  - assert (r - r * b = r * (1 - b)) as -> by ring. split; [apply Rmult_le_pos; lra|]. split.
    + intros E [K1 K2]. apply Rmult_integral in E. lra.
    + intros K. destruct (Req_dec r 0) as [->|]; [ring|]. destruct (Req_dec b 1) as [->|]; [ring|]. exfalso. apply K. lra.
  - assert (b - r * b = b * (1 - r)) as -> by ring. split; [apply Rmult_le_pos; lra|]. split.
    + intros E [K1 K2]. apply Rmult_integral in E. lra.
    + intros K. destruct (Req_dec b 0) as [->|]; [ring|]. destruct (Req_dec r 1) as [->|]; [ring|]. exfalso. apply K. lra.
Qed.
Lemma saved_le r tp fp fn : 0 <= r <= 1 -> 0 <= fp -> 0 <= fn -> expense_climate r (tp + fn) - expense r tp fp fn <= expense_climate r (tp + fn) - expense_perfect r (tp + fn).
Proof. intros Hr Hf Hn. unfold expense_climate, expense, expense_perfect. assert (0 <= r * fp) by (apply Rmult_le_pos; lra). assert (r * fn <= fn) by (assert (0 <= (1 - r) * fn) by (apply Rmult_le_pos; lra); lra). lra. Qed.

(** For cost/loss ratios in [0, 1] the value is at most 1; it is never plus infinity. *)
Theorem C31_at_most_one : forall g a m ts p t v pv tv y s ws wrs ms bs arr e r,
  rev_case g a ts p t v pv tv y s ws wrs ms bs -> RelativeEconomicValue a = Ok m -> ra_optimal a = None -> metric_value g p t m v arr ->
  point_of (dims arr) e -> dget (ra_ratios a) (e "cost_loss_ratio") = Some r -> 0 <= r <= 1 ->
  get arr e = NaN \/ get arr e = NInf \/ exists x, get arr e = Fin x /\ x <= 1.
Proof.
  intros g a m ts p t v pv tv y s ws wrs ms bs arr e r C Hm Ho H He Er Hr. destruct (C31_value _ _ _ _ _ _ _ _ _ _ _ _ _ _ _ _ C Hm Ho H) as (_ & _ & _ & _ & K).
  destruct (K e He) as (P & r' & Er' & HP & _ & Z & V). rewrite Er in Er'. injection Er' as <-. cbv zeta in Z, V. set (u := point_weight g (contingency andb y tv) wrs bs) in *.
  destruct (Req_dec (rsum (map u P)) 0) as [E|E]; [left; exact (Z E)|]. specialize (V E). assert (forall q, 0 <= u q) as Hu by (intros q; apply (case_weights _ _ _ _ _ _ _ _ _ _ _ _ _ _ _ q C)).
  destruct (shares pv tv (e "threshold") P u Hu E) as (S1 & S2 & S3 & S4 & S5). cbv zeta in *.
  set (tp := wavg P u (outcome pv tv (e "threshold") hit)) in *. set (fp := wavg P u (outcome pv tv (e "threshold") false_alarm)) in *. set (fn := wavg P u (outcome pv tv (e "threshold") miss)) in *.
  destruct V as [V1 V2]. cbv zeta in V1, V2. pose proof (saved_le r tp fp fn Hr S2 S3) as SL. rewrite <- S4 in S5. destruct (possible_pos r (tp + fn) Hr S5) as [Pp _].
  change (0 <= expense_climate r (tp + fn) - expense_perfect r (tp + fn)) in Pp.
  destruct (Req_dec (expense_climate r (tp + fn) - expense_perfect r (tp + fn)) 0) as [E0|E0].
  - rewrite (V2 E0). destruct (Rlt_dec 0 _); [lra|]. destruct (Rlt_dec _ 0); auto.
  - right. right. eexists. split; [apply V1, E0|]. apply (Rmult_le_reg_r (expense_climate r (tp + fn) - expense_perfect r (tp + fn))); [lra|]. unfold Rdiv. rewrite Rmult_assoc, Rinv_l by exact E0. lra.
Qed.
Print Assumptions C31_at_most_one.

(** It is a number exactly if the ratio and the frequency of the event lie strictly between 0
    and 1: otherwise no saving is possible and the value is NaN or minus infinity. *)
Theorem C31_finite : forall g a m ts p t v pv tv y s ws wrs ms bs arr e r,
  rev_case g a ts p t v pv tv y s ws wrs ms bs -> RelativeEconomicValue a = Ok m -> ra_optimal a = None -> metric_value g p t m v arr ->
  point_of (dims arr) e -> dget (ra_ratios a) (e "cost_loss_ratio") = Some r -> 0 <= r <= 1 ->
  exists P, reduced_points (contingency andb y tv :: ws ++ ms) (reduce_dims g) (sample_point ts e) P /\
    let u := point_weight g (contingency andb y tv) wrs bs in
    (rsum (map u P) <> 0 -> ((exists x, get arr e = Fin x) <-> 0 < r < 1 /\ 0 < wavg P u (event tv) < 1)).
Proof.
  intros g a m ts p t v pv tv y s ws wrs ms bs arr e r C Hm Ho H He Er Hr. destruct (C31_value _ _ _ _ _ _ _ _ _ _ _ _ _ _ _ _ C Hm Ho H) as (_ & _ & _ & _ & K).
  destruct (K e He) as (P & r' & Er' & HP & _ & Z & V). rewrite Er in Er'. injection Er' as <-. cbv zeta in Z, V. set (u := point_weight g (contingency andb y tv) wrs bs) in *.
  exists P. split; [exact HP|]. intros u' E. change u' with u. change u' with u in E. clear u'. specialize (V E). assert (forall q, 0 <= u q) as Hu by (intros q; apply (case_weights _ _ _ _ _ _ _ _ _ _ _ _ _ _ _ q C)).
  destruct (shares pv tv (e "threshold") P u Hu E) as (S1 & S2 & S3 & S4 & S5). cbv zeta in *. rewrite <- S4 in *.
  destruct (possible_pos r _ Hr S5) as [Pp Pe]. destruct V as [V1 V2]. cbv zeta in V1, V2. unfold expense_climate, expense_perfect in V1, V2. split.
  - intros [x Hx]. set (b := wavg P u (outcome pv tv (e "threshold") hit) + wavg P u (outcome pv tv (e "threshold") miss)) in *.
    assert (~ ~ (0 < r < 1 /\ 0 < b < 1)) as NN.
    { intros Nx. apply Pe in Nx. rewrite (V2 Nx) in Hx. destruct (Rlt_dec _ _); [discriminate|]. destruct (Rlt_dec _ _); discriminate. }
    clear -NN. destruct (Rlt_dec 0 r), (Rlt_dec r 1), (Rlt_dec 0 b), (Rlt_dec b 1); try (exfalso; apply NN; intros ?; lra). auto.
  - intros Hb. eexists. apply V1. intros E0. apply Pe in E0. exact (E0 Hb).
Qed.
Print Assumptions C31_finite.

Lemma constant_samples ts e : ts <> [] -> NoDup (LQ 0 :: map LQ ts ++ [LQ 1]) -> sample_point ts (upd e "threshold" (LQ 1)) = sample_point ts (upd e "threshold" (LQ 0)).
Proof.
  intros NE NL. inversion NL as [|? ? Q1 Q2]; subst. unfold sample_point. rewrite !upd_same.
  destruct (memb (LQ 1) (map LQ ts)) eqn:M1; [exfalso; apply memb_In in M1; apply NoDup_remove_2 in Q2; apply Q2; rewrite app_nil_r; exact M1|].
  destruct (memb (LQ 0) (map LQ ts)) eqn:M0; [exfalso; apply memb_In in M0; apply Q1; apply in_app_iff; left; exact M0|].
  destruct ts; [contradiction|]. rewrite !upd_upd. reflexivity.
Qed.

(** The constant decisions are among the thresholds: of "always" (threshold 0) and "never"
    (threshold 1) the better has exactly the value 0 and the other at most 0; so the best
    threshold has a value of at least 0. *)
Theorem C31_constant : forall g a m ts p t v pv tv y s ws wrs ms bs arr e r x0 x1,
  rev_case g a ts p t v pv tv y s ws wrs ms bs -> RelativeEconomicValue a = Ok m -> ra_optimal a = None -> metric_value g p t m v arr ->
  point_of (dims arr) e -> dget (ra_ratios a) (e "cost_loss_ratio") = Some r -> 0 <= r <= 1 ->
  get arr (upd e "threshold" (LQ 0)) = Fin x0 -> get arr (upd e "threshold" (LQ 1)) = Fin x1 ->
  point_of (dims arr) (upd e "threshold" (LQ 0)) /\ point_of (dims arr) (upd e "threshold" (LQ 1)) /\
  x0 <= 0 /\ x1 <= 0 /\ (x0 = 0 \/ x1 = 0).
Proof.
  intros g a m ts p t v pv tv y s ws wrs ms bs arr e r x0 x1 C Hm Ho H He Er Hr G0 G1. destruct (C31_value _ _ _ _ _ _ _ _ _ _ _ _ _ _ _ _ C Hm Ho H) as (WA & _ & DT & NE & K).
  pose proof (rc_distinct _ _ _ _ _ _ _ _ _ _ _ _ _ _ C) as NL.
  assert (forall l, In l (LQ 0 :: map LQ ts ++ [LQ 1]) -> point_of (dims arr) (upd e "threshold" l)) as HU.
  { intros l I d ls J. destruct (string_dec d "threshold") as [->|Nd]; [rewrite upd_same; apply In_dget in J; [|apply WA]; rewrite DT in J; injection J as <-; exact I|]. rewrite upd_other by auto. apply (He d ls J). }
  assert (point_of (dims arr) (upd e "threshold" (LQ 0))) as H0 by (apply HU; left; reflexivity). assert (point_of (dims arr) (upd e "threshold" (LQ 1))) as H1 by (apply HU; right; apply in_app_iff; right; left; reflexivity).
  split; [exact H0|]. split; [exact H1|].
  destruct (K _ H0) as (P & r' & Er' & HP & _ & Z & V). destruct (K _ H1) as (P1 & r1 & Er1 & HP1 & _ & Z1 & V1). rewrite upd_other in Er', Er1 by discriminate. rewrite Er in Er', Er1. injection Er' as <-. injection Er1 as <-. rewrite constant_samples in HP1 by auto.
  cbv zeta in Z, V, Z1, V1. set (u := point_weight g (contingency andb y tv) wrs bs) in *. rewrite G0 in *. rewrite G1 in *. rewrite !upd_same in *.
  assert (Permutation P P1) as PP by (eapply reduced_perm; [| |exact HP|exact HP1]; intros; reflexivity).
  assert (rsum (map u P) <> 0) as E by (intros E; discriminate (Z E)). assert (rsum (map u P1) <> 0) as E1 by (intros E1; discriminate (Z1 E1)). specialize (V E). specialize (V1 E1).
  assert (forall q, 0 <= u q) as Hu by (intros q; apply (case_weights _ _ _ _ _ _ _ _ _ _ _ _ _ _ _ q C)).
  rewrite <- !(wavg_perm _ _ _ _ PP) in V1. set (b := wavg P u (event tv)).
  assert (wavg P u (outcome pv tv (LQ 0) hit) = b) as A1 by (apply wavg_ext; auto).
  assert (wavg P u (outcome pv tv (LQ 0) false_alarm) = 1 - b) as A2 by (rewrite <- (wavg_const P u Hu E 1); unfold b; rewrite <- wavg_sub by auto; apply wavg_ext; auto; intros q _ _; unfold outcome, event; cbn; destruct (vtruthy _); cbn; lra).
  assert (wavg P u (outcome pv tv (LQ 0) miss) = 0) as A3 by (rewrite <- (wavg_const P u Hu E 0); apply wavg_ext; auto).
  assert (wavg P u (outcome pv tv (LQ 1) hit) = 0) as B1 by (rewrite <- (wavg_const P u Hu E 0); apply wavg_ext; auto).
  assert (wavg P u (outcome pv tv (LQ 1) false_alarm) = 0) as B2 by (rewrite <- (wavg_const P u Hu E 0); apply wavg_ext; auto).
  assert (wavg P u (outcome pv tv (LQ 1) miss) = b) as B3 by (apply wavg_ext; auto).
  assert (0 <= b <= 1) as Hb by (apply (shares pv tv (LQ 0) P u Hu E)).
  rewrite A1, A2, A3 in V. rewrite B1, B2, B3 in V1. destruct V as [V V0]. destruct V1 as [V1 V10]. cbv zeta in *. unfold expense_climate, expense_perfect, expense in *. rewrite Rplus_0_r in *. rewrite Rplus_0_l in *.
  destruct (possible_pos r b Hr Hb) as [Pp _]. destruct (Req_dec (Rmin r b - r * b) 0) as [E0|E0].
  { rewrite (V0 E0) in G0. specialize (V0 E0). destruct (Rlt_dec _ _); [discriminate|]. destruct (Rlt_dec _ _); discriminate. }
  specialize (V E0). specialize (V1 E0). injection V as ->. injection V1 as ->.
  assert (0 < / (Rmin r b - r * b)) as Ip by (apply Rinv_0_lt_compat; lra). unfold Rdiv.
  replace (Rmin r b - r * (b + (1 - b))) with (Rmin r b - r) by ring. replace (Rmin r b - (r * 0 + b)) with (Rmin r b - b) by ring.
  assert (forall z, z <= 0 -> z * / (Rmin r b - r * b) <= 0) as Nn by (intros z Hz; assert (0 <= (- z) * / (Rmin r b - r * b)) by (apply Rmult_le_pos; lra); lra).
  pose proof (Rmin_l r b). pose proof (Rmin_r r b). split; [apply Nn; lra|]. split; [apply Nn; lra|].
  destruct (Rle_dec r b); [left; rewrite Rmin_left by lra|right; rewrite Rmin_right by lra]; ring.
Qed.
Print Assumptions C31_constant.

(** A threshold at which the decision always agrees with the event has the value 1, or NaN if no
    saving is possible. *)
Theorem C31_perfect : forall g a m ts p t v pv tv y s ws wrs ms bs arr e r,
  rev_case g a ts p t v pv tv y s ws wrs ms bs -> RelativeEconomicValue a = Ok m -> ra_optimal a = None -> metric_value g p t m v arr ->
  point_of (dims arr) e -> dget (ra_ratios a) (e "cost_loss_ratio") = Some r ->
  (forall q, point_of (dims pv) q -> point_of (dims tv) q -> acts (e "threshold") (get pv q) = vtruthy (get tv q)) ->
  get arr e = Fin 1 \/ get arr e = NaN.
Proof.
  intros g a m ts p t v pv tv y s ws wrs ms bs arr e r C Hm Ho H He Er HA. destruct (C31_value _ _ _ _ _ _ _ _ _ _ _ _ _ _ _ _ C Hm Ho H) as (_ & _ & _ & _ & K).
  destruct (K e He) as (P & r' & Er' & HP & HQ & Z & V). rewrite Er in Er'. injection Er' as <-. cbv zeta in Z, V. set (u := point_weight g (contingency andb y tv) wrs bs) in *.
  destruct (Req_dec (rsum (map u P)) 0) as [E|E]; [right; exact (Z E)|]. specialize (V E). assert (forall q, 0 <= u q) as Hu by (intros q; apply (case_weights _ _ _ _ _ _ _ _ _ _ _ _ _ _ _ q C)).
  assert (forall q, In q P -> acts (e "threshold") (get pv q) = vtruthy (get tv q)) as HA'.
  { intros q I. specialize (HQ q I). destruct (case_shape _ _ _ _ _ _ _ _ _ _ _ _ _ _ C) as (Gp & Gt & _). destruct (rc_wf _ _ _ _ _ _ _ _ _ _ _ _ _ _ C) as (_ & _ & Wy). destruct (rc_coords _ _ _ _ _ _ _ _ _ _ _ _ _ _ C) as (A1 & _ & Ay). destruct (rc_decisions _ _ _ _ _ _ _ _ _ _ _ _ _ _ C) as [Dy _].
    assert (good y) as Gy by (split; [exact Wy|rewrite Ay; exact A1]). destruct (contingency_shape andb y tv Gy Gt) as (D & _). rewrite D in HQ.
    assert (point_of (dims y) q /\ point_of (dims tv) q) as [Hy Ht].
    { cbn [binop dims] in HQ. split; intros d ls J.
      - apply In_dget in J; [|apply Wy]. destruct (dget (dims tv) d) as [l2|] eqn:E2.
        + assert (In (q d) (inter_labels ls l2)) as X by (apply (HQ d); apply dget_In; rewrite dget_merge, J, E2; reflexivity). apply In_inter in X. apply X.
        + apply (HQ d). apply dget_In. rewrite dget_merge, J, E2. reflexivity.
      - apply In_dget in J; [|apply Gt]. destruct (dget (dims y) d) as [l2|] eqn:E2.
        + assert (In (q d) (inter_labels l2 ls)) as X by (apply (HQ d); apply dget_In; rewrite dget_merge, J, E2; reflexivity). apply In_inter in X. apply X.
        + apply (HQ d). apply dget_In. rewrite dget_merge, J, E2. reflexivity. }
    apply HA; [|exact Ht]. intros d ls J. apply (Hy d ls). rewrite Dy. apply in_app_iff. left. exact J. }
  assert (wavg P u (outcome pv tv (e "threshold") false_alarm) = 0) as A2 by (rewrite <- (wavg_const P u Hu E 0); apply wavg_ext; auto; intros q I _; unfold outcome, false_alarm; rewrite (HA' q I); destruct (vtruthy _); reflexivity).
  assert (wavg P u (outcome pv tv (e "threshold") miss) = 0) as A3 by (rewrite <- (wavg_const P u Hu E 0); apply wavg_ext; auto; intros q I _; unfold outcome, miss; rewrite (HA' q I); destruct (vtruthy _); reflexivity).
  rewrite A2, A3 in V. set (tp := wavg P u (outcome pv tv (e "threshold") hit)) in *. destruct V as [V1 V2]. cbv zeta in *. unfold expense_climate, expense_perfect, expense in *. rewrite !Rplus_0_r in *.
  destruct (Req_dec (Rmin r tp - r * tp) 0) as [E0|E0]; [right|left].
  - rewrite (V2 E0). rewrite E0. destruct (Rlt_dec 0 0); [lra|reflexivity].
  - rewrite (V1 E0). f_equal. field. exact E0.
Qed.
Print Assumptions C31_perfect.

(** ** The thresholds of an ensemble *)
Lemma ens_Q2R n j : (0 < n)%Z -> (j < Z.to_nat n)%nat -> Q2R (this (Q2Qc ((inject_Z (Z.of_nat j) + (1 # 2)) / inject_Z n)%Q)) = (IZR (Z.of_nat j) + 1 / 2) / IZR n.
Proof.
  intros Hn Hj. unfold Q2Qc. cbn [this]. rewrite (Qeq_eqR _ _ (Qred_correct _)). unfold Qdiv. rewrite Q2R_mult, Q2R_plus, Q2R_inv.
  - unfold Q2R, inject_Z. cbn [Qnum Qden]. field. apply not_0_IZR. lia.
  - intros E. unfold Qeq in E. cbn in E. lia.
Qed.
(** With the size of the ensemble the thresholds lie strictly between the possible forecast
    probabilities k/n: the j-th is exceeded exactly by those with more than j members; so they
    differ from each other and from 0 and 1. *)
Theorem C31_ensemble_thresholds : forall a n, ra_ensemble_size a = Some n -> ra_thresholds a = None -> (0 < n)%Z ->
  exists ts, thresholds_of a ts /\ length ts = Z.to_nat n /\ NoDup (LQ 0 :: map LQ ts ++ [LQ 1]) /\
    forall j k, (j < Z.to_nat n)%nat -> exists q, nth_error ts j = Some q /\
      acts (LQ q) (Fin (INR k / IZR n)) = Nat.ltb j k.
Proof.
  intros a n Ha Hb Hn. exists (ensemble_thresholds n). split; [left; exists n; auto|]. unfold ensemble_thresholds. split; [rewrite map_length, seq_length; reflexivity|].
  set (f := fun k : nat => Q2Qc ((inject_Z (Z.of_nat k) + (1 # 2)) / inject_Z n)%Q).
  assert (0 < IZR n) as Rn by (apply IZR_lt; exact Hn).
  assert (forall j, (j < Z.to_nat n)%nat -> 0 < Q2R (this (f j)) < 1) as Bd.
  { intros j Hj. unfold f. rewrite ens_Q2R by auto. assert (0 <= IZR (Z.of_nat j)) by (apply IZR_le; lia). assert (IZR (Z.of_nat j) + 1 <= IZR n) by (rewrite <- plus_IZR; apply IZR_le; lia).
    split; [apply Rmult_lt_0_compat; [lra|apply Rinv_0_lt_compat; lra]|]. apply (Rmult_lt_reg_r (IZR n)); [lra|]. unfold Rdiv. rewrite Rmult_assoc, Rinv_l by lra. lra. }
  assert (forall j, (j < Z.to_nat n)%nat -> LQ (f j) <> LQ 0 /\ LQ (f j) <> LQ 1) as Ne.
  { intros j Hj. specialize (Bd j Hj). split; intros E; assert (f j = 0 \/ f j = 1)%Qc as [X|X] by (first [left; congruence|right; congruence]); rewrite X in Bd; unfold Q2R in Bd; cbn in Bd; lra. }
  split.
  - rewrite map_map. constructor.
    + rewrite in_app_iff, in_map_iff. intros [(j & E & I)|[E|[]]]; [apply in_seq in I; destruct (Ne j ltac:(lia)) as [E0 _]; exact (E0 E)|discriminate].
    + apply NoDup_app_intro; [|repeat constructor; intros []|].
      * apply Proofs_Binning4.NoDup_map_in; [|apply seq_NoDup]. intros i j Ii Ij E. apply in_seq in Ii, Ij. assert (f i = f j) as E' by congruence. apply (f_equal (fun q : Qc => Q2R (this q))) in E'. unfold f in E'. rewrite !ens_Q2R in E' by lia.
        apply (f_equal (fun x => x * IZR n)) in E'. unfold Rdiv in E'. rewrite !Rmult_assoc, Rinv_l in E' by lra. assert (IZR (Z.of_nat i) = IZR (Z.of_nat j)) as E2 by lra. apply eq_IZR in E2. lia.
      * intros l I [<-|[]]. apply in_map_iff in I. destruct I as (j & E & I). apply in_seq in I. destruct (Ne j ltac:(lia)) as [_ E1]. exact (E1 E).
  - intros j k Hj. exists (f j). split.
    + rewrite nth_error_map. rewrite (nth_error_nth' (seq 0 (Z.to_nat n)) O) by (rewrite seq_length; exact Hj). rewrite seq_nth by exact Hj. reflexivity.
    + destruct (Ne j Hj) as [E0 E1]. unfold acts. rewrite (proj2 (eqb_false_iff _ _) E0), (proj2 (eqb_false_iff _ _) E1). unfold vltb, f. rewrite ens_Q2R by auto. rewrite INR_IZR_INZ.
      destruct (Nat.ltb j k) eqn:E.
      * apply Nat.ltb_lt in E. apply Rltb_true. apply (Rmult_lt_reg_r (IZR n)); [lra|]. unfold Rdiv. rewrite !Rmult_assoc, Rinv_l by lra. assert (IZR (Z.of_nat j) + 1 <= IZR (Z.of_nat k)) by (rewrite <- plus_IZR; apply IZR_le; lia). lra.
      * apply Nat.ltb_ge in E. apply Rltb_false. apply (Rmult_le_reg_r (IZR n)); [lra|]. unfold Rdiv. rewrite !Rmult_assoc, Rinv_l by lra. assert (IZR (Z.of_nat k) <= IZR (Z.of_nat j)) by (apply IZR_le; lia). lra.
Qed.
Print Assumptions C31_ensemble_thresholds.

(** ** The constructor *)
(** It accepts exactly: an ensemble size or thresholds in [0, 1] with a name suffix, not both;
    and optimal thresholds over the same cost/loss ratios. *)
Theorem C31_constructor : forall a,
  (exists m, RelativeEconomicValue a = Ok m) <->
  (((exists n, ra_ensemble_size a = Some n) /\ ra_thresholds a = None \/
    ra_ensemble_size a = None /\ (exists ts, ra_thresholds a = Some ts /\ forall q, In q ts -> (0 <= this q <= 1)%Q) /\ ra_suffix a <> None) /\
   (forall o x v, ra_optimal a = Some o -> optimal_for o v x \/ (exists m, o = OptMapping m /\ In x (map snd m)) -> dget (l_dims x) "cost_loss_ratio" = Some (map fst (ra_ratios a)))).
Proof.
  intros a. assert (rev_optimal_ok a = true <-> (forall o x v, ra_optimal a = Some o -> optimal_for o v x \/ (exists m, o = OptMapping m /\ In x (map snd m)) -> dget (l_dims x) "cost_loss_ratio" = Some (map fst (ra_ratios a)))) as HO.
  { unfold rev_optimal_ok. destruct (ra_optimal a) as [o|]; [|split; [intros _ o x v Z; discriminate Z|reflexivity]]. rewrite forallb_forall. split.
    - intros K o' x v [= <-] I. assert (In x (optimal_arrays o)) as J.
      { destruct o as [z|z]; cbn in *; [destruct I as [->|(q & Z & _)]; [left; reflexivity|discriminate]|]. unfold values. destruct I as [I|(q & [= <-] & I)]; [|exact I]. apply dget_In in I. apply (in_map snd _ _ I). }
      specialize (K x J). destruct (dget (l_dims x) "cost_loss_ratio") as [ls|]; [|discriminate]. destruct (list_eq_dec _ ls _) as [->|]; [reflexivity|discriminate].
    - intros K x I. assert (dget (l_dims x) "cost_loss_ratio" = Some (map fst (ra_ratios a))) as E.
      { apply (K o x ""); [reflexivity|]. destruct o as [z|z]; cbn in *; [left; destruct I as [<-|[]]; reflexivity|]. right. exists z. split; [reflexivity|exact I]. }
      rewrite E. destruct (list_eq_dec _ _ _) as [|X]; [reflexivity|contradiction]. }
  rewrite <- HO. clear HO. unfold RelativeEconomicValue, rev_thresholds. destruct (ra_ensemble_size a) as [n|], (ra_thresholds a) as [q|]; cbn [bind].
  - split; [intros [m Z]; discriminate Z|]. intros [[[_ Z]|[Z _]] _]; discriminate.
  - destruct (rev_optimal_ok a); [|split; [intros [m Z]; discriminate Z|intros [_ Z]; discriminate Z]]. split; [|intros _; destruct (ra_suffix a); eexists; reflexivity]. intros _. split; [|reflexivity]. left. split; [eauto|reflexivity].
  - destruct (ra_suffix a) as [s|]; [|split; [intros [m Z]; discriminate Z|intros [[[(n & Z) _]|(_ & _ & Z)] _]; [discriminate Z|contradiction]]].
    destruct (forallb _ q) eqn:E; cbn [bind].
    + destruct (rev_optimal_ok a); [|split; [intros [m Z]; discriminate Z|intros [_ Z]; discriminate Z]]. split; [|intros _; eexists; reflexivity]. intros _. split; [|reflexivity]. right. split; [reflexivity|]. split; [|discriminate]. exists q. split; [reflexivity|].
      intros z I. rewrite forallb_forall in E. specialize (E z I). apply andb_true_iff in E. destruct E as [E1 E2]. split; apply Qle_bool_iff; assumption.
    + split; [intros [m Z]; discriminate Z|]. intros [[[(n & Z) _]|(_ & (ts & [= <-] & K) & _)] _]; [discriminate Z|]. exfalso. apply not_true_iff_false in E. apply E. apply forallb_forall. intros z I. destruct (K z I) as [K1 K2]. apply andb_true_iff. split; apply Qle_bool_iff; assumption.
  - split; [intros [m Z]; discriminate Z|]. intros [[[(n & Z) _]|(_ & (ts & Z & _) & _)] _]; discriminate.
Qed.
Print Assumptions C31_constructor.

(** ** Optimal thresholds *)
Lemma mapM_refine {A B} (f f0 : A -> result (string * B)) l r :
  (forall x y, In x l -> f x = Ok y -> exists y0, f0 x = Ok y0 /\ fst y0 = fst y) -> mapM f l = Ok r -> exists r0, mapM f0 l = Ok r0 /\ map fst r0 = map fst r.
Proof.
  revert r. induction l as [|x l IH]; intros r H E; [injection E as <-; exists []; split; reflexivity|]. cbn [mapM] in *. destruct (f x) as [y|] eqn:Ex; [|discriminate]. cbn [bind] in E. destruct (mapM f l) as [r1|] eqn:El; [|discriminate]. injection E as <-.
  destruct (H x y (or_introl eq_refl) Ex) as (y0 & Ey & Fy). destruct (IH r1) as (r0 & Er & Fr); [intros; eapply H; eauto; right; assumption|reflexivity|]. rewrite Ey. cbn [bind]. rewrite Er. cbn [bind]. exists (y0 :: r0). split; [reflexivity|]. cbn [map]. congruence.
Qed.
Lemma named_refine stats f f0 vals vs :
  (forall v s x, f v s = Ok x -> exists x0, f0 v s = Ok x0) -> values_from_mean_statistics (named_metric stats f) vals = Ok vs ->
  exists vs0, values_from_mean_statistics (named_metric stats f0) vals = Ok vs0 /\ map fst vs0 = map fst vs.
Proof.
  intros H E. cbn [named_metric values_from_mean_statistics] in *. destruct (mapM (fun s => dgetE vals s) (keys stats)) as [[|t0 ts]|]; try discriminate. cbn [bind] in *.
  eapply mapM_refine; [|exact E]. intros v y _ Ey. cbn beta in Ey. destruct (mapM _ (keys stats)) as [pv|]; [|discriminate]. cbn [bind] in *. destruct (f v pv) as [x|] eqn:Ex; [|discriminate]. cbn [bind] in Ey. injection Ey as <-.
  destruct (H v pv x Ex) as [x0 E0]. rewrite E0. cbn [bind]. eexists. split; reflexivity.
Qed.
Lemma rev_values_refine a v s x : rev_values a v s = Ok x -> exists x0, rev_values (without_optimal a) v s = Ok x0.
Proof.
  unfold rev_values. destruct (dgetE s "TruePositives") as [tp|]; [|discriminate]. destruct (dgetE s "FalsePositives") as [fp|]; [|discriminate]. destruct (dgetE s "FalseNegatives") as [fn|]; [|discriminate]. cbn [bind].
  destruct (add_constant_thresholds tp fp fn) as [[[t' f'] n']|]; [|discriminate]. cbn [bind without_optimal ra_optimal ra_ratios]. intros _. eexists. reflexivity.
Qed.
Lemma without_Ok a m : RelativeEconomicValue a = Ok m -> exists m0, RelativeEconomicValue (without_optimal a) = Ok m0.
Proof.
  unfold RelativeEconomicValue. change (rev_thresholds (without_optimal a)) with (rev_thresholds a). destruct (rev_thresholds a) as [ts|]; [|discriminate]. cbn [bind]. change (rev_optimal_ok (without_optimal a)) with true. intros _. eexists. reflexivity.
Qed.
Lemma without_value g a m m0 p t v arr : RelativeEconomicValue a = Ok m -> RelativeEconomicValue (without_optimal a) = Ok m0 -> metric_value g p t m v arr ->
  exists arr0, metric_value g p t m0 v arr0.
Proof.
  unfold RelativeEconomicValue. change (rev_thresholds (without_optimal a)) with (rev_thresholds a). destruct (rev_thresholds a) as [[ts sfx]|]; [|discriminate]. cbn [bind fst snd]. destruct (rev_optimal_ok a); [|discriminate]. change (rev_optimal_ok (without_optimal a)) with true. cbv iota.
  set (b := mkTransform "predictions" ("threshold" ++ "=" ++ sfx)%string (fun name x => binarize name x (TList (threshold_values ts)) "threshold")).
  intros Em E0. assert (m = WrappedMetric (named_metric [tp_; tn_; fp_; fn_] (rev_values a)) [b] None) as -> by (injection Em as <-; reflexivity).
  assert (m0 = WrappedMetric (named_metric [tp_; tn_; fp_; fn_] (rev_values (without_optimal a))) [b] None) as -> by (injection E0 as <-; reflexivity). clear.
  set (p' := map (fun kv => (fst kv, binarized ts (snd kv))) p).
  assert (transformed "predictions" [b] p p') as T1.
  { exists p'. split; [|reflexivity]. left. split; [left; reflexivity|]. unfold each_variable, p'. clear. induction p as [|[k x] p IH]; constructor; auto. }
  assert (transformed "targets" [b] t t) as T2 by (exists t; split; [right; split; [intros [|]; discriminate|reflexivity]|reflexivity]).
  assert (forall s raw, In s (map snd [tp_; tn_; fp_; fn_]) -> compute s p' t = Ok raw -> NoDup (keys raw)) as Hnd.
  { intros s raw [<-|[<-|[<-|[<-|[]]]]]; apply per_var_outputs. }
  assert (forall s s', In s (map snd [tp_; tn_; fp_; fn_]) -> In s' (map snd [tp_; tn_; fp_; fn_]) -> unique_name s = unique_name s' -> compute s p' t = compute s' p' t) as Hid.
  { intros s s' [<-|[<-|[<-|[<-|[]]]]] [<-|[<-|[<-|[<-|[]]]]]; cbn; intros; try discriminate; reflexivity. }
  assert (forall F x, metric_value g p t (WrappedMetric (named_metric [tp_; tn_; fp_; fn_] F) [b] None) v x <-> metric_value g p' t (named_metric [tp_; tn_; fp_; fn_] F) v x) as G.
  { intros F x. refine (C33_metric g _ [b] None p t p' t v x T1 T2 _ _).
    - unfold names_identify, registered. cbn [map flat_map fst snd named_metric statistics]. intros s s'. rewrite !app_nil_r. apply Hid.
    - unfold registered. cbn [map flat_map fst snd named_metric statistics]. intros s raw. rewrite app_nil_r. apply Hnd. }
  rewrite G. rewrite metric_value_iff by (cbn [named_metric statistics]; assumption). intros (means & vs & M1 & M2 & M3).
  destruct (named_refine _ _ (rev_values (without_optimal a)) _ _ (fun v s x => rev_values_refine a v s x) M2) as (vs0 & N2 & NK).
  assert (In v (keys vs0)) as I by (unfold keys; rewrite NK; apply (dget_Some_keys _ _ M3)). apply keys_dget in I. destruct I as [arr0 A0]. exists arr0. apply G. rewrite metric_value_iff by (cbn [named_metric statistics]; assumption). exists means, vs0. auto.
Qed.

Lemma nearer_spec w l : forall x, In (fold_left (nearer w) l x) (x :: l) /\ forall z, In z (x :: l) -> (Qabs.Qabs (number (fold_left (nearer w) l x) - number w) <= Qabs.Qabs (number z - number w))%Q.
Proof.
  change number with lq. induction l as [|z l IH]; intros x; [split; [left; reflexivity|intros z [<-|[]]; apply Qle_refl]|]. cbn [fold_left]. destruct (IH (nearer w x z)) as [I1 I2].
  assert (nearer w x z = x \/ nearer w x z = z) as NE by (unfold nearer; destruct (Qle_bool _ _); auto). split.
  - destruct I1 as [I1|I1]; [rewrite <- I1; destruct NE as [-> | ->]; [left|right; left]; reflexivity|right; right; exact I1].
  - assert (Qabs.Qabs (lq (nearer w x z) - lq w) <= Qabs.Qabs (lq x - lq w) /\ Qabs.Qabs (lq (nearer w x z) - lq w) <= Qabs.Qabs (lq z - lq w))%Q as [N1 N2].
    { unfold nearer. destruct (Qle_bool (Qabs.Qabs (lq z - lq w)) (Qabs.Qabs (lq x - lq w))) eqn:E; [apply Qle_bool_iff in E; split; [exact E|apply Qle_refl]|]. split; [apply Qle_refl|]. apply Qlt_le_weak, Qnot_le_lt. intros K. apply Qle_bool_iff in K. congruence. }
    intros y [<-|[<-|I]]; [eapply Qle_trans; [apply I2; left; reflexivity|exact N1]|eapply Qle_trans; [apply I2; left; reflexivity|exact N2]|apply I2; right; exact I].
Qed.

(** With optimal thresholds, the value at a cost/loss ratio (and other coordinates of the optimal
    thresholds) is the one the metric without them has at the chosen threshold: the given one, or
    with "nearest" a nearest available one. *)
Theorem C31_optimal : forall g a m ts p t v pv tv y s ws wrs ms bs arr o,
  rev_case g a ts p t v pv tv y s ws wrs ms bs -> RelativeEconomicValue a = Ok m -> ra_optimal a = Some o -> metric_value g p t m v arr ->
  exists m0 arr0 x, RelativeEconomicValue (without_optimal a) = Ok m0 /\ metric_value g p t m0 v arr0 /\ optimal_for o v x /\
    forall e, In e (envs (l_dims x) env0) -> forall e' : env, l_get x e' = l_get x e -> exists l,
      chosen (ra_nearest a) (LQ 0 :: map LQ ts ++ [LQ 1]) (l_get x e') l /\ get arr e' = get arr0 (upd e' "threshold" l).
Proof.
  intros g a m ts p t v pv tv y s ws wrs ms bs arr o C Hm Ho H. destruct (without_Ok a m Hm) as [m0 Hm0]. destruct (without_value g a m m0 p t v arr Hm Hm0 H) as [arr0 H0].
  destruct (case_shape _ _ _ _ _ _ _ _ _ _ _ _ _ _ C) as (Gp & Gt & Nt & Np & SS & W & ML).
  pose proof (rc_thresholds _ _ _ _ _ _ _ _ _ _ _ _ _ _ C) as Hts. pose proof (rc_predictions _ _ _ _ _ _ _ _ _ _ _ _ _ _ C) as Hp. pose proof (rc_targets _ _ _ _ _ _ _ _ _ _ _ _ _ _ C) as Ht. pose proof (rc_vars _ _ _ _ _ _ _ _ _ _ _ _ _ _ C) as Hn.
  destruct (rev_parts g a m ts p t v pv tv arr Hm Hts Hp Ht Hn H) as (T & N & F & M & HV & HT & HF & HM).
  destruct (rev_parts g (without_optimal a) m0 ts p t v pv tv arr0 Hm0 Hts Hp Ht Hn H0) as (T1 & N1 & F1 & M1 & HV0 & HT1 & HF1 & HM1).
  rewrite (mean_array_fun _ _ _ _ HT1 HT), (mean_array_fun _ _ _ _ HF1 HF), (mean_array_fun _ _ _ _ HM1 HM) in HV0. clear T1 F1 M1 HT1 HF1 HM1.
  pose proof (rc_new _ _ _ _ _ _ _ _ _ _ _ _ _ _ C) as NEW.
  destruct (mean_shapes g ts pv tv _ ws wrs ms bs Gp Gt (rc_distinct _ _ _ _ _ _ _ _ _ _ _ _ _ _ C) W ML _ _ HT) as (WT & XT & DT).
  destruct (mean_shapes g ts pv tv _ ws wrs ms bs Gp Gt (rc_distinct _ _ _ _ _ _ _ _ _ _ _ _ _ _ C) W ML _ _ HF) as (WF & XF & DF).
  destruct (mean_shapes g ts pv tv _ ws wrs ms bs Gp Gt (rc_distinct _ _ _ _ _ _ _ _ _ _ _ _ _ _ C) W ML _ _ HM) as (WM & XM & DM).
  unfold rev_values in HV, HV0. change (dgetE _ "TruePositives") with (@Ok da T) in HV, HV0. change (dgetE _ "FalsePositives") with (@Ok da F) in HV, HV0. change (dgetE _ "FalseNegatives") with (@Ok da M) in HV, HV0. cbn [bind] in HV, HV0.
  destruct (add_constant_thresholds T F M) as [[[T' F'] M']|] eqn:HC; [|discriminate]. cbn [bind without_optimal ra_optimal ra_ratios] in HV, HV0. injection HV0 as <-. rewrite Ho in HV.
  assert (~ In "threshold" (reduce_dims g)) as Nred.
  { intros I. unfold add_constant_thresholds, isel_first in HC. rewrite DT in HC. rewrite dget_keep in HC. rewrite (proj2 (memb_In _ _) I) in HC. discriminate. }
  assert (dget (dims T) "threshold" = Some (map LQ ts)) as LT.
  { rewrite DT, dget_keep. rewrite (proj2 (memb_false _ _) Nred). apply (joint_threshold ts pv tv ws ms Gp Gt Np (rc_distinct _ _ _ _ _ _ _ _ _ _ _ _ _ _ C)); [apply NEW; right; left; reflexivity|intros w I; apply NEW; right; right; exact I]. }
  assert (NoDup (l0 :: labels_of (dims T) "threshold" ++ [l1])) as NL' by (unfold labels_of; rewrite LT; apply (rc_distinct _ _ _ _ _ _ _ _ _ _ _ _ _ _ C)).
  destruct (constants_spec T F M T' F' M' WT WF WM XT XF XM ltac:(congruence) ltac:(congruence) NL' HC) as (first & rest & Lf & WT' & WF' & WM' & XT' & XF' & XM' & DT' & DF' & DM' & Dt & _).
  rewrite LT in Lf. assert (first :: rest = map LQ ts) as Lf' by congruence. rewrite Lf' in Dt. set (ls := LQ 0 :: map LQ ts ++ [LQ 1]). change (dget (cdims (dims T)) "threshold" = Some ls) in Dt.
  destruct (match o with OptArray x => Ok x | OptMapping m => dgetE m v end) as [x|] eqn:Ex; [|discriminate]. cbn [bind] in HV.
  assert (optimal_for o v x) as Hx by (destruct o as [z|z]; cbn in *; [congruence|]; unfold dgetE in Ex; destruct (dget z v); congruence).
  destruct (select_optimal (ra_nearest a) T' x) as [T2|] eqn:S1; [|discriminate]. destruct (select_optimal (ra_nearest a) F' x) as [F2|] eqn:S2; [|discriminate]. destruct (select_optimal (ra_nearest a) M' x) as [M2|] eqn:S3; [|discriminate]. cbn [bind] in HV. injection HV as <-.
  exists m0. eexists. exists x. split; [exact Hm0|]. split; [exact H0|]. split; [exact Hx|].
  set (pick := if ra_nearest a then nearest_label ls else fun l : label => l).
  assert (forall A B, dims A = cdims (dims T) -> wf A -> select_optimal (ra_nearest a) A x = Ok B -> (forall e, In e (envs (l_dims x) env0) -> In (pick (l_get x e)) ls) /\ forall e, get B e = get A (upd e "threshold" (pick (l_get x e)))) as SEL.
  { intros A B DA WA SA. unfold select_optimal in SA. cbv zeta in SA. assert (labels_of (dims A) "threshold" = ls) as LA by (unfold labels_of; rewrite DA, Dt; reflexivity). rewrite LA in SA.
    destruct (ra_nearest a && negb (increasing_labels ls)); [discriminate|]. apply sel_points_Ok in SA. destruct SA as [SA ->]. split.
    - intros e Ie. specialize (SA e "threshold" (fun e => pick (l_get x e)) Ie (or_introl eq_refl)). rewrite LA in SA. exact SA.
    - intros e. cbn [get]. apply WA. intros d _. cbn [dget]. unfold upd. destruct (string_dec d "threshold") as [->|Nd]; [destruct (eq_dec "threshold" "threshold"); [|contradiction]; reflexivity|]. destruct (eq_dec d "threshold"); [contradiction|reflexivity]. }
  destruct (SEL _ _ DT' WT' S1) as [P1 G1]. destruct (SEL _ _ DF' WF' S2) as [_ G2]. destruct (SEL _ _ DM' WM' S3) as [_ G3].
  intros e Ie e' Ee. exists (pick (l_get x e')). split.
  - split; [rewrite Ee; apply P1, Ie|]. unfold pick. destruct (ra_nearest a); [|reflexivity]. unfold nearest_label, ls. apply nearer_spec.
  - rewrite !rev_formula_get, G1, G2, G3. cbn [threshold_array get]. rewrite upd_other by discriminate. reflexivity.
Qed.
Print Assumptions C31_optimal.

(** A concrete case: probabilities 3/4 and 1/4, the event happens the first time, threshold 1/2,
    ratio 1/4. *)
Definition rev_p : da := vt_da (fun z => if (z =? 0)%Z then 3 / 4 else 1 / 4) [].
Definition rev_t : da := vt_da (fun z => if (z =? 0)%Z then 1 else 0) [].
Definition half : Qc := Q2Qc (1 # 2).
Definition rev_a : rev_args := mkRev None (Some [half]) [(LZ 0, 1 / 4)] None false (Some "half").
Definition rev_y : da := binarized [half] rev_p.
Definition rev_s (q : env) : R := if vtruthy (get rev_y q) && vtruthy (get rev_t q) then 1 else 0.
Lemma good_p : good rev_p. Proof. split; [apply wf_vt|constructor]. Qed.
Lemma good_t : good rev_t. Proof. split; [apply wf_vt|constructor]. Qed.
Lemma rev_distinct : NoDup (LQ 0 :: map LQ [half] ++ [LQ 1]).
Proof. repeat constructor; cbn; intros H; repeat (destruct H as [H|H]; try discriminate H); exact H. Qed.
Example C31_example_case : rev_case ex_g rev_a [half] [("t", rev_p)] [("t", rev_t)] "t" rev_p rev_t rev_y rev_s [] [] [] [].
Proof.
  pose proof good_p as Gp. pose proof good_t as Gt. assert (NoDup (map LQ [half])) as Nh by (repeat constructor; intros []). assert (~ In "threshold" (dnames rev_p)) as Np by (cbn; intuition discriminate). pose proof (binarized_good [half] rev_p Nh Gp) as Gy. pose proof (binarized_decisions [half] rev_p (proj1 Gp) Np) as [Dy Vy].
  destruct (contingency_shape andb rev_y rev_t Gy Gt) as (D & A & G).
  constructor; auto.
  - right. split; reflexivity.
  - apply rev_distinct.
  - repeat constructor; intros [].
  - repeat constructor; intros [].
  - split; [apply Gp|]. split; [apply Gt|apply Gy].
  - split; [constructor|]. split; [constructor|reflexivity].
  - intros w [<-|[<-|[]]]; cbn; intuition discriminate.
  - split; assumption.
  - split; try solve [constructor]; try solve [intros ? []]; try reflexivity.
    + apply G.
    + intros c0 H. rewrite A in H. discriminate H.
    + intros e He _. assert (e "threshold" = LQ half) as Et.
      { rewrite D in He. assert (In (e "threshold") [LQ half]) as [I|[]]; [|auto]. apply (He "threshold"). vm_compute. right. left. reflexivity. }
      rewrite contingency_get. unfold rev_y at 1. rewrite (Vy e half Et (or_introl eq_refl)). unfold rev_s. unfold rev_p, rev_t, vt_da at 1 2. cbn [get]. destruct (vltb _ _); reflexivity.
  - intros c H. rewrite A in H. discriminate H.
  - intros r [].
Qed.


Lemma rev_dims m arr : RelativeEconomicValue rev_a = Ok m -> metric_value ex_g [("t", rev_p)] [("t", rev_t)] m "t" arr -> dims arr = [("cost_loss_ratio", [LZ 0]); ("threshold", [LQ 0; LQ half; LQ 1])].
Proof.
  intros H (vs & H1 & H2).
  assert (exists m' vs', RelativeEconomicValue rev_a = Ok m' /\ evaluate ex_g [("metric", m')] [("t", rev_p)] [("t", rev_t)] = Ok [("metric", vs')] /\ exists x, dget vs' "t" = Some x /\ dims x = [("cost_loss_ratio", [LZ 0]); ("threshold", [LQ 0; LQ half; LQ 1])]) as (m' & vs' & E1 & E2 & x & E3 & E4).
  { eexists. eexists. split; [reflexivity|]. split; [reflexivity|]. eexists. split; [reflexivity|]. vm_compute. reflexivity. }
  rewrite H in E1. assert (m = m') as <- by congruence. rewrite H1 in E2. assert (vs = vs') as <- by congruence. rewrite H2 in E3. assert (arr = x) as -> by congruence. exact E4.
Qed.
Example C31_example : exists m arr, RelativeEconomicValue rev_a = Ok m /\ metric_value ex_g [("t", rev_p)] [("t", rev_t)] m "t" arr /\
  get arr (upd (upd env0 "threshold" (LQ half)) "cost_loss_ratio" (LZ 0)) = Fin 1.
Proof.
  assert (exists m, RelativeEconomicValue rev_a = Ok m) as [m Hm] by (eexists; reflexivity).
  assert (exists arr, metric_value ex_g [("t", rev_p)] [("t", rev_t)] m "t" arr) as [arr Ha].
  { unfold RelativeEconomicValue in Hm. cbn [bind rev_thresholds ra_ensemble_size ra_thresholds rev_a ra_suffix fst snd] in Hm. assert (exists m' arr, RelativeEconomicValue rev_a = Ok m' /\ metric_value ex_g [("t", rev_p)] [("t", rev_t)] m' "t" arr) as (m' & arr & E1 & E2).
    { eexists. eexists. split; [reflexivity|]. eexists. split; reflexivity. }
    exists arr. assert (RelativeEconomicValue rev_a = Ok m) as Hm' by exact Hm. rewrite E1 in Hm'. assert (m = m') as -> by congruence. exact E2. }
  pose proof (rev_dims m arr Hm Ha) as D. exists m, arr. split; [exact Hm|]. split; [exact Ha|].
  set (e := upd (upd env0 "threshold" (LQ half)) "cost_loss_ratio" (LZ 0)).
  assert (point_of (dims arr) e) as He by (rewrite D; intros d ls [[= <- <-]|[[= <- <-]|[]]]; [left; reflexivity|right; left; reflexivity]).
  pose proof C31_example_case as C. assert (dget (ra_ratios rev_a) (e "cost_loss_ratio") = Some (1 / 4)) as Er by reflexivity.
  assert (Q2R (this half) = 1 / 2) as Eh by (unfold half, Q2R; cbn; lra).
  destruct (C31_perfect _ _ _ _ _ _ _ _ _ _ _ _ _ _ _ _ e (1 / 4) C Hm eq_refl Ha He Er) as [V|V]; [|exact V|].
  { intros q _ Hq. assert (In (q "valid_time") [LZ 0; LZ 1]) as Iq by (apply (Hq "valid_time"); left; reflexivity). change (e "threshold") with (LQ half). unfold acts. replace (eqb (LQ half) (LQ 0)) with false by reflexivity. replace (eqb (LQ half) (LQ 1)) with false by reflexivity. cbn [rev_p rev_t vt_da get vltb]. rewrite Eh.
    destruct Iq as [<-|[<-|[]]]; cbn [time_value Z.eqb]; unfold vtruthy, veqb.
    - rewrite (proj2 (Rltb_true _ _)) by lra. rewrite (proj2 (Reqb_false _ _)) by lra. reflexivity.
    - rewrite (proj2 (Rltb_false _ _)) by lra. rewrite (proj2 (Reqb_true _ _)) by lra. reflexivity. }
  exfalso. destruct (C31_finite _ _ _ _ _ _ _ _ _ _ _ _ _ _ _ _ e (1 / 4) C Hm eq_refl Ha He Er ltac:(lra)) as (P & HP & K). cbv zeta in K.
  assert (forall q, point_weight ex_g (contingency andb rev_y rev_t) [] [] q = 1) as U.
  { intros q. unfold point_weight, counted. assert (aux (contingency andb rev_y rev_t) = []) as -> by reflexivity. reflexivity. }
  assert (Permutation P [upd e "valid_time" (LZ 0); upd e "valid_time" (LZ 1)]) as PP.
  { destruct HP as [N1 N2]. apply NoDup_Permutation; [exact N1|repeat constructor; intros H; repeat destruct H as [H|H]; try exact H; apply (f_equal (fun q : env => q "valid_time")) in H; discriminate H|].
    assert (dnames (contingency andb rev_y rev_t) = ["valid_time"; "threshold"] /\ labels_of (dims (contingency andb rev_y rev_t)) "valid_time" = [LZ 0; LZ 1]) as [DN DL] by (split; vm_compute; reflexivity).
    assert (sample_point [half] e = e) as SE by reflexivity.
    intros q. rewrite N2, SE. split.
    - intros [K1 K2]. specialize (K2 (contingency andb rev_y rev_t) "valid_time" (or_introl eq_refl) (or_introl eq_refl)). rewrite DN, DL in K2. specialize (K2 (or_introl eq_refl)).
      assert (q = upd e "valid_time" (q "valid_time")) as Eq.
      { apply FunctionalExtensionality.functional_extensionality. intros d. unfold upd. destruct (string_dec d "valid_time") as [->|Nd]; [reflexivity|]. apply K1. intros [[I|[]] _]. congruence. }
      rewrite Eq. destruct K2 as [<-|[<-|[]]]; [left|right; left]; reflexivity.
    - intros Iq. assert (exists z, In z [LZ 0; LZ 1] /\ q = upd e "valid_time" z) as (z & Iz & ->) by (destruct Iq as [<-|[<-|[]]]; eexists; (split; [|reflexivity]); [left|right; left]; reflexivity). split.
      + intros d Nd. apply upd_other. intros ->. apply Nd. split; [left; reflexivity|]. exists (contingency andb rev_y rev_t). split; [left; reflexivity|rewrite DN; left; reflexivity].
      + intros w d [<-|[]] [<-|[]] _. rewrite DL, upd_same. exact Iz. }
  rewrite (wavg_perm _ _ _ _ PP), (rsum_perm _ _ (Permutation_map _ PP)) in K. unfold wavg in K. cbn [map] in K. rewrite !U in K. unfold event in K. cbn [rev_t vt_da get] in K. rewrite !upd_same in K. cbn [time_value Z.eqb] in K. unfold vtruthy, veqb in K.
  rewrite (proj2 (Reqb_false 1 0)) in K by lra. rewrite (proj2 (Reqb_true 0 0)) in K by lra. cbn [negb] in K. unfold rsum in K. cbn [fold_right] in K. destruct (proj2 (K ltac:(lra))) as [x Hx]; [split; lra|]. rewrite Hx in V. discriminate V.
Qed.

(** The same inputs with an optimal threshold: 2/5 for the only ratio, the nearest is 1/2. *)
Definition rev_o : label_array := mkLabels [("cost_loss_ratio", [LZ 0])] (fun _ => LQ (Q2Qc (2 # 5))).
Definition rev_ao : rev_args := mkRev None (Some [half]) [(LZ 0, 1 / 4)] (Some (OptArray rev_o)) true (Some "half").
Example C31_optimal_example : exists m arr, RelativeEconomicValue rev_ao = Ok m /\
  rev_case ex_g rev_ao [half] [("t", rev_p)] [("t", rev_t)] "t" rev_p rev_t rev_y rev_s [] [] [] [] /\
  metric_value ex_g [("t", rev_p)] [("t", rev_t)] m "t" arr /\
  nearest_label [LQ 0; LQ half; LQ 1] (LQ (Q2Qc (2 # 5))) = LQ half.
Proof.
  eexists. eexists. split; [reflexivity|]. split; [|split; [eexists; split; reflexivity|reflexivity]].
  destruct C31_example_case. constructor; assumption.
Qed.
