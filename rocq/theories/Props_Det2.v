(** C56, C57: error exceedance, wind vectors, relative intensity, passthrough, ranked
    probability score. *)
From Coq Require Import String List Bool Reals Lra ZArith.
Import ListNotations.
From Verif Require Import Prelude Values Model_XArray Spec_XArray Proofs_XArray Model_Tree Model_MetricsBase Model_Aggregation
  Spec_Aggregator Spec_Metrics Proofs_Metrics Spec_Means Proofs_Means Model_Calendar Model_Deterministic Proofs_Deterministic
  Model_Categorical Spec_Reduce Proofs_Reduce Proofs_Categorical Proofs_Det2 Spec_Statistic.
Local Open Scope R_scope.
Local Open Scope string_scope.
Local Open Scope list_scope.

(** ** C56 *)
(** ErrorExceedance: NaN where the error or the threshold is NaN, 1 where the absolute error
    exceeds the threshold, else 0; it cannot increase when the threshold increases. *)
Theorem C56_exceedance : forall thr p t v pv tv st e, NoDup (keys p) -> dget p v = Some pv -> dget t v = Some tv ->
  statistic_value (ErrorExceedance thr) p t v st ->
  (get pv e = NaN \/ get tv e = NaN \/ get thr e = NaN -> get st e = NaN) /\
  (forall x y h, get pv e = Fin x -> get tv e = Fin y -> get thr e = Fin h ->
     (h < Rabs (x - y) -> get st e = Fin 1) /\ (Rabs (x - y) <= h -> get st e = Fin 0)).
Proof.
  intros thr p t v pv tv st e Hn Hp Ht H. apply (per_variable_value _ _ _ _ _ pv tv) in H; auto. injection H as <-. rewrite exceedance_get. split.
  - intros [-> |[-> | ->]]; [reflexivity| |destruct (isnan _); reflexivity]. destruct (get pv e); reflexivity.
  - intros x y h -> -> ->. unfold vsub. cbn [vneg vadd isnan vabs vltb]. change (x + - y) with (x - y). split; intros Hh.
    + rewrite (proj2 (Rltb_true h (Rabs (x - y))) Hh). reflexivity.
    + rewrite (proj2 (Rltb_false h (Rabs (x - y))) Hh). reflexivity.
Qed.
Print Assumptions C56_exceedance.

(** WindVectorSquaredError: the squared length of the vector error for each vector; missing
    components are a KeyError, lists of different lengths a ValueError. *)
Theorem C56_wind : forall us vs ns,
  (forall s p t out, WindVectorSquaredError us vs ns = Ok s -> compute s p t = Ok out -> NoDup ns ->
    (forall n, In n (keys out) <-> In n ns) /\
    forall i u v n, nth_error us i = Some u -> nth_error vs i = Some v -> nth_error ns i = Some n ->
      exists pu pv tu tv st, dget p u = Some pu /\ dget p v = Some pv /\ dget t u = Some tu /\ dget t v = Some tv /\ dget out n = Some st /\
      forall e a b c d, get pu e = Fin a -> get pv e = Fin b -> get tu e = Fin c -> get tv e = Fin d ->
        get st e = Fin ((a - c) ^ 2 + (b - d) ^ 2)) /\
  (length us <> length vs \/ length vs <> length ns -> WindVectorSquaredError us vs ns = Err ValueError).
Proof.
  intros us vs ns. unfold WindVectorSquaredError, same_length3. split.
  - intros s p t out Hs H Hn. destruct (Nat.eqb (length us) (length vs)) eqn:E1; [|discriminate]. destruct (Nat.eqb (length vs) (length ns)) eqn:E2; [|discriminate].
    apply Nat.eqb_eq in E1, E2. cbn [andb] in Hs. injection Hs as <-. cbn [compute] in H.
    destruct (wind_compute_spec p t us vs ns [] out E1 E2 H Hn) as (K1 & _ & K3). split; [intros n; rewrite K1; simpl; tauto|].
    intros i u v n F1 F2 F3. destruct (K3 i u v n F1 F2 F3) as (pu & pv & tu & tv & P1 & P2 & P3 & P4 & P5). exists pu, pv, tu, tv. eexists.
    do 4 (split; [eassumption|]). split; [exact P5|]. intros e a b c d G1 G2 G3 G4.
    unfold wind_var, vsub. cbn [binop da_map get]. rewrite G1, G2, G3, G4. cbn [vneg vadd]. unfold vsq. cbn [vmul vadd]. f_equal. ring.
  - intros [H|H]; apply Nat.eqb_neq in H; rewrite H; [reflexivity|]. rewrite andb_false_r. reflexivity.
Qed.
Print Assumptions C56_wind.

(** RelativeIntensity, unmasked: |(mean forecast + eps) / (mean target + eps) - 1|, so it is
    non-negative, and 0 when the means agree. *)
Theorem C56_intensity : forall D p t v pv tv st e x y P Q, NoDup (keys p) -> dget p v = Some pv -> dget t v = Some tv ->
  wf pv -> wf tv -> dget (aux tv) "mask" = None -> statistic_value (RelativeIntensity D) p t v st ->
  reduced_points [pv] D e P -> reduced_points [tv] D e Q -> P <> [] -> Q <> [] ->
  (forall q, In q P -> get pv q = Fin (x q)) -> (forall q, In q Q -> get tv q = Fin (y q)) ->
  let a := rsum (map x P) / INR (length P) in let b := rsum (map y Q) / INR (length Q) in
  b + 1 / 1000000 <> 0 ->
  get st e = Fin (Rabs ((a + 1 / 1000000) / (b + 1 / 1000000) - 1)) /\
  (a = b -> get st e = Fin 0) /\ (get st e = Fin 0 -> a = b).
Proof.
  intros D p t v pv tv st e x y P Q Hn Hp Ht Wp Wt Hm H HP HQ NP NQ Hx Hy a b Hb. apply (per_variable_value _ _ _ _ _ pv tv) in H; auto.
  destruct (relative_intensity_var D pv tv) as [r|] eqn:E; [|discriminate]. cbn [bind] in H. injection H as <-.
  assert (forall a0 P0, wf a0 -> reduced_points [a0] D e P0 -> Permutation.Permutation (sum_points D a0 e) P0) as K.
  { intros a0 P0 W0 [ND HI]. destruct (sum_points_spec D a0 e W0) as [ND' HI']. apply Permutation.NoDup_Permutation; auto. intros q. rewrite HI, HI'. reflexivity. }
  pose proof (K pv P Wp HP) as K1. pose proof (K tv Q Wt HQ) as K2.
  assert (rsum (map x (sum_points D pv e)) / INR (length (sum_points D pv e)) = a) as Ea.
  { unfold a. rewrite (Permutation.Permutation_length K1). f_equal. apply rsum_perm. now apply Permutation.Permutation_map. }
  assert (rsum (map y (sum_points D tv e)) / INR (length (sum_points D tv e)) = b) as Eb.
  { unfold b. rewrite (Permutation.Permutation_length K2). f_equal. apply rsum_perm. now apply Permutation.Permutation_map. }
  assert (get r e = Fin (Rabs ((a + 1 / 1000000) / (b + 1 / 1000000) - 1))) as V.
  { pose proof (relative_intensity_plain D pv tv r e x y Wp Wt Hm E) as T. cbv zeta beta in T. rewrite Ea, Eb in T. apply T; auto.
    - intros q Hq. apply Hx. now apply (Permutation.Permutation_in _ K1).
    - intros q Hq. apply Hy. now apply (Permutation.Permutation_in _ K2).
    - intros Z. rewrite Z in K1. apply Permutation.Permutation_nil in K1. contradiction.
    - intros Z. rewrite Z in K2. apply Permutation.Permutation_nil in K2. contradiction. }
  split; [exact V|]. rewrite V. clear - Hb. clearbody a b. split.
  - intros ->. f_equal. unfold Rdiv at 1. rewrite Rinv_r by exact Hb. replace (1 - 1) with 0 by ring. apply Rabs_R0.
  - intros [= Z]. remember (a + 1 / 1000000) as A eqn:EA. remember (b + 1 / 1000000) as B eqn:EB.
    assert (A / B = 1) as Z2 by (destruct (Req_dec (A / B - 1) 0) as [|N]; [lra|]; apply Rabs_no_R0 in N; contradiction).
    assert (A = B); [|lra]. replace A with (A / B * B) by (field; exact Hb). rewrite Z2. ring.
Qed.
Print Assumptions C56_intensity.

(** With a mask on the targets: the means are over the unmasked points; where there is none the
    value is 0 and the mask of the result 0. *)
Theorem C56_intensity_masked : forall D p t v pv tv c st e x y P, NoDup (keys p) -> dget p v = Some pv -> dget t v = Some tv ->
  wf tv -> dims pv = dims tv -> dget (aux tv) "mask" = Some c -> statistic_value (RelativeIntensity D) p t v st ->
  reduced_points [tv] D e P ->
  let U := filter (fun q => label_is_one (c_get c q)) P in
  (forall q, In q U -> get pv q = Fin (x q) /\ get tv q = Fin (y q)) ->
  (U = [] -> get st e = Fin 0) /\
  (U <> [] -> rsum (map y U) / INR (length U) + 1 / 1000000 <> 0 ->
     get st e = Fin (Rabs ((rsum (map x U) / INR (length U) + 1 / 1000000) / (rsum (map y U) / INR (length U) + 1 / 1000000) - 1))) /\
  exists m, dget (aux st) "mask" = Some m /\ c_get m e = LZ (match U with [] => 0 | _ => 1 end)%Z.
Proof.
  intros D p t v pv tv c st e x y P Hn Hp Ht Wt Hd Hm H HP U HU. apply (per_variable_value _ _ _ _ _ pv tv) in H; auto.
  destruct (relative_intensity_var D pv tv) as [r|] eqn:E; [|discriminate]. cbn [bind] in H. injection H as <-.
  assert (Permutation.Permutation (sum_points D tv e) P) as K.
  { destruct HP as [ND HI]. destruct (sum_points_spec D tv e Wt) as [ND' HI']. apply Permutation.NoDup_Permutation; auto. intros q. rewrite HI, HI'. reflexivity. }
  set (U' := filter (fun q => label_is_one (c_get c q)) (sum_points D tv e)).
  assert (Permutation.Permutation U' U) as KU.
  { unfold U', U. clear - K. induction K; simpl; try destruct (label_is_one _); try destruct (label_is_one _); auto; [constructor|econstructor; eauto]. }
  pose proof (relative_intensity_masked D pv tv c r e x y Wt Hd Hm E) as T. cbv zeta in T. fold U' in T.
  destruct T as (T1 & T2 & T3). { intros q Hq. apply HU. now apply (Permutation.Permutation_in _ KU). }
  assert (U' = [] <-> U = []) as KE.
  { split; intros Z; rewrite Z in KU; [now apply Permutation.Permutation_nil|]. apply Permutation.Permutation_sym in KU. now apply Permutation.Permutation_nil. }
  assert (forall f : env -> R, rsum (map f U') = rsum (map f U)) as KS by (intros f; apply rsum_perm; now apply Permutation.Permutation_map).
  rewrite (Permutation.Permutation_length KU), !KS in T2. split; [intros Z; apply T1; now apply KE|]. split; [intros Z; apply T2; intros Z'; apply Z; now apply KE|].
  destruct T3 as (m & Hm1 & Hm2). exists m. split; [exact Hm1|]. rewrite Hm2. f_equal. destruct U', U; auto; destruct KE as [A B]; [specialize (A eq_refl); discriminate|specialize (B eq_refl); discriminate].
Qed.
Print Assumptions C56_intensity_masked.

(** PredictionPassthrough / TargetPassthrough return the values of their side; with copy_nans
    also NaN where the other side is NaN. *)
Theorem C56_passthrough : forall copy p t v pv tv st e, NoDup (keys p) -> dget p v = Some pv -> dget t v = Some tv ->
  (statistic_value (PredictionPassthrough copy) p t v st -> get st e = if copy && isnan (get tv e) then NaN else get pv e) /\
  (statistic_value (TargetPassthrough copy) p t v st -> get st e = if copy && isnan (get pv e) then NaN else get tv e).
Proof.
  intros copy p t v pv tv st e Hn Hp Ht.
  assert (forall a b, get (passthrough_var copy a b) e = if copy && isnan (get b e) then NaN else get a e) as K.
  { intros a b. assert (vadd (get a e) (Fin 0) = get a e) as V by (destruct (get a e) as [r| | |]; try reflexivity; cbn [vadd]; f_equal; ring).
    unfold passthrough_var. destruct copy; cbn [andb].
    - unfold da_where_nan, notnull, zeros_like. cbn [binop da_map get]. rewrite vtruthy_b2v, V. destruct (isnan (get b e)); reflexivity.
    - unfold zeros_like. cbn [binop da_map get]. exact V. }
  split; intros H; apply (per_variable_value _ _ _ _ _ pv tv) in H; auto; injection H as <-; apply K.
Qed.
Print Assumptions C56_passthrough.

Definition d_da (x : R) : da := mkDa [("latitude", [LZ 0; LZ 1])] (fun e => Fin (if eqb (e "latitude") (LZ 0) then x else 2)) [].
Example C56_example :
  (exists st, statistic_value (RelativeIntensity ["latitude"]) [("t", d_da 1)] [("t", d_da 4)] "t" st) /\
  (exists st, statistic_value (ErrorExceedance (scalar (Fin 2))) [("t", d_da 1)] [("t", d_da 4)] "t" st) /\
  (exists s out, WindVectorSquaredError ["u"] ["v"] ["w"] = Ok s /\ compute s [("u", d_da 1); ("v", d_da 2)] [("u", d_da 3); ("v", d_da 4)] = Ok out).
Proof. split; [|split]; repeat eexists. Qed.

(** ** C57: RankedProbabilityScore *)
(** For finite CDFs over the same bins: the sum over the bins of the squared differences,
    hence non-negative, and 0 exactly when the two CDFs agree. *)
Theorem C57_value : forall d p t v pv tv st e ls x y, NoDup (keys p) -> dget p v = Some pv -> dget t v = Some tv ->
  wf pv -> wf tv -> statistic_value (RankedProbabilityScore d) p t v st ->
  labels_of (dims pv) d = ls -> labels_of (dims tv) d = ls ->
  (forall l, In l ls -> get pv (upd e d l) = Fin (x l) /\ get tv (upd e d l) = Fin (y l)) ->
  let s := rsum (map (fun l => (x l - y l) ^ 2) ls) in
  get st e = Fin s /\ 0 <= s /\ (s = 0 <-> forall l, In l ls -> x l = y l).
Proof.
  intros d p t v pv tv st e ls x y Hn Hp Ht Wp Wt H Lp Lt Hv s. apply (per_variable_value _ _ _ _ _ pv tv) in H; auto.
  destruct (rps_var d pv tv) as [r|] eqn:E; [|discriminate]. cbn [bind] in H. injection H as <-. split; [|split].
  - exact (rps_value d pv tv r e ls x y Wp Wt E Lp Lt Hv).
  - apply rsum_sq_nonneg.
  - unfold s. rewrite (rsum_sq_zero (fun l => x l - y l)). split; intros K l Hl; specialize (K l Hl); lra.
Qed.
Print Assumptions C57_value.

(** A missing CDF is not a missing score: NaNs are summed as 0, so an all-NaN prediction gets the
    perfect score 0. *)
Definition cdf (x : val) : da := mkDa [("bin", [LZ 0; LZ 1])] (fun _ => x) [].
Theorem C57_missing_refuted : forall e, exists st,
  statistic_value (RankedProbabilityScore "bin") [("t", cdf NaN)] [("t", cdf (Fin 1))] "t" st /\ get st e = Fin 0.
Proof.
  intros e. eexists. split; [eexists; split; reflexivity|]. cbn -[Rplus]. f_equal. lra.
Qed.
Print Assumptions C57_missing_refuted.
Example C57_example : wf (cdf (Fin 1)) /\ exists st, statistic_value (RankedProbabilityScore "bin") [("t", cdf (Fin 1))] [("t", cdf (Fin 0))] "t" st.
Proof.
  split; [|repeat eexists]. split; [repeat constructor; intros []|]. split; [|reflexivity]. intros d ls [[= <- <-]|[]]. repeat constructor; simpl; intuition discriminate.
Qed.
