(** C53: standard errors and degrees of freedom of the t-tests. *)
From Coq Require Import String ZArith List Bool Reals Lra Lia QArith Qcanon.
Import ListNotations.
From Verif Require Import Prelude Values Model_XArray Spec_XArray Proofs_XArray Model_Deterministic Model_Ensemble
  Spec_Reduce Proofs_Ensemble2 Model_TTest Spec_TTest Proofs_TTest.
Local Open Scope R_scope.
Local Open Scope list_scope.

Lemma reduce_total f d a : In d (dnames a) -> exists r, reduce f [d] a = Ok r.
Proof.
  intros H. unfold reduce. replace (subsetb [d] (dnames a)) with true; [eexists; reflexivity|].
  symmetry. unfold subsetb. cbn. replace (memb d (dnames a)) with true by (symmetry; now apply memb_In). reflexivity.
Qed.
Lemma size_of_total d a : In d (dnames a) -> size_of d a = Ok (length (labels_of (dims a) d)).
Proof.
  intros H. unfold size_of, labels_of. destruct (dget (dims a) d) eqn:E; auto. apply dget_None in E. contradiction.
Qed.
Lemma dims_reduce f d a r : reduce f [d] a = Ok r -> dims r = keep (fun x => negb (memb x [d])) (dims a).
Proof. unfold reduce. destruct (subsetb _ _); [now intros [= <-]|discriminate]. Qed.

(** ** The classic test *)
(** Degrees of freedom n-1; standard error sqrt(variance/n); a NaN deviation gives NaN. *)
Theorem C53_iid : forall d mean dev, wf dev -> In d (dnames dev) ->
  let n := length (labels_of (dims dev) d) in
  exists r, iid_results d mean dev = Ok r /\ r_mean r = mean /\ r_dof r = (Z.of_nat n - 1)%Z /\
    dims (r_standard_error r) = keep (fun x => negb (memb x [d])) (dims dev) /\
    forall e,
      (forall xs, along dev d e = map Fin xs -> (2 <= n)%nat ->
         get (r_standard_error r) e = Fin (sqrt (sample_variance xs / INR n)) /\
         (get (r_standard_error r) e = Fin 0 <-> ~ varying xs)) /\
      (In NaN (along dev d e) -> get (r_standard_error r) e = NaN).
Proof.
  intros d mean dev W I n. destruct (reduce_total iid_standard_error d dev I) as [se E]. exists (mkResults mean se (Z.of_nat n - 1)).
  unfold iid_results. rewrite size_of_total by auto. cbn [bind]. rewrite E. cbn [bind]. split; [reflexivity|]. split; [reflexivity|]. split; [reflexivity|].
  split; [now apply dims_reduce in E|]. cbn [r_standard_error]. intros e. rewrite (reduce_along _ _ _ _ e (proj1 W) E). split.
  - intros xs Ex Hn. assert (length xs = n) as Ln. { unfold n. rewrite <- (length_along dev d e), Ex, map_length. reflexivity. }
    unfold iid_standard_error. rewrite Ex, map_length, Ln, variance_Fin by lia.
    assert (0 < INR n) as P by (apply lt_0_INR; lia). rewrite vdiv_fin by lra.
    assert (0 <= sample_variance xs / INR n) as Q. { apply Rmult_le_pos; [apply sample_variance_nonneg; lia|left; now apply Rinv_0_lt_compat]. }
    rewrite vsqrt_Fin by auto. split; [reflexivity|]. split.
    + intros [= E0] V. apply sqrt_eq_0 in E0; auto. pose proof (sample_variance_pos xs ltac:(lia) V) as P2.
      assert (0 < sample_variance xs / INR n); [|lra]. apply Rmult_lt_0_compat; auto. now apply Rinv_0_lt_compat.
    + intros V. rewrite (sample_variance_zero xs V). unfold Rdiv. rewrite Rmult_0_l, sqrt_0. reflexivity.
  - intros H. unfold iid_standard_error, variance_estimate. rewrite (vsum_NaN (map vsq (along dev d e))); [reflexivity|].
    apply in_map_iff. exists NaN. auto.
Qed.
Print Assumptions C53_iid.

Theorem C53_missing_dimension : forall d mean dev dt v_0, ~ In d (dnames dev) ->
  iid_results d mean dev = Err KeyError /\ geer_results dt d mean dev = Err KeyError /\ hac_results v_0 dt d mean dev = Err KeyError.
Proof.
  intros d mean dev dt v_0 H. assert (size_of d dev = Err KeyError) as E.
  { unfold size_of. destruct (dget (dims dev) d) eqn:E; auto. apply dget_Some_keys in E. contradiction. }
  unfold iid_results, geer_results, hac_results. rewrite E. replace (memb d (dnames dev)) with false by (symmetry; now apply memb_false). repeat split.
Qed.

(** ** Geer's AR(2) correction *)
(** The lag-1 autocorrelation of a varying series lies strictly between -1 and 1. *)
Theorem C53_lag1_autocorrelation : forall xs, (2 <= length xs)%nat -> varying xs ->
  exists r1, autocorrelation_estimate 1 (map Fin xs) = Fin r1 /\ -1 < r1 < 1 /\ r1 = sum_lagged 1 xs / sum_squares xs.
Proof.
  intros xs H V. exists (autocorrelation 1 xs). split; [apply autocorrelation_Fin; auto; lia|].
  split; [now apply autocorrelation1_bound|now apply autocorrelation1_eq].
Qed.
Print Assumptions C53_lag1_autocorrelation.

(** The factor computed from the autocorrelations of an AR(2) process is the one computed from
    its coefficients. *)
Theorem C53_inflation_agrees : forall phi1 phi2, phi2 <> 1 ->
  let rho1 := phi1 / (1 - phi2) in let rho2 := phi2 + phi1 * phi1 / (1 - phi2) in
  rho1 * rho1 <> 1 ->
  inflation_factor_from_autocorrelation (Fin rho1) (Fin rho2) = inflation_factor_from_coeffs (Fin phi1) (Fin phi2).
Proof.
  intros phi1 phi2 N rho1 rho2 N1. unfold inflation_factor_from_autocorrelation, inflation_factor_from_coeffs.
  rewrite !vsq_Fin, !vsub_Fin, !vmul_Fin, !vdiv_fin by lra. fold rho1.
  change (vadd (Fin phi2) (Fin (phi1 * phi1 / (1 - phi2)))) with (Fin rho2).
  assert ((1 - phi2) * (1 - phi2) - phi1 * phi1 <> 0) as N2.
  { intros E. apply N1. unfold rho1. replace (phi1 / (1 - phi2) * (phi1 / (1 - phi2))) with (phi1 * phi1 / ((1 - phi2) * (1 - phi2))) by (field; lra). replace (phi1 * phi1) with ((1 - phi2) * (1 - phi2)) by lra. field. lra. }
  assert (rho1 * (1 - rho2) / (1 - rho1 * rho1) = phi1) as ->.
  { unfold rho1, rho2 in *. field. repeat split; try lra; intros E; apply N2; nra. }
  assert ((rho2 - rho1 * rho1) / (1 - rho1 * rho1) = phi2) as ->.
  { unfold rho1, rho2 in *. field. repeat split; try lra; intros E; apply N2; nra. }
  reflexivity.
Qed.
Print Assumptions C53_inflation_agrees.

(** ... and 1 for uncorrelated data. *)
Theorem C53_inflation_uncorrelated : inflation_factor_from_autocorrelation (Fin 0) (Fin 0) = Fin 1.
Proof.
  destruct (inflation_value 0 0) as [K _]; [lra|]. rewrite K by (unfold ar2_region; lra). f_equal. unfold ar2_inflation.
  replace ((1 + 0) * (1 + 0 - 2 * (0 * 0)) / ((1 - 0) * (1 - 0))) with 1 by field. apply sqrt_1.
Qed.

(** The corrected standard error: n-1 degrees of freedom; sqrt(variance/n) inflated if the
    estimated autocorrelations are those of a stationary AR(2) process, NaN otherwise; 0 for
    a constant series. *)
Theorem C53_geer : forall dt d mean dev, wf dev -> In d (dnames dev) ->
  let n := length (labels_of (dims dev) d) in
  check_uniform_step dt (labels_of (dims dev) d) = Ok tt ->
  exists r, geer_results dt d mean dev = Ok r /\ r_mean r = mean /\ r_dof r = (Z.of_nat n - 1)%Z /\
    dims (r_standard_error r) = keep (fun x => negb (memb x [d])) (dims dev) /\
    forall e,
      (forall xs, along dev d e = map Fin xs -> (3 <= n)%nat ->
         let r1 := autocorrelation 1 xs in let r2 := autocorrelation 2 xs in
         (varying xs -> ar2_region r1 r2 ->
            get (r_standard_error r) e = Fin (sqrt (sample_variance xs / INR n) * ar2_inflation r1 r2)) /\
         (varying xs -> ~ ar2_region r1 r2 -> get (r_standard_error r) e = NaN) /\
         (varying xs -> r1 = 0 -> r2 = 0 -> get (r_standard_error r) e = iid_standard_error (along dev d e)) /\
         (~ varying xs -> get (r_standard_error r) e = Fin 0)) /\
      (In NaN (along dev d e) -> get (r_standard_error r) e = NaN).
Proof.
  intros dt d mean dev W I n HC. destruct (reduce_total geer_standard_error d dev I) as [se E]. exists (mkResults mean se (Z.of_nat n - 1)).
  unfold geer_results. replace (memb d (dnames dev)) with true by (symmetry; now apply memb_In). rewrite HC. cbn [bind].
  rewrite size_of_total by auto. cbn [bind]. rewrite E. cbn [bind]. split; [reflexivity|]. split; [reflexivity|]. split; [reflexivity|].
  split; [now apply dims_reduce in E|]. cbn [r_standard_error]. intros e. rewrite (reduce_along _ _ _ _ e (proj1 W) E). split.
  - intros xs Ex Hn. assert (length xs = n) as Ln. { unfold n. rewrite <- (length_along dev d e), Ex, map_length. reflexivity. }
    unfold iid_standard_error, geer_standard_error. rewrite Ex, map_length, Ln, variance_Fin by lia.
    assert (0 < INR n) as P by (apply lt_0_INR; lia). rewrite vdiv_fin by lra.
    assert (0 <= sample_variance xs / INR n) as Q. { apply Rmult_le_pos; [apply sample_variance_nonneg; lia|left; now apply Rinv_0_lt_compat]. }
    rewrite vsqrt_Fin by auto.
    destruct (autocorrelation_Fin 1 xs) as [A1 B1]; [lia|lia|]. destruct (autocorrelation_Fin 2 xs) as [A2 B2]; [lia|lia|].
    cbv zeta. split; [|split; [|split]].
    + intros V A. rewrite A1, A2 by auto. rewrite (proj1 (inflation_value _ _ (autocorrelation1_bound xs ltac:(lia) V)) A). reflexivity.
    + intros V A. rewrite A1, A2 by auto. rewrite (proj2 (inflation_value _ _ (autocorrelation1_bound xs ltac:(lia) V)) A). reflexivity.
    + intros V E1 E2. rewrite A1, A2, E1, E2 by auto. rewrite C53_inflation_uncorrelated, vmul_Fin. f_equal. lra.
    + intros V. rewrite B1, B2 by auto. rewrite C53_inflation_uncorrelated, vmul_Fin, (sample_variance_zero xs V). f_equal.
      unfold Rdiv. rewrite Rmult_0_l, sqrt_0. lra.
  - intros H. unfold geer_standard_error, variance_estimate. rewrite (vsum_NaN (map vsq (along dev d e))); [reflexivity|].
    apply in_map_iff. exists NaN. auto.
Qed.
Print Assumptions C53_geer.

(** With two units there is no lag-2 autocorrelation: NaN unless the series is constant. *)
Theorem C53_geer_two_units : forall x y, varying [x; y] -> geer_standard_error [Fin x; Fin y] = NaN.
Proof.
  intros x y V. unfold geer_standard_error. change [Fin x; Fin y] with (map Fin [x; y]).
  assert (autocorrelation_estimate 2 (map Fin [x; y]) = NaN) as ->.
  { unfold autocorrelation_estimate. rewrite variance_Fin by (cbn; lia). pose proof (sample_variance_pos [x; y] ltac:(cbn; lia) V) as P.
    unfold veqb. replace (Reqb (sample_variance [x; y]) 0) with false by (symmetry; apply Reqb_false; lra). cbn.
    destruct (Req_EM_T 0 0); [|lra]. unfold rsign. destruct (Rlt_dec 0 0); [lra|]. reflexivity. }
  rewrite (proj1 (autocorrelation_Fin 1 [x; y] ltac:(cbn; lia) ltac:(cbn; lia)) V).
  assert (forall r, inflation_factor_from_autocorrelation (Fin r) NaN = NaN) as K by reflexivity. rewrite K. apply vmul_NaN_r.
Qed.

(** Two findings: the deviations -1, 0, 1 vary and yet get the standard error 0 (so that
    every other null value is rejected with p-value 0), and a varying series of 11 deviations
    with mean zero whose standard error is NaN. *)
Definition ex_short : list R := [-1; 0; 1].
Definition ex_long : list R := [4; 0; -7; 0; 9; 0; -9; 0; 7; 0; -4].
Theorem C53_geer_refuted :
  varying ex_short /\ rsum ex_short = 0 /\ geer_standard_error (map Fin ex_short) = Fin 0 /\
  varying ex_long /\ rsum ex_long = 0 /\ geer_standard_error (map Fin ex_long) = NaN.
Proof.
  assert (varying ex_short) as V1 by (exists (-1); split; [now left|lra]). assert (varying ex_long) as V2 by (exists 4; split; [now left|lra]).
  split; [exact V1|]. split; [unfold ex_short, rsum; cbn; lra|]. split.
  { unfold geer_standard_error. rewrite (proj1 (autocorrelation_Fin 1 ex_short ltac:(cbn; lia) ltac:(cbn; lia)) V1), (proj1 (autocorrelation_Fin 2 ex_short ltac:(cbn; lia) ltac:(cbn; lia)) V1).
    assert (autocorrelation 1 ex_short = 0) as -> by (unfold autocorrelation, sum_lagged, sample_variance, sum_squares, ex_short, rsum; cbn; field).
    assert (autocorrelation 2 ex_short = -1) as -> by (unfold autocorrelation, sum_lagged, sample_variance, sum_squares, ex_short, rsum; cbn; field).
    rewrite variance_Fin by (cbn; lia). rewrite (proj1 (inflation_value 0 (-1) ltac:(lra))) by (unfold ar2_region; lra).
    assert (ar2_inflation 0 (-1) = 0) as ->. { unfold ar2_inflation. replace ((1 + 0) * (1 + -1 - 2 * (0 * 0)) / ((1 - 0) * (1 - -1))) with 0 by field. apply sqrt_0. }
    assert (sample_variance ex_short = 1) as -> by (unfold sample_variance, sum_squares, ex_short, rsum; cbn; field).
    rewrite vdiv_fin by (cbn; lra). rewrite vsqrt_Fin by (cbn; lra). rewrite vmul_Fin. f_equal. lra. }
  split; [exact V2|]. split; [unfold ex_long, rsum; cbn; lra|].
  unfold geer_standard_error. rewrite (proj1 (autocorrelation_Fin 1 ex_long ltac:(cbn; lia) ltac:(cbn; lia)) V2), (proj1 (autocorrelation_Fin 2 ex_long ltac:(cbn; lia) ltac:(cbn; lia)) V2).
  assert (autocorrelation 1 ex_long = 0) as -> by (unfold autocorrelation, sum_lagged, sample_variance, sum_squares, ex_long, rsum; cbn; field).
  assert (autocorrelation 2 ex_long = - (2630 / 2628)) as -> by (unfold autocorrelation, sum_lagged, sample_variance, sum_squares, ex_long, rsum; cbn; field).
  rewrite (proj2 (inflation_value 0 (- (2630 / 2628)) ltac:(lra))) by (unfold ar2_region; lra). apply vmul_NaN_r.
Qed.
Print Assumptions C53_geer_refuted.

(** ** The HAC test *)
(** The number of projections, which is also the number of degrees of freedom. *)
Theorem C53_hac_dof : forall v_0 n, (2 <= n)%nat -> (1 <= hac_dof v_0 n <= Z.of_nat n - 1)%Z.
Proof. intros v_0 n H. unfold hac_dof. lia. Qed.
(** It is the integer part of v_0 n^(2/3) whenever that is between 1 and n-1. *)
Theorem C53_hac_dof_value : forall v_0 n v, (2 <= n)%nat -> (1 <= v <= Z.of_nat n - 1)%Z ->
  IZR v <= v_0 * Rpower (INR n) (2 / 3) < IZR v + 1 -> hac_dof v_0 n = v.
Proof.
  intros v_0 [|n] v H Hv B; [lia|]. unfold hac_dof, pow_two_thirds, int_of. set (x := v_0 * Rpower (INR (S n)) (2 / 3)) in *.
  assert (1 <= IZR v) as P by (apply (IZR_le 1); lia). replace (Rltb x 0) with false by (symmetry; apply Rltb_false; lra).
  assert (Int_part x = v) as ->; [|lia]. unfold Int_part. assert (up x = (v + 1)%Z) as ->; [|lia].
  symmetry. apply tech_up; rewrite plus_IZR; lra.
Qed.
(** The clamps: v_0 large gives n-1, v_0 small (or negative) gives 1. *)
Theorem C53_hac_dof_clamped : forall v_0 n, (2 <= n)%nat ->
  (INR n - 1 <= v_0 * Rpower (INR n) (2 / 3) -> hac_dof v_0 n = (Z.of_nat n - 1)%Z) /\
  (v_0 * Rpower (INR n) (2 / 3) < 2 -> hac_dof v_0 n = 1%Z).
Proof.
  intros v_0 [|n] H; [lia|]. unfold hac_dof, pow_two_thirds, int_of. set (x := v_0 * Rpower (INR (S n)) (2 / 3)).
  destruct (base_Int_part x) as [B1 B2]. destruct (base_Int_part (- x)) as [B3 B4]. split; intros C.
  - assert (1 <= x) as P. { apply (le_INR 2) in H. change (INR 2) with (1 + 1) in H. lra. }
    replace (Rltb x 0) with false by (symmetry; apply Rltb_false; lra).
    assert (Z.of_nat (S n) - 1 <= Int_part x)%Z; [|lia].
    apply Zlt_succ_le. apply lt_IZR. unfold Z.succ. rewrite minus_IZR, plus_IZR, <- INR_IZR_INZ. lra.
  - destruct (Rltb x 0) eqn:E.
    + apply Rltb_true in E. assert (- Int_part (- x) < 1)%Z; [|lia]. apply lt_IZR. rewrite opp_IZR. lra.
    + apply Rltb_false in E. assert (Int_part x < 2)%Z; [|lia]. apply lt_IZR. lra.
Qed.
Print Assumptions C53_hac_dof_value.

(** The standard error: from the energy of the series in its [v] lowest nonzero frequencies;
    bounded by the classic one times sqrt((n-1)/v), and equal to it for [v = n-1]. *)
Theorem C53_hac : forall v_0 dt d mean dev, wf dev -> In d (dnames dev) ->
  let n := length (labels_of (dims dev) d) in
  check_uniform_step dt (labels_of (dims dev) d) = Ok tt -> (2 <= n)%nat ->
  exists r v, hac_results v_0 dt d mean dev = Ok r /\ r_mean r = mean /\
    v = Z.to_nat (hac_dof v_0 n) /\ r_dof r = Z.of_nat v /\ (1 <= v <= n - 1)%nat /\
    dims (r_standard_error r) = keep (fun x => negb (memb x [d])) (dims dev) /\
    forall e xs, along dev d e = map Fin xs ->
      exists s, get (r_standard_error r) e = Fin s /\ 0 <= s /\
        s * s = rsum (map (fun k => 2 / INR n * (rsum (map (fun j => cos (PI * INR k * (2 * INR j + 1) / (2 * INR n)) * nth j xs 0) (seq 0 n))) ^ 2) (seq 1 v)) / INR v / INR n /\
        s * s <= sample_variance xs / INR n * ((INR n - 1) / INR v) /\
        (v = (n - 1)%nat -> rsum xs = 0 -> Fin s = iid_standard_error (along dev d e)).
Proof.
  intros v_0 dt d mean dev W I n HC Hn. pose proof (C53_hac_dof v_0 n Hn) as Hv. set (v := Z.to_nat (hac_dof v_0 n)).
  assert (Z.of_nat v = hac_dof v_0 n) as Ev by (unfold v; lia).
  destruct (reduce_total (hac_standard_error (hac_dof v_0 n)) d dev I) as [se E]. exists (mkResults mean se (hac_dof v_0 n)), v.
  unfold hac_results. rewrite size_of_total by auto. cbn [bind]. rewrite HC. cbn [bind]. fold n. rewrite E. cbn [bind].
  split; [reflexivity|]. split; [reflexivity|]. split; [reflexivity|]. split; [now rewrite Ev|]. split; [lia|]. split; [now apply dims_reduce in E|].
  intros e xs Ex. cbn [r_standard_error]. rewrite (reduce_along _ _ _ _ e (proj1 W) E). 
  assert (length xs = n) as Ln. { unfold n. rewrite <- (length_along dev d e), Ex, map_length. reflexivity. }
  assert (0 < INR n) as P by (apply lt_0_INR; lia). assert (0 < INR v) as Pv by (apply lt_0_INR; lia).
  unfold hac_standard_error, iid_standard_error. rewrite Ex, <- Ev, long_run_variance_Fin, map_length, Ln by lia. rewrite vdiv_fin by lra.
  destruct (energy_split v xs) as [Q1 Q2]; [lia|lia|]. rewrite Ln in Q1, Q2.
  set (en := rsum (map (fun k => 2 / INR n * (projection xs k * projection xs k)) (seq 1 v))) in *.
  assert (0 <= en / INR v / INR n) as Q. { apply Rmult_le_pos; [apply Rmult_le_pos; auto|]; left; now apply Rinv_0_lt_compat. }
  rewrite vsqrt_Fin by auto. eexists. split; [reflexivity|]. split; [apply sqrt_pos|]. rewrite sqrt_sqrt by auto. split; [|split].
  - f_equal. f_equal. unfold en. apply rsum_eq. intros k _. unfold projection, dct_basis. rewrite Ln. cbn [pow]. f_equal. ring.
  - unfold sample_variance. rewrite Ln. apply INR_minus1 in Hn.
    replace (sum_squares xs / (INR n - 1) / INR n * ((INR n - 1) / INR v)) with (sum_squares xs / INR v / INR n) by (field; lra).
    unfold Rdiv. apply Rmult_le_compat_r; [left; now apply Rinv_0_lt_compat|]. apply Rmult_le_compat_r; [left; now apply Rinv_0_lt_compat|]. exact Q2.
  - intros Hfull H0. rewrite variance_Fin by lia. rewrite vdiv_fin by lra. rewrite vsqrt_Fin.
    + f_equal. f_equal. f_equal. unfold sample_variance. rewrite Ln. unfold en. rewrite Hfull. pose proof (parseval xs ltac:(lia)) as Pa. rewrite Ln, H0 in Pa. rewrite Pa.
      rewrite minus_INR by lia. cbn [INR]. f_equal. unfold Rdiv. rewrite Rmult_0_l. lra.
    + apply Rmult_le_pos; [apply sample_variance_nonneg; lia|left; now apply Rinv_0_lt_compat].
Qed.
Print Assumptions C53_hac.

(** With a single unit there are no degrees of freedom and no standard error. *)
Theorem C53_hac_one_unit : forall v_0 x, hac_dof v_0 1 = 0%Z /\ hac_standard_error (hac_dof v_0 1) [x] = NaN.
Proof.
  intros v_0 x. assert (hac_dof v_0 1 = 0%Z) as E by (unfold hac_dof; lia). split; [exact E|]. rewrite E. unfold hac_standard_error, long_run_variance.
  cbn. destruct (Req_EM_T 0 0); [|lra]. unfold rsign. destruct (Rlt_dec 0 0); [lra|]. reflexivity.
Qed.

(** ** Uniform steps *)
Lemma forallb_eq_first a l : forallb (qc_eqb a) l = true <-> forall x, In x l -> x = a.
Proof.
  rewrite forallb_forall. unfold qc_eqb. split; intros H x I; specialize (H x I).
  - destruct (Qc_eq_dec a x); [auto|discriminate]. - subst. destruct (Qc_eq_dec a a); congruence.
Qed.
Lemma inject_inj z : forall w, Q2Qc (inject_Z z) = Q2Qc (inject_Z w) -> z = w.
Proof. intros w H. apply Q2Qc_eq_iff in H. unfold Qeq in H. cbn in H. lia. Qed.
Lemma inject_sub z w : (Q2Qc (inject_Z z) - Q2Qc (inject_Z w))%Qc = Q2Qc (inject_Z (z - w)).
Proof.
  apply Qc_is_canon. unfold Qcminus, Qcplus, Qcopp. cbn [this Q2Qc]. rewrite !Qred_correct. unfold Qeq, inject_Z. cbn. lia.
Qed.
Fixpoint zdiffs (l : list Z) : list Z := match l with x :: ((y :: _) as l') => (y - x)%Z :: zdiffs l' | _ => [] end.
Lemma diffs_Z zs : diffs (map label_number (map LZ zs)) = map (fun z => Q2Qc (inject_Z z)) (zdiffs zs).
Proof.
  induction zs as [|x zs IH]; [reflexivity|]. destruct zs as [|y zs]; [reflexivity|].
  change (diffs (map label_number (map LZ (x :: y :: zs)))) with ((Q2Qc (inject_Z y) - Q2Qc (inject_Z x))%Qc :: diffs (map label_number (map LZ (y :: zs)))).
  rewrite IH, inject_sub. reflexivity.
Qed.
Lemma nth_zdiffs zs i : (S i < length zs)%nat -> nth i (zdiffs zs) 0%Z = (nth (S i) zs 0 - nth i zs 0)%Z.
Proof.
  revert i. induction zs as [|x zs IH]; intros i H; [cbn in H; lia|]. destruct zs as [|y zs]; [cbn in H; lia|].
  destruct i as [|i]; [reflexivity|]. change (nth (S i) (zdiffs (x :: y :: zs)) 0%Z) with (nth i (zdiffs (y :: zs)) 0%Z). rewrite IH by (cbn in *; lia). reflexivity.
Qed.
Lemma length_zdiffs zs : length (zdiffs zs) = (length zs - 1)%nat.
Proof. induction zs as [|x zs IH]; [reflexivity|]. destruct zs as [|y zs]; [reflexivity|]. change (length (zdiffs (x :: y :: zs))) with (S (length (zdiffs (y :: zs)))). rewrite IH. cbn. lia. Qed.

(** Integer coordinates (and time deltas) pass iff they are an arithmetic progression. *)
Theorem C53_uniform_integers : forall zs, (2 <= length zs)%nat ->
  (check_uniform_step Integers (map LZ zs) = Ok tt <->
   exists step, forall i, (S i < length zs)%nat -> nth (S i) zs 0%Z = (nth i zs 0 + step)%Z) /\
  (check_uniform_step Integers (map LZ zs) <> Ok tt -> check_uniform_step Integers (map LZ zs) = Err ValueError).
Proof.
  intros zs H. unfold check_uniform_step, check_constant. rewrite diffs_Z. pose proof (length_zdiffs zs) as L.
  destruct (zdiffs zs) as [|a ds] eqn:E; [cbn in L; lia|]. cbn [map].
  change (Q2Qc (inject_Z a) :: map (fun z => Q2Qc (inject_Z z)) ds) with (map (fun z => Q2Qc (inject_Z z)) (a :: ds)).
  destruct (forallb (qc_eqb (Q2Qc (inject_Z a))) (map (fun z => Q2Qc (inject_Z z)) (a :: ds))) eqn:F.
  - split; [|intros C; now destruct C]. split; auto. intros _. exists a. intros i Hi. pose proof (nth_zdiffs zs i Hi) as D.
    assert (Q2Qc (inject_Z (nth i (zdiffs zs) 0%Z)) = Q2Qc (inject_Z a)) as G.
    { apply (proj1 (forallb_eq_first _ _) F). apply (in_map (fun z => Q2Qc (inject_Z z))). rewrite E. apply nth_In. rewrite L. lia. }
    apply inject_inj in G. lia.
  - split; [|auto]. split; [discriminate|]. intros [step K]. exfalso. rewrite <- not_true_iff_false in F. apply F. apply forallb_eq_first.
    intros x Hx. apply in_map_iff in Hx. destruct Hx as (z & <- & Iz). f_equal. f_equal.
    assert (forall w, In w (a :: ds) -> w = step) as G.
    { intros w Iw. apply (In_nth _ _ 0%Z) in Iw. destruct Iw as (i & Hi & <-). rewrite L in Hi. rewrite <- E. rewrite nth_zdiffs by lia. rewrite K by lia. lia. }
    rewrite (G z Iz). symmetry. apply G. now left.
Qed.
Print Assumptions C53_uniform_integers.

(** Finding: steps of datetime coordinates (initialisation times) are not checked at all, and
    a single unit with a numeric coordinate fails with an IndexError. *)
Theorem C53_uniform_datetimes_refuted : forall ls, check_uniform_step NotANumber ls = Ok tt.
Proof. reflexivity. Qed.
Theorem C53_uniform_one_unit : forall l, check_uniform_step Integers [l] = Err IndexError.
Proof. reflexivity. Qed.

(** ** A concrete case *)
Definition ex_dev : da := mkDa [("t"%string, [LZ 0; LZ 6; LZ 12])]
  (fun e => match e "t"%string with LZ 0 => Fin 2 | LZ 6 => Fin (-1) | _ => Fin (-1) end) [].
Example C53_example : wf ex_dev /\ In "t"%string (dnames ex_dev) /\ check_uniform_step Integers (labels_of (dims ex_dev) "t") = Ok tt /\
  along ex_dev "t" env0 = map Fin [2; -1; -1] /\ varying [2; -1; -1] /\ rsum [2; -1; -1] = 0 /\
  ar2_region (autocorrelation 1 [2; -1; -1]) (autocorrelation 2 [2; -1; -1]) /\
  (forall v_0, 2 <= v_0 * Rpower 3 (2 / 3) -> hac_dof v_0 3 = 2%Z).
Proof.
  split; [|split; [|split; [|split; [|split; [|split; [|split]]]]]].
  - split; [|split].
    + cbn. constructor; [intros []|constructor].
    + intros d ls [[= <- <-]|[]]. constructor; [intros [X|[X|[]]]; discriminate|]. constructor; [intros [X|[]]; discriminate|]. constructor; [intros []|constructor].
    + intros e e' H. cbn. now rewrite (H "t"%string (or_introl eq_refl)).
  - now left.
  - vm_compute. reflexivity.
  - reflexivity.
  - exists 2. split; [now left|lra].
  - unfold rsum. cbn. lra.
  - unfold ar2_region, autocorrelation, sum_lagged, sample_variance, sum_squares, rsum. cbn. lra.
  - intros v_0 H. apply (C53_hac_dof_clamped v_0 3); [lia|]. cbn [INR]. replace (1 + 1 + 1) with 3 by lra. lra.
Qed.
