(** C50 (t-tests) and C53: intervals, p-values, standard errors and degrees of freedom of the
    t-tests. *)
From Coq Require Import String ZArith List Bool Reals Lra Lia QArith Qcanon.
Import ListNotations.
From Verif Require Import Prelude Values Model_XArray Spec_XArray Proofs_XArray Model_Deterministic Model_Ensemble
  Spec_Reduce Proofs_Ensemble2 Model_TTest Spec_TTest Proofs_TTest.
Local Open Scope R_scope.
Local Open Scope list_scope.

(** ** C50: intervals and p-values *)
Section Law.
  Variable cdf quantile : Z -> R -> R.
  Hypothesis law : t_law cdf quantile.

  Lemma cdf_le df x y : (0 < df)%Z -> x <= y <-> cdf df x <= cdf df y.
  Proof.
    intros H. destruct (law df H) as (M & _). split.
    - intros [L|L]; [left; auto|right; now rewrite L].
    - intros L. destruct (Rle_dec x y) as [G|G]; auto. assert (y < x) as G' by lra. specialize (M _ _ G'). lra.
  Qed.
  Lemma cdf_zero df : (0 < df)%Z -> cdf df 0 = 1 / 2.
  Proof. intros H. destruct (law df H) as (_ & S & _). specialize (S 0). rewrite Ropp_0 in S. lra. Qed.
  Lemma cdf_inj df x y : (0 < df)%Z -> cdf df x = cdf df y -> x = y.
  Proof. intros H E. apply Rle_antisym; apply (cdf_le df); auto; lra. Qed.
  Lemma quantile_opp df q : (0 < df)%Z -> 0 < q < 1 -> - quantile df q = quantile df (1 - q).
  Proof.
    intros H Hq. destruct (law df H) as (_ & S & _ & I). apply (cdf_inj df); auto. rewrite S, !I by lra. reflexivity.
  Qed.
  Lemma quantile_le df p q : (0 < df)%Z -> 0 < p < 1 -> 0 < q < 1 -> p <= q -> quantile df p <= quantile df q.
  Proof. intros H Hp Hq L. destruct (law df H) as (_ & _ & _ & I). apply (cdf_le df); auto. now rewrite !I. Qed.
  Lemma quantile_sign df q : (0 < df)%Z -> 0 < q <= 1 / 2 -> quantile df q <= 0.
  Proof. intros H Hq. destruct (law df H) as (_ & _ & _ & I). apply (cdf_le df); auto. rewrite I, cdf_zero by (auto; lra). lra. Qed.

  Lemma t_ppf_value df q : (0 < df)%Z -> 0 < q < 1 -> t_ppf quantile df q = Fin (quantile df q).
  Proof.
    intros H Hq. unfold t_ppf. destruct (Z.leb_spec df 0); [lia|].
    replace (Rltb q 0) with false by (symmetry; apply Rltb_false; lra). replace (Rltb 1 q) with false by (symmetry; apply Rltb_false; lra).
    replace (Reqb q 0) with false by (symmetry; apply Reqb_false; lra). replace (Reqb q 1) with false by (symmetry; apply Reqb_false; lra). reflexivity.
  Qed.
  Definition margin (df : Z) (alpha : R) : R := quantile df (1 - alpha / 2).
  Lemma interval_value df alpha m s : (0 < df)%Z -> 0 < alpha < 2 ->
    ci_lower_val quantile df alpha (Fin m) (Fin s) = Fin (m - s * margin df alpha) /\
    ci_upper_val quantile df alpha (Fin m) (Fin s) = Fin (m + s * margin df alpha).
  Proof.
    intros H Ha. unfold ci_lower_val, ci_upper_val. rewrite t_ppf_value by (auto; lra). cbn. rewrite quantile_opp by (auto; lra). split; reflexivity.
  Qed.
  Lemma margin_nonneg df alpha : (0 < df)%Z -> 0 < alpha <= 1 -> 0 <= margin df alpha.
  Proof. intros H Ha. unfold margin. rewrite <- quantile_opp by (auto; lra). pose proof (quantile_sign df (alpha / 2) H). lra. Qed.

  (** Where the estimate is a number with a number as standard error, the interval is an
      interval around it. *)
  Theorem C50_t_interval : forall r alpha e m s, (0 < r_dof r)%Z -> 0 < alpha <= 1 ->
    get (r_mean r) e = Fin m -> get (r_standard_error r) e = Fin s -> 0 <= s ->
    exists l u, get (ci_lower quantile alpha r) e = Fin l /\ get (ci_upper quantile alpha r) e = Fin u /\
      l <= m <= u /\ m - l = u - m.
  Proof.
    intros r alpha e m s D Ha Em Es Hs. unfold ci_lower, ci_upper. cbn [get binop]. rewrite Em, Es.
    destruct (interval_value (r_dof r) alpha m s D) as [El Eu]; [lra|]. rewrite El, Eu. do 2 eexists. split; [reflexivity|]. split; [reflexivity|].
    pose proof (margin_nonneg _ _ D Ha) as P. assert (0 <= s * margin (r_dof r) alpha) by (now apply Rmult_le_pos). lra.
  Qed.

  (** A smaller alpha gives an interval that contains the other. *)
  Theorem C50_t_nested : forall r alpha alpha' e m s l u l' u', (0 < r_dof r)%Z -> 0 < alpha' <= alpha -> alpha <= 1 ->
    get (r_mean r) e = Fin m -> get (r_standard_error r) e = Fin s -> 0 <= s ->
    get (ci_lower quantile alpha r) e = Fin l -> get (ci_upper quantile alpha r) e = Fin u ->
    get (ci_lower quantile alpha' r) e = Fin l' -> get (ci_upper quantile alpha' r) e = Fin u' ->
    l' <= l /\ u <= u'.
  Proof.
    intros r alpha alpha' e m s l u l' u' D Ha Ha1 Em Es Hs. unfold ci_lower, ci_upper. cbn [get binop]. rewrite Em, Es.
    destruct (interval_value (r_dof r) alpha m s D) as [-> ->]; [lra|]. destruct (interval_value (r_dof r) alpha' m s D) as [-> ->]; [lra|].
    intros [= <-] [= <-] [= <-] [= <-].
    assert (margin (r_dof r) alpha <= margin (r_dof r) alpha') as P by (apply quantile_le; auto; lra).
    assert (s * margin (r_dof r) alpha <= s * margin (r_dof r) alpha') by (now apply Rmult_le_compat_l). lra.
  Qed.

  Lemma p_value_pos df null m s : (0 < df)%Z -> 0 < s ->
    p_value_val cdf df null (Fin m) (Fin s) = Fin (2 * (1 - cdf df (Rabs (m - null) / s))).
  Proof.
    intros H Hs. unfold p_value_val. rewrite vsub_Fin. unfold veqb. replace (Reqb s 0) with false by (symmetry; apply Reqb_false; lra).
    rewrite andb_false_r, vdiv_fin by lra. unfold vabs, t_cdf_val. destruct (Z.leb_spec df 0); [lia|]. rewrite vsub_Fin, vmul_Fin.
    unfold Rdiv. rewrite Rabs_mult. rewrite (Rabs_right (/ s)) by (left; now apply Rinv_0_lt_compat). reflexivity.
  Qed.

  (** p-values are probabilities. *)
  Theorem C50_t_p_range : forall r null_value e m s, (0 < r_dof r)%Z ->
    get (r_mean r) e = Fin m -> get (r_standard_error r) e = Fin s -> 0 <= s ->
    exists p, get (p_value cdf null_value r) e = Fin p /\ 0 <= p <= 1.
  Proof.
    intros r null e m s D Em Es Hs. unfold p_value. cbn [get binop]. rewrite Em, Es. destruct Hs as [Hs|<-].
    - rewrite p_value_pos by auto. eexists. split; [reflexivity|]. destruct (law _ D) as (_ & _ & B & _). specialize (B (Rabs (m - null) / s)).
      assert (cdf (r_dof r) 0 <= cdf (r_dof r) (Rabs (m - null) / s)) as P.
      { apply cdf_le; auto. apply Rmult_le_pos; [apply Rabs_pos|]. left. now apply Rinv_0_lt_compat. }
      rewrite cdf_zero in P by auto. lra.
    - unfold p_value_val. rewrite vsub_Fin. unfold veqb. replace (Reqb 0 0) with true by (symmetry; now apply Reqb_true).
      rewrite andb_true_r. destruct (Reqb (m - null) 0) eqn:E.
      + unfold vabs, t_cdf_val. destruct (Z.leb_spec (r_dof r) 0); [lia|]. rewrite Rabs_R0, cdf_zero by auto. cbn. eexists. split; [reflexivity|]. lra.
      + apply Reqb_false in E. unfold vdiv. destruct (Req_EM_T 0 0); [|lra]. unfold rsign.
        destruct (Rlt_dec 0 (m - null)); [|destruct (Rlt_dec (m - null) 0); [|lra]]; cbn [vinf vabs]; unfold t_cdf_val;
        (destruct (Z.leb_spec (r_dof r) 0); [lia|]); cbn; eexists; (split; [reflexivity|lra]).
  Qed.

  (** Test and interval agree exactly: a null value is rejected at level alpha iff it is not
      strictly inside the 1-alpha interval. *)
  Theorem C50_t_duality : forall r alpha null_value e m s l u, (0 < r_dof r)%Z -> 0 < alpha <= 1 ->
    get (r_mean r) e = Fin m -> get (r_standard_error r) e = Fin s -> 0 < s ->
    get (ci_lower quantile alpha r) e = Fin l -> get (ci_upper quantile alpha r) e = Fin u ->
    (get (significance cdf alpha null_value r) e = Fin 1 <-> null_value <= l \/ u <= null_value) /\
    (get (significance cdf alpha null_value r) e = Fin 0 <-> l < null_value < u).
  Proof.
    intros r alpha null e m s l u D Ha Em Es Hs. unfold significance, p_value, ci_lower, ci_upper. cbn [get binop da_map]. rewrite Em, Es.
    destruct (interval_value (r_dof r) alpha m s D) as [-> ->]; [lra|]. intros [= <-] [= <-]. rewrite p_value_pos by auto.
    set (x := Rabs (m - null) / s). destruct (law _ D) as (_ & _ & _ & I).
    assert (2 * (1 - cdf (r_dof r) x) <= alpha <-> margin (r_dof r) alpha <= x) as K.
    { rewrite (cdf_le (r_dof r) (margin (r_dof r) alpha) x) by auto. unfold margin. rewrite I by lra. lra. }
    assert (margin (r_dof r) alpha <= x <-> s * margin (r_dof r) alpha <= Rabs (m - null)) as K2.
    { unfold x. split; intros H.
      - apply (Rmult_le_compat_l s) in H; [|lra]. replace (s * (Rabs (m - null) / s)) with (Rabs (m - null)) in H by (field; lra). exact H.
      - apply Rmult_le_reg_l with s; auto. replace (s * (Rabs (m - null) / s)) with (Rabs (m - null)) by (field; lra). exact H. }
    set (t := s * margin (r_dof r) alpha) in *.
    assert (0 <= t) as Pt by (unfold t; apply Rmult_le_pos; [lra|now apply margin_nonneg]).
    assert (t <= Rabs (m - null) <-> null <= m - t \/ m + t <= null) as K3.
    { unfold Rabs. destruct (Rcase_abs (m - null)); split; intros H; try lra. }
    assert (forall p, vleb (Fin p) (Fin alpha) = true <-> p <= alpha) as K4.
    { intros p. unfold vleb. cbn. rewrite orb_true_iff, Rltb_true, Reqb_true. split; [intros [?|?]; lra|intros; lra]. }
    destruct (vleb _ _) eqn:E.
    - apply K4 in E. unfold b2v. split; split; intros H; auto.
      + tauto.
      + exfalso. injection H as H. lra.
      + exfalso. apply K, K2, K3 in E. lra.
    - assert (~ (2 * (1 - cdf (r_dof r) x) <= alpha)) as E' by (intros H; apply K4 in H; congruence).
      unfold b2v. split; split; intros H; auto.
      + exfalso. injection H as H. lra.
      + exfalso. tauto.
      + destruct (Rlt_dec (m - t) null); [|exfalso; apply E'; apply K, K2, K3; lra].
        destruct (Rlt_dec null (m + t)); [|exfalso; apply E'; apply K, K2, K3; lra]. lra.
  Qed.

  (** Without any variation the interval is the estimate itself, the p-value of that value is 1
      and that of any other value is 0. *)
  Theorem C50_t_no_variation : forall r alpha null_value e m, (0 < r_dof r)%Z -> 0 < alpha <= 1 ->
    get (r_mean r) e = Fin m -> get (r_standard_error r) e = Fin 0 ->
    get (ci_lower quantile alpha r) e = Fin m /\ get (ci_upper quantile alpha r) e = Fin m /\
    get (p_value cdf null_value r) e = Fin (if Req_EM_T m null_value then 1 else 0).
  Proof.
    intros r alpha null e m D Ha Em Es. unfold p_value, ci_lower, ci_upper. cbn [get binop]. rewrite Em, Es.
    destruct (interval_value (r_dof r) alpha m 0 D) as [-> ->]; [lra|]. split; [f_equal; lra|]. split; [f_equal; lra|].
    unfold p_value_val. rewrite vsub_Fin. unfold veqb. replace (Reqb 0 0) with true by (symmetry; now apply Reqb_true). rewrite andb_true_r.
    destruct (Req_EM_T m null) as [->|N].
    - replace (Reqb (null - null) 0) with true by (symmetry; apply Reqb_true; lra). unfold vabs, t_cdf_val.
      destruct (Z.leb_spec (r_dof r) 0); [lia|]. rewrite Rabs_R0, cdf_zero by auto. cbn. f_equal. lra.
    - replace (Reqb (m - null) 0) with false by (symmetry; apply Reqb_false; lra). unfold vdiv. destruct (Req_EM_T 0 0); [|lra]. unfold rsign.
      destruct (Rlt_dec 0 (m - null)); [|destruct (Rlt_dec (m - null) 0); [|lra]]; cbn [vinf vabs]; unfold t_cdf_val;
        (destruct (Z.leb_spec (r_dof r) 0); [lia|]); cbn; f_equal; lra.
  Qed.

  (** Missing estimates or standard errors, or no degrees of freedom: everything is NaN and
      nothing is significant. *)
  Theorem C50_t_missing : forall r alpha null_value e, 
    get (r_mean r) e = NaN \/ get (r_standard_error r) e = NaN \/ ((r_dof r <= 0)%Z) ->
    get (ci_lower quantile alpha r) e = NaN /\ get (ci_upper quantile alpha r) e = NaN /\
    get (p_value cdf null_value r) e = NaN /\ get (significance cdf alpha null_value r) e = Fin 0.
  Proof.
    intros r alpha null e H. unfold significance, p_value, ci_lower, ci_upper. cbn [get binop da_map].
    assert (ci_lower_val quantile (r_dof r) alpha (get (r_mean r) e) (get (r_standard_error r) e) = NaN) as L.
    { unfold ci_lower_val. destruct H as [H|[H|H]].
      - now rewrite H. - rewrite H. rewrite vmul_NaN_l. destruct (get (r_mean r) e); reflexivity.
      - unfold t_ppf. destruct (Z.leb_spec (r_dof r) 0); [|lia]. cbn [vneg]. rewrite vmul_NaN_r. destruct (get (r_mean r) e); reflexivity. }
    assert (ci_upper_val quantile (r_dof r) alpha (get (r_mean r) e) (get (r_standard_error r) e) = NaN) as U.
    { unfold ci_upper_val. destruct H as [H|[H|H]].
      - now rewrite H. - rewrite H. rewrite vmul_NaN_l. destruct (get (r_mean r) e); reflexivity.
      - unfold t_ppf. destruct (Z.leb_spec (r_dof r) 0); [|lia]. cbn [vneg]. rewrite vmul_NaN_r. destruct (get (r_mean r) e); reflexivity. }
    assert (p_value_val cdf (r_dof r) null (get (r_mean r) e) (get (r_standard_error r) e) = NaN) as P.
    { unfold p_value_val. destruct H as [H|[H|H]].
      - rewrite H. cbn. unfold t_cdf_val. destruct (r_dof r <=? 0)%Z; reflexivity.
      - rewrite H. replace (veqb NaN (Fin 0)) with false by reflexivity. rewrite andb_false_r.
        assert (forall x, vdiv x NaN = NaN) as K by (intros [| | |]; reflexivity). rewrite K. cbn. unfold t_cdf_val. destruct (r_dof r <=? 0)%Z; reflexivity.
      - unfold t_cdf_val. destruct (Z.leb_spec (r_dof r) 0); [|lia]. reflexivity. }
    rewrite L, U, P. repeat split; reflexivity.
  Qed.

  (** alpha above 1 is not rejected: the returned interval is upside down. *)
  Theorem C50_t_large_alpha_refuted : forall r alpha e m s, (0 < r_dof r)%Z -> 1 < alpha < 2 ->
    get (r_mean r) e = Fin m -> get (r_standard_error r) e = Fin s -> 0 < s ->
    exists l u, get (ci_lower quantile alpha r) e = Fin l /\ get (ci_upper quantile alpha r) e = Fin u /\ u < l.
  Proof.
    intros r alpha e m s D Ha Em Es Hs. unfold ci_lower, ci_upper. cbn [get binop]. rewrite Em, Es.
    destruct (interval_value (r_dof r) alpha m s D) as [El Eu]; [lra|]. rewrite El, Eu. do 2 eexists. split; [reflexivity|]. split; [reflexivity|].
    assert (margin (r_dof r) alpha < 0) as P.
    { unfold margin. destruct (law _ D) as (M & _ & _ & I). destruct (Rlt_dec (quantile (r_dof r) (1 - alpha / 2)) 0); auto.
      assert (0 <= quantile (r_dof r) (1 - alpha / 2)) as G by lra. rewrite (cdf_le (r_dof r)) in G by auto. rewrite I, cdf_zero in G by (auto; lra). lra. }
    nra.
  Qed.
End Law.
Print Assumptions C50_t_interval.
Print Assumptions C50_t_duality.
Print Assumptions C50_t_missing.

(** The law is satisfiable: with one degree of freedom the t distribution is Cauchy's. *)
Definition cauchy_cdf (df : Z) (x : R) : R := 1 / 2 + atan x / PI.
Definition cauchy_quantile (df : Z) (q : R) : R := tan (PI * (q - 1 / 2)).
Example C50_t_law_example : t_law cauchy_cdf cauchy_quantile.
Proof.
  intros df _. pose proof PI_RGT_0 as P. assert (0 < / PI) as P' by (now apply Rinv_0_lt_compat). unfold cauchy_cdf, cauchy_quantile. split; [|split; [|split]].
  - intros x y H. apply atan_increasing in H. assert (atan x / PI < atan y / PI); [|lra]. now apply Rmult_lt_compat_r.
  - intros x. rewrite atan_opp. field. lra.
  - intros x. destruct (atan_bound x) as [B1 B2].
    assert (- (1 / 2) < atan x / PI < 1 / 2); [|lra]. split; apply Rmult_lt_reg_r with PI; auto; unfold Rdiv; rewrite Rmult_assoc, Rinv_l by lra; lra.
  - intros q Hq. rewrite atan_tan; [field; lra|]. split; nra.
Qed.
Example C50_t_example : exists r, (0 < r_dof r)%Z /\ get (r_mean r) env0 = Fin 3 /\ get (r_standard_error r) env0 = Fin 2 /\
  get (ci_lower cauchy_quantile (1 / 2) r) env0 = Fin 1 /\ get (ci_upper cauchy_quantile (1 / 2) r) env0 = Fin 5 /\
  get (p_value cauchy_cdf 1 r) env0 = Fin (1 / 2) /\ get (significance cauchy_cdf (1 / 2) 1 r) env0 = Fin 1.
Proof.
  exists (mkResults (scalar (Fin 3)) (scalar (Fin 2)) 1). split; [cbn; lia|]. split; [reflexivity|]. split; [reflexivity|].
  assert (margin cauchy_quantile 1 (1 / 2) = 1) as M.
  { unfold margin, cauchy_quantile. replace (PI * (1 - 1 / 2 / 2 - 1 / 2)) with (PI / 4) by field. apply tan_PI4. }
  unfold ci_lower, ci_upper, significance, p_value. cbn [get binop scalar da_map r_dof r_mean r_standard_error].
  destruct (interval_value _ _ C50_t_law_example 1%Z (1 / 2) 3 2) as [-> ->]; [lia|lra|]. rewrite M.
  rewrite p_value_pos by (first [lia|lra]). unfold cauchy_cdf. replace (Rabs (3 - 1) / 2) with 1 by (rewrite Rabs_right by lra; field). rewrite atan_1.
  pose proof PI_RGT_0 as P. replace (2 * (1 - (1 / 2 + PI / 4 / PI))) with (1 / 2) by (field; lra).
  split; [f_equal; lra|]. split; [f_equal; lra|]. split; [reflexivity|]. unfold vleb. cbn.
  replace (Reqb (1 / 2) (1 / 2)) with true by (symmetry; now apply Reqb_true). rewrite orb_true_r. reflexivity.
Qed.
