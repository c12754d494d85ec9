(** Proofs about deterministic metrics (C22, C23). *)
From Coq Require Import String List Bool Reals Lra Permutation ZArith.
Import ListNotations.
From Verif Require Import Prelude Values Model_XArray Spec_XArray Proofs_XArray Model_Tree Spec_Tree Model_MetricsBase Model_Aggregation
  Spec_Aggregator Proofs_Aggregator Proofs_Aggregator2 Spec_Metrics Proofs_Metrics Spec_Means Proofs_Means Model_Calendar Model_Deterministic.
Local Open Scope R_scope.
Local Open Scope string_scope.
Local Open Scope list_scope.

Lemma wf_map f a : wf a -> wf (da_map f a).
Proof. intros (H1 & H2 & H3). split; [exact H1|]. split; [exact H2|]. intros e e' H. simpl. f_equal. now apply H3. Qed.
Lemma vsq_Fin x : vsq (Fin x) = Fin (x ^ 2).
Proof. unfold vsq. simpl. f_equal. ring. Qed.
Lemma isnan_vabs x : isnan (vabs x) = isnan x.
Proof. destruct x; reflexivity. Qed.
Lemma isnan_vsq x : isnan (vsq x) = isnan x.
Proof. destruct x; reflexivity. Qed.
Lemma same_sample_map f st : wf st -> (forall x, isnan (f x) = isnan x) -> same_sample st (da_map f st).
Proof. intros H Hf. split; [reflexivity|]. split; [reflexivity|]. split; [now apply wf_map|]. intros e _. apply Hf. Qed.
Lemma same_sample_refl st : wf st -> same_sample st st.
Proof. intros H. repeat (split; [auto|]). auto. Qed.

Lemma value_of_rmse g p t v a : NoDup (keys p) -> metric_value g p t RMSE v a ->
  exists pv tv m, dget p v = Some pv /\ dget t v = Some tv /\ mean_array g (squared_error_var pv tv) m /\ a = da_map vsqrt m.
Proof.
  intros Hn H. apply value_of_metric in H.
  - destruct H as (pvs & HF & HL). inversion HL as [|? [k m] ? l (E1 & raw & st & H1 & H2 & H3) HL']; subst. inversion HL'; subst.
    simpl in E1. subst k. unfold dgetE in HF. simpl in HF. injection HF as <-. simpl in H1, H2, H3.
    destruct (per_variable_statistic_spec "SquaredError" _ p t raw Hn H1) as [_ K]. apply K in H2. destruct H2 as (pv & tv & ? & ? & [= <-]).
    exists pv, tv, m. auto.
  - intros s raw [<-|[]]. apply per_var_outputs.
  - intros s s' [<-|[]] [<-|[]] _. reflexivity.
  - repeat constructor; intros [].
Qed.

Lemma vsqrt_Fin x : 0 <= x -> vsqrt (Fin x) = Fin (sqrt x).
Proof. intros H. simpl. destruct (Rlt_dec x 0); [lra|reflexivity]. Qed.

Section Errors.
  Variables (g : aggregator) (p t : vars da) (v : string) (pv tv : da) (err : env -> R).
  Variables (ws : list da) (wrs : list (env -> R)) (ms : list da) (bs : list (env -> bool)).
  Hypothesis Hn : NoDup (keys p).
  Hypothesis Hp : dget p v = Some pv.
  Hypothesis Ht : dget t v = Some tv.
  Let st := binop vsub pv tv.
  Hypothesis W : weighted_input g st err ws wrs ms bs.
  Let u := point_weight g st wrs bs.
  Hypothesis Hu : forall q, 0 <= u q.

  Lemma det_values bias mae mse rmse e :
    metric_value g p t (metric_of_statistic Error) v bias ->
    metric_value g p t (metric_of_statistic AbsoluteError) v mae ->
    metric_value g p t (metric_of_statistic SquaredError) v mse ->
    metric_value g p t RMSE v rmse ->
    point_of (dims bias) e ->
    exists P, reduced_points (st :: ws ++ ms) (reduce_dims g) e P /\
      (rsum (map u P) = 0 -> get bias e = NaN /\ get mae e = NaN /\ get mse e = NaN /\ get rmse e = NaN) /\
      (rsum (map u P) <> 0 ->
         get bias e = Fin (wavg P u err) /\ get mae e = Fin (wavg P u (fun q => Rabs (err q))) /\
         get mse e = Fin (wavg P u (fun q => err q ^ 2)) /\ get rmse e = Fin (sqrt (wavg P u (fun q => err q ^ 2)))).
  Proof.
    intros H1 H2 H3 H4 He.
    apply value_of_per_variable in H1; auto. destruct H1 as (p1 & t1 & s1 & E1 & E2 & [= <-] & M1). rewrite Hp in E1. rewrite Ht in E2. injection E1 as <-. injection E2 as <-.
    apply value_of_per_variable in H2; auto. destruct H2 as (p1 & t1 & s1 & E1 & E2 & [= <-] & M2). rewrite Hp in E1. rewrite Ht in E2. injection E1 as <-. injection E2 as <-.
    apply value_of_per_variable in H3; auto. destruct H3 as (p1 & t1 & s1 & E1 & E2 & [= <-] & M3). rewrite Hp in E1. rewrite Ht in E2. injection E1 as <-. injection E2 as <-.
    apply value_of_rmse in H4; auto. destruct H4 as (p1 & t1 & m4 & E1 & E2 & M4 & ->). rewrite Hp in E1. rewrite Ht in E2. injection E1 as <-. injection E2 as <-.
    destruct (joint_means g st err ws wrs ms bs bias e W M1 He) as (P & HP & _ & HJ).
    assert (wf st) as Hwf by apply W.
    pose proof (wi_finite _ _ _ _ _ _ _ W) as Hfin.
    destruct (HJ st err bias (same_sample_refl st Hwf) Hfin M1) as (_ & A1 & B1).
    destruct (HJ (absolute_error_var pv tv) (fun q => Rabs (err q)) mae) as (_ & A2 & B2); auto.
    { apply same_sample_map; auto. apply isnan_vabs. }
    { intros q Hq Hc. simpl. fold st. change (vsub (get pv q) (get tv q)) with (get st q). rewrite (Hfin q Hq Hc). reflexivity. }
    destruct (HJ (squared_error_var pv tv) (fun q => err q ^ 2) mse) as (_ & A3 & B3); auto.
    { apply same_sample_map; auto. apply isnan_vsq. }
    { intros q Hq Hc. cbn [squared_error_var da_map get]. change (get (binop vsub pv tv) q) with (get st q). rewrite (Hfin q Hq Hc). apply vsq_Fin. }
    destruct (HJ (squared_error_var pv tv) (fun q => err q ^ 2) m4) as (_ & A4 & B4); auto.
    { apply same_sample_map; auto. apply isnan_vsq. }
    { intros q Hq Hc. cbn [squared_error_var da_map get]. change (get (binop vsub pv tv) q) with (get st q). rewrite (Hfin q Hq Hc). apply vsq_Fin. }
    exists P. split; [exact HP|]. split.
    - intros H0. split; [auto|]. split; [auto|]. split; [auto|]. simpl. fold u in B4. now rewrite (B4 H0 Hu).
    - intros H0. split; [auto|]. split; [auto|]. split; [auto|]. cbn [da_map get]. rewrite (A4 H0). apply vsqrt_Fin.
      apply wavg_nonneg; auto. intros; apply pow2_ge_0.
  Qed.

  Theorem det_inequalities bias mae mse rmse e :
    metric_value g p t (metric_of_statistic Error) v bias ->
    metric_value g p t (metric_of_statistic AbsoluteError) v mae ->
    metric_value g p t (metric_of_statistic SquaredError) v mse ->
    metric_value g p t RMSE v rmse ->
    point_of (dims bias) e ->
    (get bias e = NaN /\ get mae e = NaN /\ get mse e = NaN /\ get rmse e = NaN) \/
    exists P b a s r, reduced_points (st :: ws ++ ms) (reduce_dims g) e P /\
      get bias e = Fin b /\ get mae e = Fin a /\ get mse e = Fin s /\ get rmse e = Fin r /\
      b ^ 2 <= s /\ Rabs b <= a <= r /\ r ^ 2 = s /\ 0 <= r /\
      (r = 0 <-> forall q, In q P -> u q <> 0 -> err q = 0).
  Proof.
    intros H1 H2 H3 H4 He. destruct (det_values bias mae mse rmse e H1 H2 H3 H4 He) as (P & HP & HZ & HV).
    destruct (Req_dec (rsum (map u P)) 0) as [E|E]; [left; auto|right].
    destruct (HV E) as (V1 & V2 & V3 & V4).
    set (s := wavg P u (fun q => err q ^ 2)) in *.
    assert (0 <= s) as Hs by (apply wavg_nonneg; auto; intros; apply pow2_ge_0).
    exists P, (wavg P u err), (wavg P u (fun q => Rabs (err q))), s, (sqrt s).
    split; [exact HP|]. do 4 (split; [assumption|]). split; [now apply wavg_sq|]. split; [split|].
    - now apply wavg_abs.
    - apply Rsqr_incr_0; [|apply wavg_nonneg; auto; intros; apply Rabs_pos|apply sqrt_pos].
      rewrite Rsqr_sqrt by auto. unfold Rsqr.
      assert ((wavg P u (fun q => Rabs (err q))) ^ 2 <= wavg P u (fun q => Rabs (err q) ^ 2)) as K by (now apply wavg_sq).
      rewrite (wavg_ext P u u (fun q => Rabs (err q) ^ 2) (fun q => err q ^ 2)) in K; [unfold s; lra|auto|].
      intros q _ _. apply pow2_abs.
    - split; [rewrite <- Rsqr_pow2; now apply Rsqr_sqrt|]. split; [apply sqrt_pos|]. split.
      + intros H. apply sqrt_eq_0 in H; auto. intros q Hq Hne.
        assert (err q ^ 2 = 0) as K by (eapply (wavg_zero P u Hu E (fun q => err q ^ 2)); eauto; intros; apply pow2_ge_0).
        destruct (Req_dec (err q) 0) as [|Hne']; auto. exfalso. pose proof (pow_nonzero _ 2 Hne'). contradiction.
      + intros H. assert (s = 0) as ->; [|apply sqrt_0]. unfold s.
        rewrite (wavg_ext P u u _ (fun _ => 0)); [apply wavg_const; auto|auto|]. intros q Hq Hne. rewrite (H q Hq Hne). ring.
  Qed.
End Errors.

(** Swapping predictions and targets. *)
Theorem det_swap g p t v pv tv err ws wrs ms bs :
  NoDup (keys p) -> NoDup (keys t) -> dget p v = Some pv -> dget t v = Some tv ->
  weighted_input g (binop vsub pv tv) err ws wrs ms bs ->
  (forall q, 0 <= point_weight g (binop vsub pv tv) wrs bs q) ->
  dims (binop vsub tv pv) = dims (binop vsub pv tv) -> aux (binop vsub tv pv) = aux (binop vsub pv tv) ->
  wf (binop vsub tv pv) ->
  forall (f : val -> val) s name bias bias' e,
    s = per_variable_statistic name (fun a b => Ok (Some (da_map f (binop vsub a b)))) ->
    (forall x, isnan (f x) = isnan x) ->
    forall (fr : R -> R) (sgn : R), (forall x, f (Fin x) = Fin (fr x)) -> (forall x, fr (- x) = sgn * fr x) ->
    metric_value g p t (metric_of_statistic s) v bias -> metric_value g t p (metric_of_statistic s) v bias' ->
    point_of (dims bias) e ->
    get bias' e = vmul (Fin sgn) (get bias e).
Proof.
  intros Hn Hn' Hp Ht W Hu Hd Ha Hwf' f s name bias bias' e -> Hf fr sgn Hfr Hodd H1 H2 He.
  apply value_of_per_variable in H1; auto. destruct H1 as (p1 & t1 & s1 & E1 & E2 & [= <-] & M1). rewrite Hp in E1. rewrite Ht in E2. injection E1 as <-. injection E2 as <-.
  apply value_of_per_variable in H2; auto. destruct H2 as (p1 & t1 & s1 & E1 & E2 & [= <-] & M2). rewrite Ht in E1. rewrite Hp in E2. injection E1 as <-. injection E2 as <-.
  set (st := binop vsub pv tv) in *. assert (wf st) as Hwf by apply W. pose proof (wi_finite _ _ _ _ _ _ _ W) as Hfin.
  assert (forall x y, vsub y x = vneg (vsub x y)) as Hneg by (intros [] []; simpl; try reflexivity; f_equal; ring).
  assert (weighted_input g (da_map f st) (fun q => fr (err q)) ws wrs ms bs) as W'.
  { eapply same_weighted; [exact W|now apply same_sample_map|]. intros q Hq Hc. simpl. change (vsub (get pv q) (get tv q)) with (get st q). rewrite (Hfin q Hq Hc). apply Hfr. }
  destruct (joint_means g (da_map f st) _ ws wrs ms bs bias e W' M1 He) as (P & HP & Hin & HJ).
  destruct (HJ (da_map f st) (fun q => fr (err q)) bias) as (_ & A1 & B1); auto.
  { apply same_sample_refl. now apply wf_map. }
  { apply (wi_finite _ _ _ _ _ _ _ W'). }
  destruct (HJ (da_map f (binop vsub tv pv)) (fun q => sgn * fr (err q)) bias') as (_ & A2 & B2); auto.
  { split; [exact Hd|]. split; [exact Ha|]. split; [now apply wf_map|]. intros q Hq. cbn [da_map get]. rewrite !Hf.
    unfold st. cbn [binop get]. rewrite (Hneg (get pv q) (get tv q)). destruct (vsub (get pv q) (get tv q)); reflexivity. }
  { intros q Hq Hc. cbn [da_map get binop]. rewrite (Hneg (get pv q) (get tv q)).
    assert (counted g st q = true) as Hc' by (rewrite <- Hc; symmetry; apply counted_same; [reflexivity|cbn [da_map get]; apply Hf]).
    change (vsub (get pv q) (get tv q)) with (get st q). rewrite (Hfin q Hq Hc'). simpl. rewrite Hfr. now rewrite Hodd. }
  set (w := point_weight g (da_map f st) wrs bs) in *.
  assert (forall q, 0 <= w q) as Hw.
  { intros q. unfold w. rewrite (point_weight_same g st (da_map f st)); [apply Hu|reflexivity|cbn [da_map get]; apply Hf]. }
  cbn zeta in *.
  destruct (Req_dec (rsum (map w P)) 0) as [E|E].
  - rewrite (B1 E Hw), (B2 E Hw). reflexivity.
  - rewrite (A1 E), (A2 E). simpl. f_equal. apply (wavg_scale P w Hw E).
Qed.

(** NaN in, NaN out. *)
Theorem nan_mean g st m e q ws ms :
  (masked g = false \/ dget (aux st) "mask" = None) -> skipna g = false ->
  (forall w, In w (weigh_by g) -> uses_coords w) ->
  (forall b, In b (bin_by g) -> uses_coords (create_bin_mask b)) ->
  (forall w s a, In w (weigh_by g) -> w s = Ok a -> wf a) ->
  (forall x s a, In x (bin_by g) -> create_bin_mask x s = Ok a -> wf a) ->
  mask_spans st -> wf st -> mean_array g st m -> point_of (dims m) e ->
  mapM (fun w => w st) (weigh_by g) = Ok ws -> mapM (fun b => create_bin_mask b st) (bin_by g) = Ok ms ->
  (forall d, ~ In d (reduce_dims g) -> q d = e d) ->
  (forall a d, In a (st :: ws ++ ms) -> In d (reduce_dims g) -> In d (dnames a) -> In (q d) (labels_of (dims a) d)) ->
  get st q = NaN -> get m e = NaN.
Proof.
  intros H1 H2 H3 H4 H5 H6 H7 H8 (x & y & Hxy & Hm) He Ew Em Hq1 Hq2 HN.
  assert (point_of (dims x) e) as Hex by (apply (proj1 (mean_dims g st m x y H3 H4 H7 Hxy Hm e) He)).
  rewrite Hm. cbn [binop get]. rewrite (nan_surfaces g st x y e q H1 H2 H3 H4 H5 H6 H8 Hxy Hex ws ms Ew Em Hq1 Hq2 HN). destruct (get y e); reflexivity.
Qed.

(** ** Climatology *)
Lemma clim_compute name f clim p t raw : NoDup (keys p) -> compute (climatology_statistic name f clim) p t = Ok raw ->
  keys raw = keys p /\
  forall v st, dget raw v = Some st -> exists pv tv cv c, dget p v = Some pv /\ dget t v = Some tv /\ dget clim v = Some cv /\
    align_climatology pv cv = Ok c /\ st = f pv tv c.
Proof.
  intros Hn H. simpl in H. destruct (mapM (fun k => dgetE clim k) (keys p)) as [cs|]; [|discriminate]. simpl in H.
  assert (forall ps raw, mapM (fun kv => do tv <- dgetE t (fst kv); do cv <- dgetE clim (fst kv);
                    do c <- align_climatology (snd kv) cv; Ok (fst kv, f (snd kv) tv c)) ps = Ok raw ->
    map fst raw = map fst ps /\ forall v st, In (v, st) raw -> exists pv tv cv c, In (v, pv) ps /\ dget t v = Some tv /\ dget clim v = Some cv /\ align_climatology pv cv = Ok c /\ st = f pv tv c) as K.
  { clear. induction ps as [|[k pv] ps IH]; intros raw H; simpl in H; [injection H as <-; split; [reflexivity|intros ? ? []]|].
    unfold dgetE in H at 1 2. destruct (dget t k) as [tv|] eqn:Et; [|discriminate]. simpl in H. destruct (dget clim k) as [cv|] eqn:Ec; [|discriminate]. simpl in H.
    destruct (align_climatology pv cv) as [c|] eqn:Ea; simpl in H; [|discriminate].
    match type of H with (bind ?m _) = _ => destruct m as [raw'|] eqn:Er end; simpl in H; [|discriminate]. injection H as <-.
    destruct (IH raw' eq_refl) as [K1 K2]. split; [simpl; congruence|]. intros v st [[= <- <-]|Hin].
    - exists pv, tv, cv, c. simpl. auto 6.
    - destruct (K2 v st Hin) as (pv' & tv' & cv' & c' & ? & ? & ? & ? & ?). exists pv', tv', cv', c'. simpl. auto 7. }
  destruct (K p raw H) as [K1 K2]. split; [exact K1|]. intros v st Hv. apply dget_In in Hv. destruct (K2 v st Hv) as (pv & tv & cv & c & Hin & ?).
  exists pv, tv, cv, c. split; [now apply In_dget|auto].
Qed.

Definition sp_var (pv c : da) : da := da_map vsq (binop vsub pv c).
Definition cov_var (pv tv c : da) : da := binop vmul (binop vsub pv c) (binop vsub tv c).

Lemma value_of_acc g p t clim v a : NoDup (keys p) -> metric_value g p t (ACC clim) v a ->
  exists pv tv cv c msp mst mcov, dget p v = Some pv /\ dget t v = Some tv /\ dget clim v = Some cv /\ align_climatology pv cv = Ok c /\
    mean_array g (sp_var pv c) msp /\ mean_array g (sp_var tv c) mst /\ mean_array g (cov_var pv tv c) mcov /\
    a = binop vdiv mcov (binop vmul (da_map vsqrt msp) (da_map vsqrt mst)).
Proof.
  intros Hn H. apply value_of_metric in H.
  - destruct H as (pvs & HF & HL).
    inversion HL as [|? [k1 m1] ? l1 (E1 & raw1 & st1 & A1 & B1 & C1) HL1]; subst.
    inversion HL1 as [|? [k2 m2] ? l2 (E2 & raw2 & st2 & A2 & B2 & C2) HL2]; subst.
    inversion HL2 as [|? [k3 m3] ? l3 (E3 & raw3 & st3 & A3 & B3 & C3) HL3]; subst. inversion HL3; subst.
    cbn [fst snd] in *. subst k1 k2 k3. unfold dgetE in HF. simpl in HF. injection HF as <-.
    apply clim_compute in A1; auto. destruct A1 as [_ A1]. apply A1 in B1. destruct B1 as (pv & tv & cv & c & P1 & P2 & P3 & P4 & ->).
    apply clim_compute in A2; auto. destruct A2 as [_ A2]. apply A2 in B2. destruct B2 as (pv' & tv' & cv' & c' & Q1 & Q2 & Q3 & Q4 & ->).
    rewrite P1 in Q1; rewrite P2 in Q2; rewrite P3 in Q3; injection Q1 as <-; injection Q2 as <-; injection Q3 as <-. rewrite P4 in Q4. injection Q4 as <-.
    apply clim_compute in A3; auto. destruct A3 as [_ A3]. apply A3 in B3. destruct B3 as (pv' & tv' & cv' & c' & Q1 & Q2 & Q3 & Q4 & ->).
    rewrite P1 in Q1; rewrite P2 in Q2; rewrite P3 in Q3; injection Q1 as <-; injection Q2 as <-; injection Q3 as <-. rewrite P4 in Q4. injection Q4 as <-.
    exists pv, tv, cv, c, m1, m2, m3. auto 10.
  - intros s raw [<-|[<-|[<-|[]]]] Hc; apply clim_compute in Hc; auto; destruct Hc as [-> _]; auto.
  - intros s s' [<-|[<-|[<-|[]]]] [<-|[<-|[<-|[]]]]; simpl; try discriminate; reflexivity.
  - repeat constructor; simpl; intuition discriminate.
Qed.

Section ACC.
  Variables (g : aggregator) (p t clim : vars da) (v : string) (pv tv cv c : da) (x y : env -> R).
  Variables (ws : list da) (wrs : list (env -> R)) (ms : list da) (bs : list (env -> bool)).
  Hypothesis Hn : NoDup (keys p).
  Hypothesis Hp : dget p v = Some pv.
  Hypothesis Ht : dget t v = Some tv.
  Hypothesis Hc : dget clim v = Some cv.
  Hypothesis Hal : align_climatology pv cv = Ok c.
  Let cov := cov_var pv tv c.
  Hypothesis W : weighted_input g cov (fun q => x q * y q) ws wrs ms bs.
  Hypothesis Sp : same_sample cov (sp_var pv c).
  Hypothesis St : same_sample cov (sp_var tv c).
  Hypothesis Hx : forall q, point_of (dims cov) q -> counted g cov q = true -> get (binop vsub pv c) q = Fin (x q).
  Hypothesis Hy : forall q, point_of (dims cov) q -> counted g cov q = true -> get (binop vsub tv c) q = Fin (y q).
  Let u := point_weight g cov wrs bs.
  Hypothesis Hu : forall q, 0 <= u q.

  Theorem acc_value mcov acc e : metric_value g p t (ACC clim) v acc ->
    metric_value g p t (metric_of_statistic (AnomalyCovariance clim)) v mcov -> point_of (dims mcov) e ->
    exists P, reduced_points (cov :: ws ++ ms) (reduce_dims g) e P /\
      let vp := wavg P u (fun q => x q ^ 2) in let vt := wavg P u (fun q => y q ^ 2) in
      (rsum (map u P) <> 0 -> 0 < vp -> 0 < vt ->
         get acc e = Fin (wavg P u (fun q => x q * y q) / (sqrt vp * sqrt vt))).
  Proof.
    intros H H' He. apply value_of_acc in H; auto. destruct H as (pv' & tv' & cv' & c' & msp & mst & mcov' & Q1 & Q2 & Q3 & Q4 & M1 & M2 & M3 & ->).
    rewrite Hp in Q1; rewrite Ht in Q2; rewrite Hc in Q3; injection Q1 as <-; injection Q2 as <-; injection Q3 as <-. rewrite Hal in Q4. injection Q4 as <-.
    apply value_of_statistic in H'; [|intros raw Hr; apply clim_compute in Hr; auto; destruct Hr as [-> _]; auto].
    destruct H' as (raw & st & A1 & B1 & C1). apply clim_compute in A1; auto. destruct A1 as [_ A1]. apply A1 in B1. destruct B1 as (pv' & tv' & cv' & c' & Q1 & Q2 & Q3 & Q4 & ->).
    rewrite Hp in Q1; rewrite Ht in Q2; rewrite Hc in Q3; injection Q1 as <-; injection Q2 as <-; injection Q3 as <-. rewrite Hal in Q4. injection Q4 as <-.
    destruct (joint_means g cov _ ws wrs ms bs mcov e W C1 He) as (P & HP & _ & HJ).
    exists P. split; [exact HP|]. cbn zeta. intros H0 Hvp Hvt.
    destruct (HJ cov (fun q => x q * y q) mcov') as (_ & V3 & _); auto; [apply same_sample_refl, W|apply W|].
    destruct (HJ (sp_var pv c) (fun q => x q ^ 2) msp) as (_ & V1 & _); auto.
    { intros q Hq Hcq. cbn [sp_var da_map get]. rewrite (Hx q Hq Hcq). apply vsq_Fin. }
    destruct (HJ (sp_var tv c) (fun q => y q ^ 2) mst) as (_ & V2 & _); auto.
    { intros q Hq Hcq. cbn [sp_var da_map get]. rewrite (Hy q Hq Hcq). apply vsq_Fin. }
    cbn zeta in V1, V2, V3. fold u in V1, V2, V3. cbn [binop get da_map]. rewrite (V1 H0), (V2 H0), (V3 H0).
    rewrite !vsqrt_Fin by lra. cbn [vmul vdiv]. pose proof (sqrt_lt_R0 _ Hvp). pose proof (sqrt_lt_R0 _ Hvt).
    destruct (Req_EM_T _ 0) as [E|]; [|reflexivity]. exfalso. apply Rmult_integral in E. lra.
  Qed.

  Lemma acc_bound P : rsum (map u P) <> 0 -> 0 < wavg P u (fun q => x q ^ 2) -> 0 < wavg P u (fun q => y q ^ 2) ->
    -1 <= wavg P u (fun q => x q * y q) / (sqrt (wavg P u (fun q => x q ^ 2)) * sqrt (wavg P u (fun q => y q ^ 2))) <= 1.
  Proof.
    intros H0 H1 H2. pose proof (wavg_CS P u Hu H0 x y) as CS.
    set (a := wavg P u (fun q => x q ^ 2)) in *. set (b := wavg P u (fun q => y q ^ 2)) in *. set (z := wavg P u (fun q => x q * y q)) in *.
    assert (0 < sqrt a * sqrt b) as Hd by (apply Rmult_lt_0_compat; now apply sqrt_lt_R0).
    assert ((sqrt a * sqrt b) ^ 2 = a * b) as Hsq.
    { rewrite Rpow_mult_distr. rewrite <- !Rsqr_pow2, !Rsqr_sqrt by lra. reflexivity. }
    assert (Rabs z <= sqrt a * sqrt b) as Hz.
    { rewrite <- (Rabs_pos_eq (sqrt a * sqrt b)) by lra. apply Rsqr_le_abs_0. rewrite !Rsqr_pow2, Hsq. exact CS. }
    assert (- (sqrt a * sqrt b) <= z <= sqrt a * sqrt b) as [L U] by (split; [pose proof (Rle_abs (- z)) as K; rewrite Rabs_Ropp in K; lra|pose proof (Rle_abs z); lra]).
    split.
    - apply Rmult_le_reg_r with (sqrt a * sqrt b); auto. unfold Rdiv. rewrite Rmult_assoc, Rinv_l by lra. lra.
    - apply Rmult_le_reg_r with (sqrt a * sqrt b); auto. unfold Rdiv. rewrite Rmult_assoc, Rinv_l by lra. lra.
  Qed.
End ACC.

(** ** Arithmetic on arrays over the same coordinates *)
Lemma inter_self l : inter_labels l l = l.
Proof.
  unfold inter_labels. assert (forall l' l, incl l l' -> filter (fun x => memb x l') l = l) as K; [|apply K, incl_refl].
  clear. intros l'. induction l as [|x l IH]; intros H; [reflexivity|]. simpl. rewrite (proj2 (memb_In x l')) by (apply H; now left).
  f_equal. apply IH. intros y Hy. apply H. now right.
Qed.
Lemma dget_NoDup_In {V} (d : dict string V) k v : NoDup (keys d) -> In (k, v) d -> dget d k = Some v.
Proof. intros H1 H2. now apply In_dget. Qed.
Lemma merge_self ds : NoDup (map fst ds) -> merge_dims inter_labels ds ds = ds.
Proof.
  intros Hn. unfold merge_dims.
  assert (filter (fun q => negb (memb (fst q) (map fst ds))) ds = []) as ->.
  { assert (forall l, incl l ds -> filter (fun q => negb (memb (fst q) (map fst ds))) l = []) as K; [|apply K, incl_refl].
    induction l as [|x l IH]; intros H; [reflexivity|]. simpl. rewrite (proj2 (memb_In (fst x) (map fst ds))) by (apply in_map, H; now left).
    simpl. apply IH. intros y Hy. apply H. now right. }
  rewrite app_nil_r.
  transitivity (map (fun q : string * list label => q) ds); [|apply map_id]. apply map_ext_in. intros [k l] H. cbn [fst snd].
  rewrite (dget_NoDup_In ds k l Hn H). now rewrite inter_self.
Qed.
Lemma coord_eqb_refl ds c : coord_eqb ds c c = true.
Proof.
  unfold coord_eqb. assert (subsetb (c_dims c) (c_dims c) = true) as ->.
  { unfold subsetb. apply forallb_forall. intros x Hx. now apply memb_In. }
  simpl. apply forallb_forall. intros e _. unfold eqb. destruct (eq_dec _ _); congruence.
Qed.
Lemma merge_aux_self ds x : NoDup (keys x) -> merge_aux ds x x = x.
Proof.
  intros Hn. unfold merge_aux.
  assert (forall l, incl l x -> filter (fun q => negb (memb (fst q) (map fst x))) l = []) as K.
  { induction l as [|q l IH]; intros H; [reflexivity|]. simpl. rewrite (proj2 (memb_In (fst q) (map fst x))) by (apply in_map, H; now left).
    simpl. apply IH. intros y Hy. apply H. now right. }
  rewrite (K x (incl_refl x)), app_nil_r.
  assert (forall l, incl l x -> filter (fun p => match dget x (fst p) with Some c => coord_eqb ds (snd p) c | None => true end) l = l) as K2; [|apply K2, incl_refl].
  induction l as [|[k c] l IH]; intros H; [reflexivity|]. cbn [filter fst snd]. rewrite (dget_NoDup_In x k c Hn) by (apply H; now left).
  rewrite coord_eqb_refl. f_equal. apply IH. intros y Hy. apply H. now right.
Qed.

Lemma merge_names j d1 d2 : map fst (merge_dims j d1 d2) = map fst d1 ++ filter (fun n => negb (memb n (map fst d1))) (map fst d2).
Proof.
  unfold merge_dims. rewrite map_app. f_equal.
  - rewrite map_map. apply map_ext. intros [k l]. simpl. now destruct (dget d2 k).
  - generalize (map fst d1) as ks. intros ks. induction d2 as [|[k l] d2 IH]; [reflexivity|]. simpl. destruct (negb (memb k ks)); simpl; now rewrite IH.
Qed.
Lemma wf_binop f a b : wf a -> wf b -> wf (binop f a b).
Proof.
  intros (A1 & A2 & A3) (B1 & B2 & B3).
  assert (forall n, In n (dnames a) \/ In n (dnames b) -> In n (dnames (binop f a b))) as Hin.
  { intros n H. unfold dnames. simpl. rewrite merge_names, in_app_iff, filter_In. destruct (memb n (map fst (dims a))) eqn:E; [left; now apply memb_In|].
    destruct H as [H|H]; [apply memb_In in H; unfold dnames in H; congruence|]. right. split; [exact H|reflexivity]. }
  split; [|split].
  - unfold dnames. simpl. rewrite merge_names. apply NoDup_app_intro; [exact A1|now apply NoDup_filter|].
    intros n H1 H2. apply filter_In in H2. destruct H2 as [_ H2]. apply memb_In in H1. rewrite H1 in H2. discriminate.
  - intros d ls H. simpl in H. unfold merge_dims in H. apply in_app_iff in H. destruct H as [H|H].
    + apply in_map_iff in H. destruct H as ([k l] & E & H). simpl in E. destruct (dget (dims b) k) as [l2|] eqn:Ek; injection E as <- <-.
      * unfold inter_labels. apply NoDup_filter. eapply A2; eauto.
      * eapply A2; eauto.
    + apply filter_In in H. destruct H as [H _]. eapply B2; eauto.
  - intros e e' H. simpl. rewrite (A3 e e'), (B3 e e'); auto.
Qed.

Theorem det_swap_all g p t v pv tv err ws wrs ms bs bias mae mse rmse bias' mae' mse' rmse' e :
  NoDup (keys p) -> NoDup (keys t) -> dget p v = Some pv -> dget t v = Some tv ->
  weighted_input g (binop vsub pv tv) err ws wrs ms bs ->
  (forall q, 0 <= point_weight g (binop vsub pv tv) wrs bs q) ->
  dims pv = dims tv -> aux pv = aux tv -> 
  metric_value g p t (metric_of_statistic Error) v bias -> metric_value g t p (metric_of_statistic Error) v bias' ->
  metric_value g p t (metric_of_statistic AbsoluteError) v mae -> metric_value g t p (metric_of_statistic AbsoluteError) v mae' ->
  metric_value g p t (metric_of_statistic SquaredError) v mse -> metric_value g t p (metric_of_statistic SquaredError) v mse' ->
  metric_value g p t RMSE v rmse -> metric_value g t p RMSE v rmse' ->
  point_of (dims bias) e -> point_of (dims mae) e -> point_of (dims mse) e ->
  get bias' e = vneg (get bias e) /\ get mae' e = get mae e /\ get mse' e = get mse e /\ get rmse' e = get rmse e.
Proof.
  intros Hn Hn' Hp Ht W Hu Hd Ha B B' A A' S S' Q Q' E1 E2 E3.
  assert (dims (binop vsub tv pv) = dims (binop vsub pv tv)) as Hd' by (simpl; now rewrite Hd).
  assert (aux (binop vsub tv pv) = aux (binop vsub pv tv)) as Ha' by (simpl; now rewrite Hd, Ha).
  assert (forall x y, vsub y x = vneg (vsub x y)) as Hneg by (intros [] []; simpl; try reflexivity; f_equal; ring).
  assert (wf (binop vsub tv pv)) as Hwf'.
  { destruct (wi_wf _ _ _ _ _ _ _ W) as (W1 & W2 & W3). split; [unfold dnames in *; now rewrite Hd'|]. split; [now rewrite Hd'|].
    intros e1 e2 H12. cbn [binop get]. rewrite (Hneg (get pv e1)), (Hneg (get pv e2)). f_equal. apply (W3 e1 e2). unfold dnames in *. now rewrite <- Hd'. }
  pose proof (det_swap g p t v pv tv err ws wrs ms bs Hn Hn' Hp Ht W Hu Hd' Ha' Hwf') as K.
  assert (forall x, vmul (Fin 1) x = x) as H1x.
  { intros []; simpl; try reflexivity; [f_equal; ring| |]; unfold rsign; destruct (Rlt_dec 0 1); try lra; reflexivity. }
  split; [|split; [|]].
  - assert (get bias' e = vmul (Fin (-1)) (get bias e)) as ->.
    { apply (K (fun x => x) _ "Error" bias bias' e eq_refl (fun x => eq_refl) (fun x => x) (-1)); auto. intros; ring. }
    assert (rsign (-1) = Lt) as Hs by (unfold rsign; destruct (Rlt_dec 0 (-1)); [lra|]; destruct (Rlt_dec (-1) 0); [reflexivity|lra]).
    destruct (get bias e); simpl; rewrite ?Hs; try reflexivity. f_equal; ring.
  - rewrite (K vabs _ "AbsoluteError" mae mae' e eq_refl isnan_vabs Rabs 1); auto. intros x. rewrite Rabs_Ropp. ring.
  - assert (forall x, vsq (Fin x) = Fin (x * x)) as Hsq by reflexivity.
    assert (get mse' e = get mse e) as Hm by (rewrite (K vsq _ "SquaredError" mse mse' e eq_refl isnan_vsq (fun x => x * x) 1); auto; intros x; ring).
    split; [exact Hm|].
    apply value_of_rmse in Q; auto. destruct Q as (p1 & t1 & m & Q1 & Q2 & M & ->). rewrite Hp in Q1. rewrite Ht in Q2. injection Q1 as <-. injection Q2 as <-.
    apply value_of_rmse in Q'; auto. destruct Q' as (p1 & t1 & m' & Q1 & Q2 & M' & ->). rewrite Ht in Q1. rewrite Hp in Q2. injection Q1 as <-. injection Q2 as <-.
    cbn [da_map get]. f_equal.
    apply value_of_per_variable in S; auto. destruct S as (p1 & t1 & s1 & X1 & X2 & [= <-] & M1). rewrite Hp in X1. rewrite Ht in X2. injection X1 as <-. injection X2 as <-.
    apply value_of_per_variable in S'; auto. destruct S' as (p1 & t1 & s1 & X1 & X2 & [= <-] & M2). rewrite Ht in X1. rewrite Hp in X2. injection X1 as <-. injection X2 as <-.
    assert (m = mse /\ m' = mse') as [-> ->]; [|exact Hm].
    destruct M as (x1 & y1 & Y1 & ->), M1 as (x2 & y2 & Y2 & ->), M' as (x3 & y3 & Y3 & ->), M2 as (x4 & y4 & Y4 & ->).
    rewrite Y1 in Y2. rewrite Y3 in Y4. injection Y2 as <- <-. injection Y4 as <- <-. auto.
Qed.

(** ** ACC: perfect forecasts and rescaled anomalies *)
Lemma acc_perfect P u (x : env -> R) : (forall q, 0 <= u q) -> rsum (map u P) <> 0 -> 0 < wavg P u (fun q => x q ^ 2) ->
  wavg P u (fun q => x q * x q) / (sqrt (wavg P u (fun q => x q ^ 2)) * sqrt (wavg P u (fun q => x q ^ 2))) = 1.
Proof.
  intros Hu H0 H1. rewrite sqrt_sqrt by lra.
  rewrite (wavg_ext P u u (fun q => x q * x q) (fun q => x q ^ 2)); [field; lra|auto|]. intros; ring.
Qed.

Lemma acc_scale P u (x y : env -> R) k : (forall q, 0 <= u q) -> rsum (map u P) <> 0 -> k <> 0 ->
  0 < wavg P u (fun q => x q ^ 2) -> 0 < wavg P u (fun q => y q ^ 2) ->
  wavg P u (fun q => (k * x q) * y q) / (sqrt (wavg P u (fun q => (k * x q) ^ 2)) * sqrt (wavg P u (fun q => y q ^ 2)))
  = (if Rlt_dec 0 k then 1 else -1) * (wavg P u (fun q => x q * y q) / (sqrt (wavg P u (fun q => x q ^ 2)) * sqrt (wavg P u (fun q => y q ^ 2)))).
Proof.
  intros Hu H0 Hk H1 H2.
  rewrite (wavg_ext P u u (fun q => (k * x q) * y q) (fun q => k * (x q * y q))) by (auto; intros; ring).
  rewrite (wavg_ext P u u (fun q => (k * x q) ^ 2) (fun q => k ^ 2 * x q ^ 2)) by (auto; intros; ring).
  rewrite !wavg_scale by auto. rewrite sqrt_mult by (try apply pow2_ge_0; lra).
  assert (sqrt (k ^ 2) = Rabs k) as -> by (rewrite <- Rsqr_pow2; apply sqrt_Rsqr_abs).
  pose proof (sqrt_lt_R0 _ H1). pose proof (sqrt_lt_R0 _ H2).
  destruct (Rlt_dec 0 k); [rewrite Rabs_pos_eq by lra|rewrite Rabs_left by lra]; field; lra.
Qed.

Section ACC2.
  Variables (g : aggregator) (p p' t clim : vars da) (v : string) (pv pv' tv cv c c' : da) (x y : env -> R) (k : R).
  Variables (ws : list da) (wrs : list (env -> R)) (ms : list da) (bs : list (env -> bool)).
  Hypothesis Hn : NoDup (keys p).
  Hypothesis Hn' : NoDup (keys p').
  Hypothesis Hp : dget p v = Some pv.
  Hypothesis Hp' : dget p' v = Some pv'.
  Hypothesis Ht : dget t v = Some tv.
  Hypothesis Hc : dget clim v = Some cv.
  Hypothesis Hal : align_climatology pv cv = Ok c.
  Hypothesis Hal' : align_climatology pv' cv = Ok c'.
  Let cov := cov_var pv tv c.
  Let cov' := cov_var pv' tv c'.
  Hypothesis W : weighted_input g cov (fun q => x q * y q) ws wrs ms bs.
  Hypothesis Sp : same_sample cov (sp_var pv c).
  Hypothesis St : same_sample cov (sp_var tv c).
  Hypothesis Sc' : same_sample cov cov'.
  Hypothesis Sp' : same_sample cov (sp_var pv' c').
  Hypothesis St' : same_sample cov (sp_var tv c').
  Hypothesis Hx : forall q, point_of (dims cov) q -> counted g cov q = true -> get (binop vsub pv c) q = Fin (x q).
  Hypothesis Hy : forall q, point_of (dims cov) q -> counted g cov q = true -> get (binop vsub tv c) q = Fin (y q).
  Hypothesis Hx' : forall q, point_of (dims cov) q -> counted g cov q = true -> get (binop vsub pv' c') q = Fin (k * x q).
  Hypothesis Hy' : forall q, point_of (dims cov) q -> counted g cov q = true -> get (binop vsub tv c') q = Fin (y q).
  Let u := point_weight g cov wrs bs.
  Hypothesis Hu : forall q, 0 <= u q.
  Hypothesis Hk : k <> 0.

  Theorem acc_rescale mcov acc acc' e : metric_value g p t (ACC clim) v acc -> metric_value g p' t (ACC clim) v acc' ->
    metric_value g p t (metric_of_statistic (AnomalyCovariance clim)) v mcov -> point_of (dims mcov) e ->
    exists P, reduced_points (cov :: ws ++ ms) (reduce_dims g) e P /\
      (rsum (map u P) <> 0 -> 0 < wavg P u (fun q => x q ^ 2) -> 0 < wavg P u (fun q => y q ^ 2) ->
       exists a, get acc e = Fin a /\ get acc' e = Fin ((if Rlt_dec 0 k then 1 else -1) * a)).
  Proof.
    intros H H2 H' He.
    apply value_of_acc in H; auto. destruct H as (pv1 & tv1 & cv1 & c1 & msp & mst & mcov1 & Q1 & Q2 & Q3 & Q4 & M1 & M2 & M3 & ->).
    rewrite Hp in Q1; rewrite Ht in Q2; rewrite Hc in Q3; injection Q1 as <-; injection Q2 as <-; injection Q3 as <-. rewrite Hal in Q4. injection Q4 as <-.
    apply value_of_acc in H2; auto. destruct H2 as (pv1 & tv1 & cv1 & c1 & msp' & mst' & mcov1' & Q1 & Q2 & Q3 & Q4 & M1' & M2' & M3' & ->).
    rewrite Hp' in Q1; rewrite Ht in Q2; rewrite Hc in Q3; injection Q1 as <-; injection Q2 as <-; injection Q3 as <-. rewrite Hal' in Q4. injection Q4 as <-.
    apply value_of_statistic in H'; [|intros raw Hr; apply clim_compute in Hr; auto; destruct Hr as [-> _]; auto].
    destruct H' as (raw & st & A1 & B1 & C1). apply clim_compute in A1; auto. destruct A1 as [_ A1]. apply A1 in B1. destruct B1 as (pv1 & tv1 & cv1 & c1 & Q1 & Q2 & Q3 & Q4 & ->).
    rewrite Hp in Q1; rewrite Ht in Q2; rewrite Hc in Q3; injection Q1 as <-; injection Q2 as <-; injection Q3 as <-. rewrite Hal in Q4. injection Q4 as <-.
    destruct (joint_means g cov _ ws wrs ms bs mcov e W C1 He) as (P & HP & _ & HJ).
    exists P. split; [exact HP|]. intros H0 Hvp Hvt.
    destruct (HJ cov (fun q => x q * y q) mcov1) as (_ & V3 & _); auto; [apply same_sample_refl, W|apply W|].
    destruct (HJ (sp_var pv c) (fun q => x q ^ 2) msp) as (_ & V1 & _); auto.
    { intros q Hq Hcq. cbn [sp_var da_map get]. rewrite (Hx q Hq Hcq). apply vsq_Fin. }
    destruct (HJ (sp_var tv c) (fun q => y q ^ 2) mst) as (_ & V2 & _); auto.
    { intros q Hq Hcq. cbn [sp_var da_map get]. rewrite (Hy q Hq Hcq). apply vsq_Fin. }
    destruct (HJ cov' (fun q => (k * x q) * y q) mcov1') as (_ & V3' & _); auto.
    { intros q Hq Hcq. unfold cov', cov_var. cbn [binop get]. pose proof (Hx' q Hq Hcq) as K1. pose proof (Hy' q Hq Hcq) as K2. cbn [binop get] in K1, K2. rewrite K1, K2. reflexivity. }
    destruct (HJ (sp_var pv' c') (fun q => (k * x q) ^ 2) msp') as (_ & V1' & _); auto.
    { intros q Hq Hcq. cbn [sp_var da_map get]. rewrite (Hx' q Hq Hcq). apply vsq_Fin. }
    destruct (HJ (sp_var tv c') (fun q => y q ^ 2) mst') as (_ & V2' & _); auto.
    { intros q Hq Hcq. cbn [sp_var da_map get]. rewrite (Hy' q Hq Hcq). apply vsq_Fin. }
    cbn zeta in *. fold u in V1, V2, V3, V1', V2', V3'. cbn [binop get da_map]. rewrite (V1 H0), (V2 H0), (V3 H0), (V1' H0), (V2' H0), (V3' H0).
    assert (0 < wavg P u (fun q => (k * x q) ^ 2)) as Hvp'.
    { rewrite (wavg_ext P u u (fun q => (k * x q) ^ 2) (fun q => k ^ 2 * x q ^ 2)) by (auto; intros; ring). rewrite wavg_scale by auto.
      apply Rmult_lt_0_compat; [|exact Hvp]. rewrite <- Rsqr_pow2. now apply Rsqr_pos_lt. }
    rewrite !vsqrt_Fin by lra. cbn [vmul vdiv]. pose proof (sqrt_lt_R0 _ Hvp) as L1. pose proof (sqrt_lt_R0 _ Hvt) as L2. pose proof (sqrt_lt_R0 _ Hvp') as L3.
    exists (wavg P u (fun q => x q * y q) / (sqrt (wavg P u (fun q => x q ^ 2)) * sqrt (wavg P u (fun q => y q ^ 2)))).
    split.
    - destruct (Req_EM_T _ 0) as [E|]; [|reflexivity]. exfalso. apply Rmult_integral in E. lra.
    - destruct (Req_EM_T _ 0) as [E|]; [exfalso; apply Rmult_integral in E; lra|]. f_equal. now apply acc_scale.
  Qed.
End ACC2.

(** Predictions and targets over the same coordinates, all anomalies finite: the three
    anomaly statistics have the same points and masks. *)
Lemma anomalies_same_sample pv tv c x y :
  wf pv -> wf tv -> wf c -> dims pv = dims tv -> aux pv = aux tv -> NoDup (keys (aux (binop vsub pv c))) ->
  (forall q, point_of (dims (binop vsub pv c)) q -> get (binop vsub pv c) q = Fin (x q)) ->
  (forall q, point_of (dims (binop vsub tv c)) q -> get (binop vsub tv c) q = Fin (y q)) ->
  same_sample (cov_var pv tv c) (sp_var pv c) /\ same_sample (cov_var pv tv c) (sp_var tv c) /\ wf (cov_var pv tv c) /\
  dims (cov_var pv tv c) = dims (binop vsub pv c) /\ aux (cov_var pv tv c) = aux (binop vsub pv c).
Proof.
  intros Wp Wt Wc Hd Ha Hn Hx Hy.
  assert (dims (binop vsub tv c) = dims (binop vsub pv c)) as Ed by (simpl; now rewrite Hd).
  assert (aux (binop vsub tv c) = aux (binop vsub pv c)) as Ea by (simpl; now rewrite Hd, Ha).
  assert (wf (binop vsub pv c)) as W1 by now apply wf_binop. assert (wf (binop vsub tv c)) as W2 by now apply wf_binop.
  assert (wf (cov_var pv tv c)) as W3 by now apply wf_binop.
  assert (dims (cov_var pv tv c) = dims (binop vsub pv c)) as Dc.
  { unfold cov_var. cbn [binop dims]. change (merge_dims inter_labels (dims (binop vsub pv c)) (dims (binop vsub tv c)) = dims (binop vsub pv c)).
    rewrite Ed. apply merge_self. apply W1. }
  assert (aux (cov_var pv tv c) = aux (binop vsub pv c)) as Ac.
  { unfold cov_var. change (merge_aux (dims (cov_var pv tv c)) (aux (binop vsub pv c)) (aux (binop vsub tv c)) = aux (binop vsub pv c)).
    rewrite Ea. now apply merge_aux_self. }
  assert (forall q, point_of (dims (binop vsub pv c)) q -> isnan (get (cov_var pv tv c) q) = false) as Nc.
  { intros q Hq. unfold cov_var. cbn [binop get]. pose proof (Hx q Hq) as K1. rewrite <- Ed in Hq. pose proof (Hy q Hq) as K2. cbn [binop get] in K1, K2. rewrite K1, K2. reflexivity. }
  split; [|split; [|split; [|split]]]; auto.
  - split; [exact (eq_sym Dc)|]. split; [exact (eq_sym Ac)|]. split; [now apply wf_map|]. intros q Hq. rewrite Dc in Hq. rewrite (Nc q Hq).
    cbn [sp_var da_map get]. rewrite (Hx q Hq). reflexivity.
  - split; [rewrite Dc; exact Ed|]. split; [rewrite Ac; exact Ea|]. split; [now apply wf_map|]. intros q Hq. rewrite Dc in Hq. rewrite (Nc q Hq).
    rewrite <- Ed in Hq. cbn [sp_var da_map get]. rewrite (Hy q Hq). reflexivity.
Qed.

Lemma vsub_nan x y : x = NaN \/ y = NaN -> vsub x y = NaN.
Proof. intros [->| ->]; [reflexivity|]. destruct x; reflexivity. Qed.

Theorem det_nan g p t v pv tv e q ws ms m a :
  NoDup (keys p) -> dget p v = Some pv -> dget t v = Some tv -> wf (binop vsub pv tv) -> mask_spans (binop vsub pv tv) ->
  (masked g = false \/ dget (aux (binop vsub pv tv)) "mask" = None) -> skipna g = false ->
  (forall w, In w (weigh_by g) -> uses_coords w) ->
  (forall b, In b (bin_by g) -> uses_coords (create_bin_mask b)) ->
  (forall w s x, In w (weigh_by g) -> w s = Ok x -> wf x) ->
  (forall b s x, In b (bin_by g) -> create_bin_mask b s = Ok x -> wf x) ->
  mapM (fun w => w (binop vsub pv tv)) (weigh_by g) = Ok ws ->
  mapM (fun b => create_bin_mask b (binop vsub pv tv)) (bin_by g) = Ok ms ->
  In m [metric_of_statistic Error; metric_of_statistic AbsoluteError; metric_of_statistic SquaredError; RMSE] ->
  metric_value g p t m v a -> point_of (dims a) e ->
  (forall d, ~ In d (reduce_dims g) -> q d = e d) ->
  (forall x d, In x (binop vsub pv tv :: ws ++ ms) -> In d (reduce_dims g) -> In d (dnames x) -> In (q d) (labels_of (dims x) d)) ->
  get pv q = NaN \/ get tv q = NaN ->
  get a e = NaN.
Proof.
  intros Hn Hp Ht Hwf Hsp Hm Hs Hw Hb Nw Nb Ew Em Hin HM He Hq1 Hq2 HN.
  assert (forall f, f NaN = NaN -> forall m', mean_array g (da_map f (binop vsub pv tv)) m' -> point_of (dims m') e -> get m' e = NaN) as K.
  { intros f Hf m' Hma He'.
    assert (mapM (fun w => w (da_map f (binop vsub pv tv))) (weigh_by g) = Ok ws) as Ew'.
    { rewrite <- Ew. apply mapM_ext. intros w Hw'. apply (Hw w Hw'); reflexivity. }
    assert (mapM (fun b => create_bin_mask b (da_map f (binop vsub pv tv))) (bin_by g) = Ok ms) as Em'.
    { rewrite <- Em. apply mapM_ext. intros w Hw'. apply (Hb w Hw'); reflexivity. }
    apply (nan_mean g (da_map f (binop vsub pv tv)) m' e q ws ms); [exact Hm|exact Hs|exact Hw|exact Hb|exact Nw|exact Nb|exact Hsp| |exact Hma|exact He'|exact Ew'|exact Em'|exact Hq1| |].
    - exact (wf_map f _ Hwf).
    - intros x d [<-|Hx] Hd1 Hd2; [apply (Hq2 (binop vsub pv tv) d (or_introl eq_refl) Hd1 Hd2)|apply (Hq2 x d (or_intror Hx) Hd1 Hd2)].
    - cbn [da_map get binop]. rewrite (vsub_nan _ _ HN). apply Hf. }
  destruct Hin as [<-|[<-|[<-|[<-|[]]]]].
  - apply value_of_per_variable in HM; auto. destruct HM as (p1 & t1 & s1 & E1 & E2 & [= <-] & M1). rewrite Hp in E1. rewrite Ht in E2. injection E1 as <-. injection E2 as <-.
    apply (K (fun x => x)); auto.
  - apply value_of_per_variable in HM; auto. destruct HM as (p1 & t1 & s1 & E1 & E2 & [= <-] & M1). rewrite Hp in E1. rewrite Ht in E2. injection E1 as <-. injection E2 as <-.
    apply (K vabs); auto.
  - apply value_of_per_variable in HM; auto. destruct HM as (p1 & t1 & s1 & E1 & E2 & [= <-] & M1). rewrite Hp in E1. rewrite Ht in E2. injection E1 as <-. injection E2 as <-.
    apply (K vsq); auto.
  - apply value_of_rmse in HM; auto. destruct HM as (p1 & t1 & m4 & E1 & E2 & M4 & ->). rewrite Hp in E1. rewrite Ht in E2. injection E1 as <-. injection E2 as <-.
    cbn [da_map get]. rewrite (K vsq eq_refl m4 M4 He). reflexivity.
Qed.

Theorem acc_full g p t clim v pv tv cv c x y ws wrs ms bs mcov acc e :
  NoDup (keys p) -> dget p v = Some pv -> dget t v = Some tv -> dget clim v = Some cv -> align_climatology pv cv = Ok c ->
  let cov := binop vmul (binop vsub pv c) (binop vsub tv c) in
  weighted_input g cov (fun q => x q * y q) ws wrs ms bs ->
  same_sample cov (da_map vsq (binop vsub pv c)) -> same_sample cov (da_map vsq (binop vsub tv c)) ->
  (forall q, point_of (dims cov) q -> counted g cov q = true ->
     get (binop vsub pv c) q = Fin (x q) /\ get (binop vsub tv c) q = Fin (y q)) ->
  let u := point_weight g cov wrs bs in
  (forall q, 0 <= u q) ->
  metric_value g p t (ACC clim) v acc ->
  metric_value g p t (metric_of_statistic (AnomalyCovariance clim)) v mcov -> point_of (dims mcov) e ->
  exists P, reduced_points (cov :: ws ++ ms) (reduce_dims g) e P /\
    let vp := wavg P u (fun q => x q ^ 2) in let vt := wavg P u (fun q => y q ^ 2) in
    (rsum (map u P) <> 0 -> 0 < vp -> 0 < vt ->
       exists a, get acc e = Fin a /\ a = wavg P u (fun q => x q * y q) / (sqrt vp * sqrt vt) /\ -1 <= a <= 1 /\
         ((forall q, In q P -> u q <> 0 -> x q = y q) -> a = 1)).
Proof.
  intros Hn Hp Ht Hc Hal cov W Sp St Hxy u Hu H H' He.
  destruct (acc_value g p t clim v pv tv cv c x y ws wrs ms bs Hn Hp Ht Hc Hal W Sp St) with (mcov := mcov) (acc := acc) (e := e) as (P & HP & HV); auto.
  { intros q Hq Hcq. apply (Hxy q Hq Hcq). } { intros q Hq Hcq. apply (Hxy q Hq Hcq). }
  exists P. split; [exact HP|]. cbn zeta in *. intros H0 Hvp Hvt. eexists. split; [apply HV; auto|]. split; [reflexivity|]. split.
  - apply (acc_bound g pv tv c x y wrs bs Hu P H0 Hvp Hvt).
  - intros Heq. change (wavg P u (fun q => x q * y q) / (sqrt (wavg P u (fun q => x q ^ 2)) * sqrt (wavg P u (fun q => y q ^ 2))) = 1).
    rewrite (wavg_ext P u u (fun q => x q * y q) (fun q => x q * x q)); auto; [|intros q Hq Hne; now rewrite (Heq q Hq Hne)].
    rewrite (wavg_ext P u u (fun q => y q ^ 2) (fun q => x q ^ 2)); auto; [|intros q Hq Hne; now rewrite (Heq q Hq Hne)].
    now apply acc_perfect.
Qed.
