(** C62: the reliability curve is the frequency of the event among the predictions of each bin. *)
From Coq Require Import String List Bool Reals Lra ZArith.
Import ListNotations.
From Verif Require Import Prelude Values Model_XArray Spec_XArray Proofs_XArray Model_Tree Model_MetricsBase Model_Aggregation
  Spec_Aggregator Proofs_Aggregator Spec_Metrics Proofs_Metrics Spec_Means Proofs_Means Model_Calendar Model_Deterministic Proofs_Deterministic
  Model_Categorical Spec_Reduce Spec_Statistic Spec_Categorical Proofs_Categorical Model_Wrappers Spec_Wrappers Proofs_Transforms Proofs_Transforms2 Props_Transforms Model_Reliability Proofs_Exists Proofs_Seeps.
Local Open Scope R_scope.
Local Open Scope string_scope.
Local Open Scope list_scope.

Lemma wf_diff d a r : wf a -> da_diff d a = Ok r -> wf r.
Proof.
  intros (N & L & G) H. unfold da_diff in H. destruct (memb d (dnames a)) eqn:Em; [|discriminate]. injection H as <-. split; [|split].
  - unfold dnames. cbn [dims]. now rewrite names_map_at.
  - intros n ls I. cbn [dims] in I. apply in_map_iff in I. destruct I as ([k l] & E & I). cbn [fst snd] in E. destruct (eqb k d); injection E as <- <-; [|eauto].
    specialize (L _ _ I). destruct l; [constructor|]. now inversion L.
  - intros e e' K. cbn [get]. unfold dnames in K. cbn [dims] in K. rewrite names_map_at in K. fold (dnames a) in K. apply memb_In in Em. rewrite (K d Em). f_equal; [now apply G|].
    apply G. intros n Hn. unfold upd. match goal with |- (if ?b then _ else _) = _ => destruct b end; [reflexivity|now apply K].
Qed.
Lemma wf_relabel d news a : wf a -> In d (dnames a) -> NoDup news -> wf (relabel d news a).
Proof.
  intros (N & L & G) Hd Hn. split; [|split].
  - unfold dnames. cbn [dims relabel]. now rewrite names_map_const.
  - intros n ls I. cbn [dims relabel] in I. apply in_map_iff in I. destruct I as ([k l] & E & I). cbn [fst snd] in E. destruct (eqb k d); injection E as <- <-; eauto.
  - intros e e' K. cbn [get relabel]. unfold dnames in K. cbn [dims relabel] in K. rewrite names_map_const in K. fold (dnames a) in K. rewrite (K d Hd).
    apply G. intros n Hn'. unfold upd. match goal with |- (if ?b then _ else _) = _ => destruct b end; [reflexivity|now apply K].
Qed.
Lemma wf_cdf name vs x d enf ri c : wf x -> NoDup (map fst vs) -> compute_cdf name (TList vs) x d enf ri = Ok c -> wf c.
Proof.
  intros W N H. unfold compute_cdf in H. cbn [chosen_thresholds bind] in H. match type of H with bind ?m _ = _ => destruct m as [ok|]; [|discriminate] end. cbn [bind] in H.
  destruct ok; [|discriminate]. injection H as <-. pose proof (wf_threshold_array d vs N) as Wt. unfold da_where_nan, notnull. repeat apply wf_binop; try apply wf_map; auto.
Qed.
Lemma wf_bins str2f name vs x d enf y : wf x -> NoDup (map fst vs) -> names_distinct str2f (map fst vs) -> ~ In d (dnames x) -> to_bins str2f name x (TList vs) d enf = Ok y -> wf y.
Proof.
  intros W N Hn Hd H. unfold to_bins in H. destruct (compute_cdf name (TList vs) x d enf true) as [cdf|] eqn:E; [|discriminate]. cbn [bind] in H.
  unfold dgetE in H. destruct (@dget string (list label) _ (dims cdf) d) as [labels|] eqn:El; [|discriminate]. cbn [bind] in H.
  destruct (da_diff d cdf) as [df|] eqn:Ed; [|discriminate]. cbn [bind] in H. injection H as <-.
  pose proof (wf_cdf _ _ _ _ _ _ _ W N E) as Wc. pose proof (wf_diff _ _ _ Wc Ed) as Wd.
  assert (labels = map fst vs) as ->.
  { apply cdf_Ok in E. destruct E as (c & Hc & _ & Hcd & _). injection Hc as <-. rewrite Hcd, (dget_cdf x _ d (map fst vs) Hd) in El; [congruence|]. cbn [threshold_array dims dget fst]. destruct (eq_dec d d); congruence. }
  apply da_diff_Ok in Ed. destruct Ed as (Id & Dd & _). pose proof (wf_relabel d (map (fun lr => bin_name str2f (fst lr) (snd lr)) (neighbours (map fst vs))) df Wd) as R.
  destruct R as (R1 & R2 & R3); [unfold dnames; rewrite Dd, names_map_at; exact Id|now apply names_NoDup|]. split; [exact R1|]. split; [exact R2|exact R3].
Qed.

(** The total weight of the points of [P] with the property [f]. *)
Definition weight_where (P : list env) (u : env -> R) (f : env -> bool) : R := rsum (map (fun q => if f q then u q else 0) P).
(** [lo < x <= hi] *)
Definition in_range (lo hi x : val) : bool := vltb lo x && vleb x hi.

Lemma wrapped_value w f name p t v pv tv st : which w = "predictions" -> NoDup (keys p) -> dget p v = Some pv -> dget t v = Some tv ->
  statistic_value (WrappedStatistic (per_variable_statistic name (fun p t => Ok (Some (contingency f p t)))) w) p t v st ->
  exists y, transform_fn w v pv = Ok y /\ st = contingency f y tv.
Proof.
  intros Hw N Hp Ht (raw & H & D). cbn [compute WrappedStatistic] in H. rewrite Hw in H. cbn -[per_variable_statistic apply_transform compute] in H.
  destruct (apply_transform w p) as [p'|] eqn:E; [|discriminate]. cbn [bind] in H.
  assert (keys p' = keys p /\ forall k x, dget p' k = Some x -> exists x0, dget p k = Some x0 /\ transform_fn w k x0 = Ok x) as [K1 K2].
  { clear - E. revert p' E. unfold apply_transform. induction p as [|[k x0] p IH]; intros p' E; cbn [mapM fst snd] in E.
    - injection E as <-. split; [reflexivity|]. intros k x K. discriminate K.
    - destruct (transform_fn w k x0) as [x1|] eqn:Ex; [|discriminate]. cbn [bind] in E. destruct (mapM _ p) as [r|] eqn:Er; [|discriminate]. cbn [bind] in E. injection E as <-.
      destruct (IH r eq_refl) as [I1 I2]. split; [change (k :: keys r = k :: keys p); now f_equal|]. intros k' x. cbn [dget fst snd]. destruct (eq_dec k' k) as [->|]; [intros [= <-]; eauto|apply I2]. }
  apply (per_variable_statistic_spec name) in H; [|now rewrite K1]. destruct H as [_ H]. apply H in D. destruct D as (y & b & Hy & Hb & [= <-]).
  destruct (K2 _ _ Hy) as (x0 & E0 & E1). rewrite Hp in E0. injection E0 as <-. rewrite Ht in Hb. injection Hb as <-. eauto.
Qed.
Lemma wrapped_outputs w f name p t raw : NoDup (keys p) ->
  compute (WrappedStatistic (per_variable_statistic name (fun p t => Ok (Some (contingency f p t)))) w) p t = Ok raw -> NoDup (keys raw).
Proof.
  intros N H. cbn [compute WrappedStatistic] in H. repeat match type of H with bind ?m _ = _ => destruct m; [|discriminate]; cbn [bind] in H end.
  eapply per_var_outputs. exact H.
Qed.
Lemma increasing_edges str2f name x vs d y l l' lo hi : NoDup (map fst vs) -> wf x -> to_bins str2f name x (TList vs) d true = Ok y ->
  consecutive vs (l, lo) (l', hi) -> vltb lo hi = true.
Proof.
  intros N W H C. unfold to_bins in H. destruct (compute_cdf name (TList vs) x d true true) as [c|] eqn:E; [|discriminate]. clear H.
  assert (exists tr, ContinuousToCDF (fun _ => "") "predictions" (TList vs) d (Some "") true true = Ok tr) as [tr Htr] by (eexists; reflexivity).
  destruct (C33_monotonicity (fun _ => "") "predictions" (TList vs) d (Some "") true tr name x (threshold_array d vs) Htr (threshold_array_for name d vs) (wf_threshold_array d vs N) W N) as [M _].
  destruct (M vs eq_refl) as [M1 _]. assert (exists y, transform_fn tr name x = Ok y) as Hy by (exists c; rewrite (cdf_fun _ _ _ _ _ _ _ _ Htr); exact E).
  pose proof (proj1 M1 Hy env0 l l') as I. clear M1 M E Hy.
  assert (forall k z, In (k, z) vs -> get (threshold_array d vs) (upd env0 d k) = z) as G.
  { intros k z Hk. cbn [threshold_array get]. rewrite upd_same, (In_dget vs k z); auto. }
  destruct C as (l1 & l2 & Ev). rewrite <- (G l lo), <- (G l' hi); [|rewrite Ev; apply in_app_iff; right; right; now left|rewrite Ev; apply in_app_iff; right; now left].
  apply I.
  - intros n ls [[= <- <-]|[]]. rewrite upd_same, Ev, map_app. apply in_app_iff. right. now left.
  - unfold labels_of. cbn [threshold_array dims dget]. destruct (eq_dec d d); [|congruence]. rewrite Ev, map_app. exists (map fst l1), (map fst l2). reflexivity.
Qed.

Lemma point_left f x y e : point_of (dims (binop f x y)) e -> point_of (dims x) e.
Proof.
  intros H d ls Hin. cbn [dims binop] in H. unfold merge_dims in H. destruct (dget (dims y) d) as [l|] eqn:E.
  - specialize (H d (inter_labels ls l)). assert (In (e d) (inter_labels ls l)) as HH; [|apply In_inter in HH; tauto].
    apply H. apply in_app_iff. left. apply in_map_iff. exists (d, ls). split; auto. cbn [fst snd]. now rewrite E.
  - apply H. apply in_app_iff. left. apply in_map_iff. exists (d, ls). split; auto. cbn [fst snd]. now rewrite E.
Qed.
Lemma weight_where_nonneg P u f : (forall q, 0 <= u q) -> 0 <= weight_where P u f.
Proof. intros H. unfold weight_where. apply rsum_nonneg. intros z Hz. apply in_map_iff in Hz. destruct Hz as (q & <- & _). destruct (f q); [apply H|lra]. Qed.
Lemma weight_where_le P u f h : (forall q, 0 <= u q) -> (forall q, f q = true -> h q = true) -> weight_where P u f <= weight_where P u h.
Proof.
  intros H I. unfold weight_where. induction P as [|q P IH]; [apply Rle_refl|]. cbn [map rsum]. apply Rplus_le_compat; [|exact IH].
  specialize (H q). specialize (I q). destruct (f q); [rewrite I by reflexivity; lra|]. destruct (h q); lra.
Qed.

Section Curve.
  Variables (str str2f : label -> string) (vs : list (label * val)) (d : string) (sfx : option string) (m : metric da).
  Variables (g : aggregator) (p t : vars da) (v : string) (pv tv : da) (tps : statistic da) (st : da).
  Variables (s : env -> R) (ws : list da) (wrs : list (env -> R)) (ms : list da) (bs : list (env -> bool)).
  Hypothesis Hm : Reliability str str2f vs d sfx = Ok m.
  Hypothesis Hvs : NoDup (map fst vs).
  Hypothesis Hnames : names_distinct str2f (map fst vs).
  Hypothesis Hn : NoDup (keys p).
  Hypothesis Hp : dget p v = Some pv.
  Hypothesis Ht : dget t v = Some tv.
  Hypothesis Wp : wf pv.
  Hypothesis Wt : wf tv.
  Hypothesis Hd : ~ In d (dnames pv).
  Hypothesis Hdt : ~ In d time_dims.
  Hypothesis Hdr : ~ In d (reduce_dims g).
  Hypothesis Htp : dget (statistics m) "TruePositives" = Some tps.
  Hypothesis Hst : statistic_value tps p t v st.
  Hypothesis W : weighted_input g st s ws wrs ms bs.
  Let u := point_weight g st wrs bs.
  Hypothesis Hu : forall q, 0 <= u q.

  (** In the bin [(lo, hi]] the value is the weight of the points that are predicted in the
      bin and where the event occurred, divided by the weight of all points predicted in the
      bin; NaN if that is 0. *)
  Theorem C62_bin : forall a e l l' lo hi, metric_value g p t m v a -> point_of (dims a) e ->
    consecutive vs (l, lo) (l', hi) -> e d = LS (str2f l ++ " < p <= " ++ str2f l') ->
    exists P, reduced_points (st :: ws ++ ms) (reduce_dims g) e P /\
      quotient (weight_where P u (fun q => in_range lo hi (get pv q) && vtruthy (get tv q)))
               (weight_where P u (fun q => in_range lo hi (get pv q))) (get a e).
  Proof.
    intros a e l l' lo hi Ha He Hc Ed. unfold Reliability in Hm. destruct (ContinuousToBins str str2f "predictions" (TList vs) d sfx true) as [w|] eqn:Ew; [|discriminate]. cbn [bind] in Hm. injection Hm as <-.
    cbn in Htp. injection Htp as <-.
    assert (which w = "predictions") as Hw.
    { clear - Ew. unfold ContinuousToBins in Ew. destruct (threshold_suffix str (TList vs) sfx); [|discriminate]. cbn [bind] in Ew. now apply input_transform_Ok in Ew. }
    destruct (wrapped_value w _ _ p t v pv tv st Hw Hn Hp Ht Hst) as (y & Hy & ->).
    apply value_of_metric in Ha.
    2: { intros s0 raw [<-|[<-|[]]] Hraw; eapply wrapped_outputs; eauto. }
    2: { intros s1 s2 [<-|[<-|[]]] [<-|[<-|[]]] E; try reflexivity; discriminate E. }
    2: { repeat constructor; cbn; intuition discriminate. }
    destruct Ha as (per & HF & F). inversion F as [|? [n1 a1] ? ? [E1 (r1 & t1 & R1 & D1 & M1)] F2]; subst. inversion F2 as [|? [n2 a2] ? ? [E2 (r2 & t2 & R2 & D2 & M2)] F3]; subst. inversion F3; subst. cbn [fst snd] in *. subst n1 n2. clear F F2 F3.
    destruct (wrapped_value w _ _ p t v pv tv t1 Hw Hn Hp Ht (ex_intro _ r1 (conj R1 D1))) as (y1 & Hy1 & ->). rewrite Hy in Hy1. injection Hy1 as <-.
    destruct (wrapped_value w _ _ p t v pv tv t2 Hw Hn Hp Ht (ex_intro _ r2 (conj R2 D2))) as (y2 & Hy2 & ->). rewrite Hy in Hy2. injection Hy2 as <-.
    cbn -[binop vdiv vadd] in HF. injection HF as <-.
    pose proof Hy as Hyb. rewrite (bins_fun _ _ _ _ _ _ _ _ Ew) in Hyb. pose proof (wf_bins _ _ _ _ _ _ _ Wp Hvs Hnames Hd Hyb) as Wy.
    pose proof (increasing_edges _ _ _ _ _ _ _ _ _ _ Hvs Wp Hyb Hc) as Hlt.
    pose proof (point_left _ _ _ _ He) as He1. destruct (joint_means g _ s ws wrs ms bs a1 e W M1 He1) as (P & HP & HPin & HJ). exists P. split; [exact HP|].
    assert (forall q, In q P -> q d = e d) as Hqd by (intros q Hq; apply HP in Hq; apply Hq; tauto).
    assert (forall q, q d = e d -> isnan (get pv q) = false -> get y q = Fin (if in_range lo hi (get pv q) then 1 else 0)) as Hval.
    { intros q Hq Hx. destruct (C33_bins str str2f "predictions" (TList vs) d sfx true w v pv (threshold_array d vs) y q l l' Ew (threshold_array_for v d vs) (wf_threshold_array d vs Hvs) Wp Hvs Hd Hdt) as (_ & _ & K & _).
      - unfold labels_of. cbn [threshold_array dims dget]. destruct (eq_dec d d); [exact Hnames|congruence].
      - exact Hy.
      - unfold labels_of. cbn [threshold_array dims dget]. destruct (eq_dec d d); [|congruence]. destruct Hc as (l1 & l2 & ->). rewrite map_app. exists (map fst l1), (map fst l2). reflexivity.
      - now rewrite Hq.
      - cbv zeta in K. cbn [threshold_used threshold_array get] in K. rewrite !upd_same in K.
        assert (dget vs l = Some lo /\ dget vs l' = Some hi) as [El El'].
        { destruct Hc as (l1 & l2 & ->). split; apply In_dget; auto; apply in_app_iff; right; [now left|right; now left]. }
        rewrite El, El' in K. exact (K Hx Hlt). }
    assert (forall q, In q P -> u q <> 0 -> isnan (get pv q) = false /\ isnan (vmul (get y q) (get tv q)) = false) as Hfin.
    { intros q Hq Huq. unfold u, point_weight in Huq. destruct (counted g _ q) eqn:Ec; [|cbn [andb] in Huq; congruence].
      pose proof (wi_finite _ _ _ _ _ _ _ W q (HPin q Hq) Ec) as Hf. rewrite contingency_get in Hf. destruct (isnan (vmul (get y q) (get tv q))) eqn:En; [discriminate|]. split; [|reflexivity].
      destruct (isnan (get pv q)) eqn:Ex; [|reflexivity]. exfalso.
      destruct (C33_bins str str2f "predictions" (TList vs) d sfx true w v pv (threshold_array d vs) y q l l' Ew (threshold_array_for v d vs) (wf_threshold_array d vs Hvs) Wp Hvs Hd Hdt) as (_ & K & _).
      - unfold labels_of. cbn [threshold_array dims dget]. destruct (eq_dec d d); [exact Hnames|congruence].
      - exact Hy.
      - unfold labels_of. cbn [threshold_array dims dget]. destruct (eq_dec d d); [|congruence]. destruct Hc as (l1 & l2 & ->). rewrite map_app. exists (map fst l1), (map fst l2). reflexivity.
      - now rewrite (Hqd q Hq).
      - rewrite (K (or_introl Ex)) in En. cbn in En. discriminate. }
    set (yes := fun (f : bool -> bool -> bool) q => if f (vtruthy (get y q)) (vtruthy (get tv q)) then 1 else 0).
    assert (forall f m', mean_array g (contingency f y tv) m' -> (rsum (map u P) <> 0 -> get m' e = Fin (wavg P u (yes f))) /\ (rsum (map u P) = 0 -> get m' e = NaN)) as Hmean.
    { intros f m' Hm'. destruct (HJ (contingency f y tv) (yes f) m') as (_ & A & B); auto.
      - split; [reflexivity|]. split; [reflexivity|]. split; [unfold contingency, da_where_nan, notnull; repeat apply wf_binop; try apply wf_map; try apply wf_binop; auto|].
        intros q _. rewrite !contingency_get. destruct (isnan (vmul _ _)); reflexivity.
      - intros q Hq Ec. pose proof (wi_finite _ _ _ _ _ _ _ W q Hq Ec) as Hf. rewrite contingency_get in *. destruct (isnan (vmul _ _)); [discriminate|]. reflexivity. }
    assert (forall f h, (forall x z, f x z = x && h z) -> forall q, In q P -> u q * yes f q = if in_range lo hi (get pv q) && h (vtruthy (get tv q)) then u q else 0) as Hyes.
    { intros f h Hf q Hq. destruct (Req_dec (u q) 0) as [E0|E0]; [rewrite E0; destruct (_ && _); ring|]. destruct (Hfin q Hq E0) as [Hx _].
      unfold yes. rewrite Hf, (Hval q (Hqd q Hq) Hx). destruct (in_range lo hi (get pv q)).
      - change (vtruthy (Fin 1)) with (vtruthy (b2v true)). rewrite vtruthy_b2v. cbn [andb]. destruct (h _); ring.
      - change (vtruthy (Fin 0)) with (vtruthy (b2v false)). rewrite vtruthy_b2v. cbn [andb]. ring. }
    destruct (Hmean _ _ M1) as [A1 B1]. destruct (Hmean _ _ M2) as [A2 B2]. cbn [get binop].
    set (T := weight_where P u (fun q => in_range lo hi (get pv q) && vtruthy (get tv q))). set (N := weight_where P u (fun q => in_range lo hi (get pv q))).
    set (FPw := weight_where P u (fun q => in_range lo hi (get pv q) && negb (vtruthy (get tv q)))).
    assert (N = T + FPw) as EN.
    { unfold N, T, FPw, weight_where. rewrite <- rsum_map_add. apply rsum_map_ext. intros q _. destruct (in_range _ _ _), (vtruthy _); cbn [andb negb]; ring. }
    assert (0 <= T /\ 0 <= FPw) as [HT HFw] by (split; apply weight_where_nonneg; exact Hu).
    destruct (Req_dec (rsum (map u P)) 0) as [E0|E0].
    - rewrite (B1 E0), (B2 E0). left. split; [|reflexivity].
      assert (N <= rsum (map u P)) as Hle.
      { unfold N, weight_where. apply rsum_map_le. intros q _. specialize (Hu q). destruct (in_range _ _ _); lra. }
      assert (0 <= N) by (unfold N; now apply weight_where_nonneg). lra.
    - rewrite (A1 E0), (A2 E0). cbn [vadd]. unfold wavg.
      rewrite (rsum_map_ext (fun q => u q * yes (fun x y => x && y) q) (fun q => if in_range lo hi (get pv q) && vtruthy (get tv q) then u q else 0) P) by (intros q Hq; apply (Hyes _ (fun z => z)); auto).
      rewrite (rsum_map_ext (fun q => u q * yes (fun x y => x && negb y) q) (fun q => if in_range lo hi (get pv q) && negb (vtruthy (get tv q)) then u q else 0) P) by (intros q Hq; apply (Hyes _ negb); auto).
      change (rsum (map (fun q => if in_range lo hi (get pv q) && vtruthy (get tv q) then u q else 0) P)) with T.
      change (rsum (map (fun q => if in_range lo hi (get pv q) && negb (vtruthy (get tv q)) then u q else 0) P)) with FPw.
      set (U := rsum (map u P)) in *. rewrite EN. 
      assert (T / U + FPw / U = (T + FPw) / U) as -> by (field; exact E0).
      destruct (Req_dec (T + FPw) 0) as [E1|E1].
      + left. split; [exact E1|]. assert (T = 0) as -> by lra. assert (FPw = 0) as -> by lra. replace (0 / U) with 0 by (field; exact E0). replace ((0 + 0) / U) with 0 by (field; exact E0).
        destruct (vdiv_quot 0 0) as [[_ K]|[K _]]; [lra|lra|exact K|lra].
      + right. split; [exact E1|]. rewrite vdiv_Fin; [f_equal; field; auto|]. intros K. apply E1. apply (Rmult_eq_reg_r (/ U)); [unfold Rdiv in K; rewrite K; ring|now apply Rinv_neq_0_compat].
  Qed.

  (** The value is NaN exactly when no weight is predicted in the bin, otherwise between 0 and 1. *)
  Theorem C62_range : forall a e l l' lo hi, metric_value g p t m v a -> point_of (dims a) e ->
    consecutive vs (l, lo) (l', hi) -> e d = LS (str2f l ++ " < p <= " ++ str2f l') ->
    exists P, reduced_points (st :: ws ++ ms) (reduce_dims g) e P /\
      (get a e = NaN <-> forall q, In q P -> in_range lo hi (get pv q) = true -> u q = 0) /\
      (get a e <> NaN -> exists x, get a e = Fin x /\ 0 <= x <= 1 /\
         (x = 1 <-> forall q, In q P -> in_range lo hi (get pv q) = true -> u q <> 0 -> vtruthy (get tv q) = true) /\
         (x = 0 <-> forall q, In q P -> in_range lo hi (get pv q) = true -> u q <> 0 -> vtruthy (get tv q) = false)).
  Proof.
    intros a e l l' lo hi Ha He Hc Ed. destruct (C62_bin a e l l' lo hi Ha He Hc Ed) as (P & HP & Q). exists P. split; [exact HP|].
    assert (forall f, weight_where P u f = 0 <-> forall q, In q P -> f q = true -> u q = 0) as Z.
    { intros f. split.
      - intros H q Hq Hf. unfold weight_where in H. assert (forall z, In z (map (fun q => if f q then u q else 0) P) -> z = 0) as K.
        { apply rsum_zero_iff; [|exact H]. intros z Hz. apply in_map_iff in Hz. destruct Hz as (q' & <- & _). destruct (f q'); [apply Hu|lra]. }
        apply (K (u q)). apply in_map_iff. exists q. now rewrite Hf.
      - intros H. unfold weight_where. rewrite (rsum_map_ext _ (fun _ => 0)); [rewrite rsum_map_const; lra|]. intros q Hq. destruct (f q) eqn:E; auto. }
    set (T := weight_where P u (fun q => in_range lo hi (get pv q) && vtruthy (get tv q))) in *. set (N := weight_where P u (fun q => in_range lo hi (get pv q))) in *.
    set (Fw := weight_where P u (fun q => in_range lo hi (get pv q) && negb (vtruthy (get tv q)))).
    assert (N = T + Fw) as EN.
    { unfold N, T, Fw, weight_where. rewrite <- rsum_map_add. apply rsum_map_ext. intros q _. destruct (in_range _ _ _), (vtruthy _); cbn [andb negb]; ring. }
    assert (0 <= T) as HT by (apply weight_where_nonneg; exact Hu). assert (0 <= Fw) as HF by (apply weight_where_nonneg; exact Hu).
    assert (get a e = NaN <-> N = 0) as HN.
    { destruct Q as [[E K]|[E K]]; rewrite K; [tauto|]. split; [discriminate|contradiction]. }
    split; [rewrite HN; apply Z|]. intros Hne. assert (N <> 0) as Hn0 by tauto. destruct Q as [[E _]|[_ K]]; [contradiction|]. exists (T / N). split; [exact K|].
    assert (0 < N) as Hpos by lra.
    assert (0 <= T / N <= 1) as HB.
    { split; [apply Rmult_le_pos; [lra|left; now apply Rinv_0_lt_compat]|]. apply Rmult_le_reg_r with N; [lra|]. unfold Rdiv. rewrite Rmult_assoc, Rinv_l by lra. lra. }
    split; [exact HB|]. split.
    - assert (T / N = 1 <-> Fw = 0) as ->.
      { split; intros H; [|rewrite EN, H, Rplus_0_r; field; lra]. assert (T = N) by (rewrite <- (Rmult_1_l N), <- H; field; lra). lra. }
      unfold Fw. rewrite Z. split; intros H q Hq.
      + intros Hr Huq. destruct (vtruthy (get tv q)) eqn:E; [reflexivity|]. exfalso. apply Huq, H; auto. cbn beta. now rewrite Hr, E.
      + intros Hr. apply andb_true_iff in Hr. destruct Hr as [Hr Hnt]. destruct (Req_dec (u q) 0); auto. rewrite (H q Hq Hr) in Hnt by auto. discriminate.
    - assert (T / N = 0 <-> T = 0) as ->.
      { split; intros H; [|rewrite H; field; lra]. rewrite <- (Rmult_0_l N), <- H. field. lra. }
      unfold T. rewrite Z. split; intros H q Hq.
      + intros Hr Huq. destruct (vtruthy (get tv q)) eqn:E; [|reflexivity]. exfalso. apply Huq, H; auto. cbn beta. now rewrite Hr, E.
      + intros Hr. apply andb_true_iff in Hr. destruct Hr as [Hr Hnt]. destruct (Req_dec (u q) 0); auto. rewrite (H q Hq Hr) in Hnt by auto. discriminate.
  Qed.
End Curve.
Print Assumptions C62_bin.
Print Assumptions C62_range.


(** Bin edges that do not increase make every evaluation fail. *)
Theorem C62_errors : forall str str2f vs d sfx g p t v pv,
  exists m, Reliability str str2f vs d sfx = Ok m /\
    (dget p v = Some pv -> wf pv -> NoDup (map fst vs) -> (exists l l' lo hi, consecutive vs (l, lo) (l', hi) /\ vltb lo hi = false) -> evaluate g [("metric", m)] p t = Err ValueError).
Proof.
  intros str str2f vs d sfx g p t v pv. destruct (ContinuousToBins str str2f "predictions" (TList vs) d sfx true) as [w|x] eqn:Ew.
  2: { exfalso. unfold ContinuousToBins in Ew. destruct sfx; discriminate Ew. }
  eexists. split; [unfold Reliability; rewrite Ew; reflexivity|]. intros Hp W N (l & l' & lo & hi & C & Hlt).
  assert (which w = "predictions") as Hw.
  { unfold ContinuousToBins in Ew. destruct (threshold_suffix str (TList vs) sfx); [|discriminate]. cbn [bind] in Ew. now apply input_transform_Ok in Ew. }
  assert (forall s, exists x, compute (WrappedStatistic s w) p t = Err x) as K.
  { intros s. cbn [compute WrappedStatistic]. rewrite Hw. change (memb "predictions" ["predictions"; "both"]) with true. cbv iota.
    destruct (apply_transform w p) as [p'|x] eqn:E; [|exists x; reflexivity]. exfalso.
    unfold apply_transform in E. apply dget_In in Hp. revert p' E. induction p as [|[k x0] p IH]; intros p' E; [destruct Hp|]. cbn [mapM fst snd] in E.
    destruct (transform_fn w k x0) as [x1|] eqn:Ex; [|discriminate]. cbn [bind] in E. destruct (mapM _ p) as [r|] eqn:Er; [|discriminate].
    destruct Hp as [[= <- <-]|Hp]; [|eapply IH; eauto]. rewrite (bins_fun _ _ _ _ _ _ _ _ Ew) in Ex. rewrite (increasing_edges _ _ _ _ _ _ _ _ _ _ N W Ex C) in Hlt. discriminate. }
  unfold evaluate, compute_unique_statistics. destruct (K TruePositives) as [x Hx].
  cbn [unique_statistics]. unfold unique_statistics. cbn [values map snd statistics per_variable_metric fold_left dset].
  destruct (eq_dec _ _) as [E|_]; [exfalso; discriminate E|]. cbn [mapM fst snd]. rewrite Hx. reflexivity.
Qed.
Print Assumptions C62_errors.

(** ** Example: two predictions of 1/4, the event occurs once; no prediction above 1/2. *)
Definition rel_edges : list (label * val) := [(LZ 0, Fin 0); (LZ 1, Fin (1 / 2)); (LZ 2, Fin 1)].
Definition rel_str2f (l : label) : string := match l with LZ 0 => "0.00" | LZ 1 => "0.50" | _ => "1.00" end.
Definition rel_pred : da := mkDa [("valid_time", [LZ 0; LZ 1])] (fun _ => Fin (1 / 4)) [].
Definition rel_obs : da := mkDa [("valid_time", [LZ 0; LZ 1])] (fun e => Fin (if eqb (e "valid_time") (LZ 0) then 1 else 0)) [].
Definition rel_agg : aggregator := mkAgg ["valid_time"] [] [] false false.
Definition low_bin : env := upd env0 "bin" (LS "0.00 < p <= 0.50").
Definition high_bin : env := upd env0 "bin" (LS "0.50 < p <= 1.00").
Lemma rel_bins : exists f c, to_bins rel_str2f "t" rel_pred (TList rel_edges) "bin" true =
  Ok (mkDa [("valid_time", [LZ 0; LZ 1]); ("bin", [LS "0.00 < p <= 0.50"; LS "0.50 < p <= 1.00"])] f c) /\ keys c = ["bin_left"; "bin_right"].
Proof.
  unfold to_bins, compute_cdf. cbn [chosen_thresholds bind].
  assert (exists df, da_diff "bin" (threshold_array "bin" rel_edges) = Ok df /\ all_positive df = true) as (df & E1 & E2).
  { eexists. split; [reflexivity|]. unfold all_positive. cbn -[Rltb Rplus Ropp Rminus]. unfold Rminus. rewrite !(proj2 (Rltb_true _ _)) by lra. reflexivity. }
  rewrite E1. cbn [bind]. rewrite E2. eexists _, _. split; reflexivity.
Qed.

Lemma wf_rel_pred : wf rel_pred.
Proof. split; [repeat constructor; intros []|]. split; [intros d ls [[= <- <-]|[]]; repeat constructor; cbn; intuition discriminate|]. reflexivity. Qed.
Lemma wf_rel_obs : wf rel_obs.
Proof.
  split; [repeat constructor; intros []|]. split; [intros d ls [[= <- <-]|[]]; repeat constructor; cbn; intuition discriminate|].
  intros e e' K. cbn [get rel_obs]. rewrite (K "valid_time") by (now left). reflexivity.
Qed.
Lemma rel_names : NoDup (map fst rel_edges) /\ names_distinct rel_str2f (map fst rel_edges).
Proof.
  split; [repeat constructor; cbn; intuition discriminate|]. intros a b a' b' C C'. apply consecutive_neighbours in C, C'.
  destruct C as [[= <- <-]|[[= <- <-]|[]]], C' as [[= <- <-]|[[= <- <-]|[]]]; intros E; try discriminate E; auto.
Qed.
Lemma merge_aux_keys ds x y k : In k (keys (merge_aux ds x y)) -> In k (keys x) \/ In k (keys y).
Proof.
  unfold merge_aux, keys. rewrite map_app, in_app_iff. intros [H|H]; apply in_map_iff in H; destruct H as (z & <- & H); apply filter_In in H; destruct H as [H _]; [left|right]; now apply in_map.
Qed.
Example C62_example : exists m tps st s a, Reliability rel_str2f rel_str2f rel_edges "bin" None = Ok m /\
  dget (statistics m) "TruePositives" = Some tps /\ statistic_value tps [("t", rel_pred)] [("t", rel_obs)] "t" st /\
  weighted_input rel_agg st s [] [] [] [] /\
  metric_value rel_agg [("t", rel_pred)] [("t", rel_obs)] m "t" a /\
  point_of (dims a) low_bin /\ point_of (dims a) high_bin /\ get a low_bin = Fin (1 / 2) /\ get a high_bin = NaN.
Proof.
  destruct (ContinuousToBins rel_str2f rel_str2f "predictions" (TList rel_edges) "bin" None true) as [w|x] eqn:Ew; [|discriminate].
  destruct rel_bins as (f & c & Hb & Hk).
  set (y := mkDa [("valid_time", [LZ 0; LZ 1]); ("bin", [LS "0.00 < p <= 0.50"; LS "0.50 < p <= 1.00"])] f c) in *.
  assert (which w = "predictions") as Hw by (injection Ew as <-; reflexivity).
  assert (forall h name, compute (WrappedStatistic (per_variable_statistic name (fun p t => Ok (Some (contingency h p t)))) w) [("t", rel_pred)] [("t", rel_obs)] = Ok [("t", contingency h y rel_obs)]) as Hc.
  { intros h name. cbn [compute WrappedStatistic]. rewrite Hw. change (memb "predictions" ["predictions"; "both"]) with true. change (memb "predictions" ["targets"; "both"]) with false. cbv iota.
    unfold apply_transform. cbn [mapM fst snd]. rewrite (bins_fun _ _ _ _ _ _ _ _ Ew), Hb. reflexivity. }
  destruct rel_names as [N1 N2]. assert (forall a b, a < b -> vltb (Fin a) (Fin b) = true) as L by (intros a b H; apply Rltb_true; exact H).
  assert (forall e, e "bin" = LS "0.00 < p <= 0.50" -> get y e = Fin 1) as Y1.
  { intros e He.
    destruct (C33_bins rel_str2f rel_str2f "predictions" (TList rel_edges) "bin" None true w "t" rel_pred (threshold_array "bin" rel_edges) y e (LZ 0) (LZ 1) Ew (threshold_array_for "t" "bin" rel_edges) (wf_threshold_array "bin" rel_edges N1) wf_rel_pred N1) as (_ & _ & K & _).
    - cbn. intuition discriminate.
    - cbn. intuition discriminate.
    - exact N2.
    - rewrite (bins_fun _ _ _ _ _ _ _ _ Ew). exact Hb.
    - exists [], [LZ 2]. reflexivity.
    - exact He.
    - cbn -[vltb vleb y] in K. rewrite (L 0 (1 / 2)), (L 0 (1 / 4)) in K by lra. rewrite vleb_Fin, (proj2 (Rleb_true _ _)) in K by lra. exact (K eq_refl eq_refl). }
  assert (forall e, e "bin" = LS "0.50 < p <= 1.00" -> get y e = Fin 0) as Y2.
  { intros e He.
    destruct (C33_bins rel_str2f rel_str2f "predictions" (TList rel_edges) "bin" None true w "t" rel_pred (threshold_array "bin" rel_edges) y e (LZ 1) (LZ 2) Ew (threshold_array_for "t" "bin" rel_edges) (wf_threshold_array "bin" rel_edges N1) wf_rel_pred N1) as (_ & _ & K & _).
    - cbn. intuition discriminate.
    - cbn. intuition discriminate.
    - exact N2.
    - rewrite (bins_fun _ _ _ _ _ _ _ _ Ew). exact Hb.
    - exists [LZ 0], []. reflexivity.
    - exact He.
    - cbn -[vltb vleb y] in K. rewrite (L (1 / 2) 1) in K by lra. assert (vltb (Fin (1 / 2)) (Fin (1 / 4)) = false) as L' by (apply Rltb_false; lra). rewrite L' in K. exact (K eq_refl eq_refl). }
  assert (forall h, exists mm, mean_array rel_agg (contingency h y rel_obs) mm /\ dims mm = [("bin", [LS "0.00 < p <= 0.50"; LS "0.50 < p <= 1.00"])] /\
    forall x a b, get (contingency h y rel_obs) (upd (upd env0 "bin" x) "valid_time" (LZ 0)) = Fin a -> get (contingency h y rel_obs) (upd (upd env0 "bin" x) "valid_time" (LZ 1)) = Fin b ->
      get mm (upd env0 "bin" x) = Fin ((a + b) / 2)) as Hm.
  { intros h. assert (exists gst auxs, contingency h y rel_obs = mkDa [("valid_time", [LZ 0; LZ 1]); ("bin", [LS "0.00 < p <= 0.50"; LS "0.50 < p <= 1.00"])] gst auxs) as (gst & auxs & ->) by (eexists _, _; reflexivity).
    eexists. split; [eexists _, _; split; reflexivity|]. split; [reflexivity|].
    intros x a b Ha Hb'. cbn [get] in Ha, Hb'. cbn -[vdiv vadd vmul env0 upd]. rewrite Ha, Hb'. cbn [vmul vadd]. rewrite vdiv_Fin by lra. f_equal. field. }
  assert (forall x, get (contingency (fun x y => x && y) y rel_obs) x = if isnan (vmul (get y x) (get rel_obs x)) then NaN else b2v (vtruthy (get y x) && vtruthy (get rel_obs x))) as G1 by (intros; apply contingency_get).
  assert (forall x, get (contingency (fun x y => x && negb y) y rel_obs) x = if isnan (vmul (get y x) (get rel_obs x)) then NaN else b2v (vtruthy (get y x) && negb (vtruthy (get rel_obs x)))) as G2 by (intros; apply contingency_get).
  destruct (Hm (fun x y => x && y)) as (m1 & M1 & D1 & V1). destruct (Hm (fun x y => x && negb y)) as (m2 & M2 & D2 & V2).
  assert (vtruthy (Fin 1) = true /\ vtruthy (Fin 0) = false) as [T1 T0] by (split; [apply (vtruthy_b2v true)|apply (vtruthy_b2v false)]).
  assert (forall b x, get rel_obs (upd (upd env0 "bin" x) "valid_time" (LZ b)) = Fin (if (b =? 0)%Z then 1 else 0)) as O.
  { intros b x. cbn [get rel_obs]. rewrite upd_same. unfold eqb. destruct (eq_dec (LZ b) (LZ 0)) as [E|E], (Z.eqb_spec b 0); try reflexivity; congruence. }
  eexists _, _, (contingency (fun x y => x && y) y rel_obs), (fun e => match get (contingency (fun x y => x && y) y rel_obs) e with Fin r => r | _ => 0 end), (binop vdiv m1 (binop vadd m1 m2)).
  split; [unfold Reliability; rewrite Ew; reflexivity|]. split; [reflexivity|]. split; [eexists; split; [apply Hc|reflexivity]|].
  split; [|split; [|split; [|split; [|split]]]].
  - assert (wf y) as Wy by (apply (wf_bins rel_str2f "t" rel_edges rel_pred "bin" true y wf_rel_pred N1 N2); [cbn; intuition discriminate|exact Hb]).
    constructor; [| |intros ? []|intros ? []|reflexivity|reflexivity|intros ? []|constructor|constructor|].
    + unfold contingency, da_where_nan, notnull. repeat apply wf_binop; try apply wf_map; try apply wf_binop; auto using wf_rel_obs.
    + intros cc Hcc. exfalso. apply dget_Some_keys in Hcc. unfold contingency, da_where_nan, notnull in Hcc. cbn [aux binop da_map] in Hcc.
      repeat (apply merge_aux_keys in Hcc; destruct Hcc as [Hcc|Hcc]); try (change (In "mask" (keys c)) in Hcc; rewrite Hk in Hcc); cbn in Hcc; intuition discriminate.
    + intros e He _. assert (In (e "bin") [LS "0.00 < p <= 0.50"; LS "0.50 < p <= 1.00"]) as Ib by (apply (He "bin"); right; now left).
      rewrite G1. assert (exists r, get y e = Fin r) as [r ->] by (destruct Ib as [Ib|[Ib|[]]]; [rewrite (Y1 e (eq_sym Ib))|rewrite (Y2 e (eq_sym Ib))]; eauto). cbn [get rel_obs vmul isnan]. reflexivity.
  - eapply metric_value_intro with (per := [("TruePositives", m1); ("FalsePositives", m2)]).
    + discriminate.
    + repeat constructor; cbn; intuition discriminate.
    + intros s1 s2 [<-|[<-|[]]] [<-|[<-|[]]] E; try reflexivity; discriminate E.
    + constructor; [|constructor; [|constructor]]; (split; [reflexivity|]); eexists; (split; [apply Hc|assumption]).
    + reflexivity.
  - intros d ls. cbn [dims binop]. rewrite D1, D2. cbn. intros [[= <- <-]|[]]. left. reflexivity.
  - intros d ls. cbn [dims binop]. rewrite D1, D2. cbn. intros [[= <- <-]|[]]. right. left. reflexivity.
  - cbn [get binop]. unfold low_bin. rewrite (V1 _ 1 0), (V2 _ 0 1).
    + cbn [vadd]. rewrite vdiv_Fin by lra. f_equal. field.
    + rewrite G2, O, Y1 by reflexivity. cbn [vmul isnan Z.eqb]. rewrite T1. reflexivity.
    + rewrite G2, O, Y1 by reflexivity. cbn [vmul isnan Z.eqb]. rewrite T1, T0. reflexivity.
    + rewrite G1, O, Y1 by reflexivity. cbn [vmul isnan Z.eqb]. rewrite T1. reflexivity.
    + rewrite G1, O, Y1 by reflexivity. cbn [vmul isnan Z.eqb]. rewrite T1, T0. reflexivity.
  - cbn [get binop]. unfold high_bin. rewrite (V1 _ 0 0), (V2 _ 0 0).
    + cbn [vadd]. replace ((0 + 0) / 2) with 0 by field. rewrite Rplus_0_r. destruct (vdiv_quot 0 0) as [[_ K]|[K _]]; [lra|lra|exact K|lra].
    + rewrite G2, O, Y2 by reflexivity. cbn [vmul isnan Z.eqb]. rewrite T0. reflexivity.
    + rewrite G2, O, Y2 by reflexivity. cbn [vmul isnan Z.eqb]. rewrite T0. reflexivity.
    + rewrite G1, O, Y2 by reflexivity. cbn [vmul isnan Z.eqb]. rewrite T0. reflexivity.
    + rewrite G1, O, Y2 by reflexivity. cbn [vmul isnan Z.eqb]. rewrite T0. reflexivity.
Qed.
