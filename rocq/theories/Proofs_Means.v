(** From metric values to weighted averages. *)
From Coq Require Import String List Bool Reals Lra Permutation.
Import ListNotations.
From Verif Require Import Prelude Values Model_XArray Spec_XArray Proofs_XArray Model_Tree Spec_Tree Proofs_Tree Model_MetricsBase Model_Aggregation
  Spec_Aggregation Proofs_AggState Spec_Aggregator Proofs_Aggregator Proofs_Aggregator2 Spec_Metrics Proofs_Metrics Spec_Means.
Local Open Scope R_scope.
Local Open Scope string_scope.
Local Open Scope list_scope.

(** ** Own means of per-variable statistics *)
Lemma own_mean_mean_array g p t s means v m :
  (forall raw, compute s p t = Ok raw -> NoDup (keys raw)) ->
  own_mean g p t s means -> dget means v = Some m ->
  exists raw st, compute s p t = Ok raw /\ dget raw v = Some st /\ mean_array g st m.
Proof.
  intros Hnd H Hv. apply own_mean_iff in H; auto. destruct H as (raw & Hc & (l & Hk & ->)).
  unfold meanof in Hv.
  change (map (fun vp => (fst vp, binop vdiv (fst (snd vp)) (snd (snd vp)))) l)
      with (map (fun vp : string * (da * da) => (fst vp, (fun q => binop vdiv (fst q) (snd q)) (snd vp))) l) in Hv.
  rewrite dget_map_val in Hv. destruct (dget l v) as [[x y]|] eqn:El; [|discriminate]. injection Hv as <-. simpl.
  pose proof (kept_dget g (somes raw) l v Hk) as K. unfold somes in K.
  rewrite map_map in K. simpl in K. specialize (K (Hnd raw Hc)).
  change (map (fun va => (fst va, Some (snd va))) raw) with (map (fun va : string * da => (fst va, Some (snd va))) raw) in K.
  rewrite (dget_map_val (fun a : da => Some a) raw v) in K.
  destruct (dget raw v) as [st|] eqn:Er; [|congruence]. destruct K as (r & Hr & Hl). rewrite El in Hl. subst r.
  exists raw, st. split; auto. split; auto. exists x, y. auto.
Qed.

Lemma per_var_outputs name f (p t : vars da) raw : compute (per_variable_statistic name f) p t = Ok raw -> NoDup (keys raw).
Proof. intros H. simpl in H. eapply per_var_compute_NoDup; [|exact H]. constructor. Qed.

(** The value of a statistic used as a metric. *)
Lemma value_of_statistic g p t (s : statistic da) v a :
  (forall raw, compute s p t = Ok raw -> NoDup (keys raw)) ->
  metric_value g p t (metric_of_statistic s) v a ->
  exists raw st, compute s p t = Ok raw /\ dget raw v = Some st /\ mean_array g st a.
Proof.
  intros Hnd (vs & H & Hv).
  assert (forall s' raw, In s' (registered [("metric", metric_of_statistic s)]) -> compute s' p t = Ok raw -> NoDup (keys raw)) as Hout.
  { intros s' raw [<-|[]]. apply Hnd. }
  assert (names_identify [("metric", metric_of_statistic s)] p t) as Hid.
  { intros s1 s2 [<-|[]] [<-|[]] _. reflexivity. }
  destruct (evaluate_each g p t _ _ Hout Hid H) as [_ K]. destruct (K _ _ (or_introl eq_refl)) as (v' & means & [[= <-]|[]] & HF & Hval).
  simpl in HF. inversion HF as [|? [k mean] ? l [E1 E2] HF']; subst. inversion HF'; subst. simpl in *. subst k. unfold dgetE in Hval. simpl in Hval. injection Hval as ->.
  eapply own_mean_mean_array; eauto.
Qed.

Lemma value_of_per_variable g p t name f v a : NoDup (keys p) ->
  metric_value g p t (metric_of_statistic (per_variable_statistic name f)) v a ->
  exists pv tv st, dget p v = Some pv /\ dget t v = Some tv /\ f pv tv = Ok (Some st) /\ mean_array g st a.
Proof.
  intros Hn H. destruct (value_of_statistic g p t _ v a (per_var_outputs name f p t) H) as (raw & st & Hc & Hr & Hm).
  destruct (per_variable_statistic_spec name f p t raw Hn Hc) as [_ K]. apply K in Hr. destruct Hr as (pv & tv & ? & ? & ?).
  exists pv, tv, st. auto.
Qed.

(** The value of a per-variable metric. *)
Lemma value_of_metric g p t stats F v a :
  (forall s raw, In s (map snd stats) -> compute s p t = Ok raw -> NoDup (keys raw)) ->
  (forall s s', In s (map snd stats) -> In s' (map snd stats) -> unique_name s = unique_name s' -> compute s p t = compute s' p t) ->
  NoDup (map fst stats) ->
  metric_value g p t (per_variable_metric stats F) v a ->
  exists per_var, F per_var = Ok a /\
    Forall2 (fun ks sa => fst ks = fst sa /\
      exists raw st, compute (snd ks) p t = Ok raw /\ dget raw v = Some st /\ mean_array g st (snd sa)) stats per_var.
Proof.
  intros Hnd Hid0 Hns (vs & H & Hv).
  set (M := [("metric", per_variable_metric stats F)]) in *.
  assert (registered M = map snd stats) as HR by (unfold registered, M; simpl; apply app_nil_r).
  assert (forall s' raw, In s' (registered M) -> compute s' p t = Ok raw -> NoDup (keys raw)) as Hout.
  { intros s' raw. rewrite HR. apply Hnd. }
  assert (names_identify M p t) as Hid.
  { intros s1 s2. rewrite HR. apply Hid0. }
  destruct (evaluate_each g p t _ _ Hout Hid H) as [_ K]. destruct (K _ _ (or_introl eq_refl)) as (v' & means & [[= <-]|[]] & HF & Hval).
  change (statistics (per_variable_metric stats F)) with stats in HF.
  assert (forall k tb, dget means k = Some tb -> NoDup (keys tb)) as Hnm.
  { intros k tb Hk. pose proof (items_rel_dget _ _ _ k HF) as HD. rewrite Hk in HD.
    destruct (dget stats k) as [s|] eqn:Es; [|tauto].
    assert (In s (map snd stats)) as Hin by (apply in_map_iff; exists (k, s); split; auto; now apply dget_In).
    apply own_mean_iff in HD; [|intros; eapply Hnd; eauto].
    destruct HD as (raw & Hc & (l & Hl & ->)). unfold keys, meanof. rewrite map_map. simpl.
    eapply kept_NoDup; [exact Hl|]. unfold somes. rewrite map_map. simpl. now apply (Hnd s raw). }
  destruct (per_variable_metric_spec stats F means vs Hnm Hval) as (_ & _ & K2).
  destruct (K2 v a Hv) as (per_var & Hk & Hpv & HFv). exists per_var. split; auto.
  assert (forall stats1 per1, incl stats1 stats -> map fst per1 = map fst stats1 -> incl per1 per_var ->
    Forall2 (fun ks sa => fst ks = fst sa /\
      exists raw st, compute (snd ks) p t = Ok raw /\ dget raw v = Some st /\ mean_array g st (snd sa)) stats1 per1) as G.
  { induction stats1 as [|[k s] stats1 IH]; intros per1 Hi Hk1 Hi2; destruct per1 as [|[k' m] per1]; try discriminate; constructor.
    - simpl in Hk1. injection Hk1 as -> Hk1. simpl. split; auto.
      destruct (Hpv k m (Hi2 _ (or_introl eq_refl))) as (tb & Htb & Hm).
      pose proof (items_rel_dget _ _ _ k HF) as HD. rewrite Htb in HD.
      assert (dget stats k = Some s) as Es by (apply In_dget; auto; apply Hi; now left). rewrite Es in HD.
      eapply own_mean_mean_array; eauto. intros raw. apply Hnd. apply in_map_iff. exists (k, s). split; auto. apply Hi; now left.
    - simpl in Hk1. injection Hk1 as _ Hk1. apply IH; auto; intros z Hz; [apply Hi|apply Hi2]; now right. }
  apply G; auto; apply incl_refl.
Qed.

(** ** Joint averages *)
Lemma reduced_perm arrs arrs' R e P P' : 
  (forall d, (exists a, In a arrs /\ In d (dnames a)) <-> (exists a, In a arrs' /\ In d (dnames a))) ->
  (forall e' : env, (forall a d, In a arrs -> In d R -> In d (dnames a) -> In (e' d) (labels_of (dims a) d)) <->
     (forall a d, In a arrs' -> In d R -> In d (dnames a) -> In (e' d) (labels_of (dims a) d))) ->
  reduced_points arrs R e P -> reduced_points arrs' R e P' -> Permutation P P'.
Proof.
  intros H1 H2 [N1 M1] [N2 M2]. apply NoDup_Permutation; auto. intros q. rewrite M1, M2, H2.
  split; intros [A B]; (split; [|exact B]); intros d Hd; apply A; intros [C D]; apply Hd; split; auto; now apply H1.
Qed.

Lemma counted_same g st st' e : aux st' = aux st -> isnan (get st' e) = isnan (get st e) -> counted g st' e = counted g st e.
Proof. intros Ha Hi. unfold counted. now rewrite Ha, Hi. Qed.

Lemma mean_dims g st m x y : (forall w, In w (weigh_by g) -> uses_coords w) ->
  (forall b, In b (bin_by g) -> uses_coords (create_bin_mask b)) ->
  mask_spans st -> aggregate_stat_var g st = Ok (Some (x, y)) -> m = binop vdiv x y ->
  forall e, point_of (dims m) e <-> point_of (dims x) e.
Proof. intros Hw Hb Hs H -> e. apply binop_point. eapply agg_var_dims; eauto. Qed.

Lemma same_weighted g st s ws wrs ms bs st' s' :
  weighted_input g st s ws wrs ms bs -> same_sample st st' ->
  (forall e, point_of (dims st) e -> counted g st e = true -> get st' e = Fin (s' e)) ->
  weighted_input g st' s' ws wrs ms bs.
Proof.
  intros W (Hd & Ha & Hwf & Hn) Hs'. destruct W. constructor; auto.
  - unfold mask_spans in *. now rewrite Ha.
  - rewrite <- wi_weights. apply mapM_ext. intros w Hw. now apply wi_weights_coords.
  - rewrite <- wi_bins. apply mapM_ext. intros b Hb. now apply wi_bins_coords.
  - rewrite Hd. intros e He Hc. apply Hs'; auto. rewrite <- Hc. symmetry. apply counted_same; auto.
Qed.

Lemma point_weight_same g st st' wrs bs e : aux st' = aux st -> isnan (get st' e) = isnan (get st e) ->
  point_weight g st' wrs bs e = point_weight g st wrs bs e.
Proof. intros Ha Hn. unfold point_weight. now rewrite (counted_same g st st' e Ha Hn). Qed.

Lemma wavg_perm P P' u s : Permutation P P' -> wavg P u s = wavg P' u s.
Proof. intros H. unfold wavg. now rewrite (rsum_perm _ _ (Permutation_map _ H)), (rsum_perm _ _ (Permutation_map u H)). Qed.
Lemma wavg_ext P u u' s s' : (forall q, In q P -> u q = u' q) -> (forall q, In q P -> u q <> 0 -> s q = s' q) -> wavg P u s = wavg P u' s'.
Proof.
  intros Hu Hs. unfold wavg. rewrite (rsum_map_ext u u' P Hu). f_equal. apply rsum_map_ext. intros q Hq.
  rewrite <- (Hu q Hq). destruct (Req_dec (u q) 0) as [->|Hne]; [lra|]. now rewrite (Hs q Hq Hne).
Qed.

(** The means of all statistics over the same sample are averages over the same points
    with the same weights. *)
Theorem joint_means g st s ws wrs ms bs m0 e :
  weighted_input g st s ws wrs ms bs -> mean_array g st m0 -> point_of (dims m0) e ->
  exists P, reduced_points (st :: ws ++ ms) (reduce_dims g) e P /\
    (forall q, In q P -> point_of (dims st) q) /\
    forall st' s' m', same_sample st st' ->
      (forall q, point_of (dims st) q -> counted g st q = true -> get st' q = Fin (s' q)) ->
      mean_array g st' m' ->
      point_of (dims m') e /\
      let u := point_weight g st wrs bs in
      (rsum (map u P) <> 0 -> get m' e = Fin (wavg P u s')) /\
      (rsum (map u P) = 0 -> (forall q, 0 <= u q) -> get m' e = NaN).
Proof.
  intros W (x & y & Hxy & Hm0) He.
  assert (point_of (dims x) e) as Hex.
  { apply (mean_dims g st m0 x y (wi_weights_coords _ _ _ _ _ _ _ W) (wi_bins_coords _ _ _ _ _ _ _ W) (wi_spans _ _ _ _ _ _ _ W) Hxy Hm0 e). exact He. }
  assert (forall a, In a (st :: ws ++ ms) -> wf a) as Hall by (intros a [<-|Ha]; [apply W|now apply W]).
  set (P := dot_points (reduce_dims g) (st :: ws ++ ms) e).
  assert (reduced_points (st :: ws ++ ms) (reduce_dims g) e P) as HP by (now apply dot_points_spec).
  destruct (agg_var_Some g st x y) as (ws' & ms' & Hw' & Hm' & Hinc & Hnd & Hx & Hy); try apply W; auto.
  rewrite (wi_weights _ _ _ _ _ _ _ W) in Hw'. injection Hw' as <-. apply bin_masks_Some in Hm'. destruct Hm' as [Hm' _].
  rewrite (wi_bins _ _ _ _ _ _ _ W) in Hm'. injection Hm' as <-.
  destruct (prepare_dims g st) as [D1 D2].
  assert (forall q, In q P -> point_of (dims st) q) as Hin.
  { intros q Hq. eapply (dot_points_in (reduce_dims g) (st :: ws ++ ms) e q); [intros; now apply Hall| |exact Hq|now left].
    rewrite Hx in Hex. rewrite dims_dot in *. now rewrite <- (ijoint_dims _ _ _ D1). }
  exists P. split; [exact HP|]. split; [exact Hin|].
  intros st' s' m' HS Hs' (x' & y' & Hxy' & ->).
  pose proof (same_weighted g st s ws wrs ms bs st' s' W HS Hs') as W'.
  destruct (agg_var_Some g st' x' y') as (ws' & ms' & Hw' & Hm' & Hinc' & Hnd' & Hx' & Hy'); try apply W'; auto.
  rewrite (wi_weights _ _ _ _ _ _ _ W') in Hw'. injection Hw' as <-. apply bin_masks_Some in Hm'. destruct Hm' as [Hm' _].
  rewrite (wi_bins _ _ _ _ _ _ _ W') in Hm'. injection Hm' as <-.
  destruct (prepare_dims g st') as [D1' D2'].
  assert (dims x' = dims x) as Hdx.
  { rewrite Hx, Hx', !dims_dot. f_equal. apply ijoint_dims. rewrite D1, D1'. apply HS. }
  assert (point_of (dims x') e) as Hex' by (now rewrite Hdx).
  split; [apply (mean_dims g st' _ x' y' (wi_weights_coords _ _ _ _ _ _ _ W') (wi_bins_coords _ _ _ _ _ _ _ W') (wi_spans _ _ _ _ _ _ _ W') Hxy' eq_refl e); exact Hex'|].
  destruct (sums_formula g st' s' x' y' ws ms wrs bs) with (e := e) as (P' & HP' & Gx & Gy); try apply W'; auto.
  assert (Permutation P P') as HPP.
  { eapply reduced_perm; [| |exact HP|exact HP'].
    - intros d. destruct HS as (Hd & _). split; intros (a & [<-|Ha] & Hdd); try (exists a; split; [now right|exact Hdd]).
      + exists st'. split; [now left|]. unfold dnames in *. now rewrite Hd.
      + exists st. split; [now left|]. unfold dnames in *. now rewrite <- Hd.
    - intros q. destruct HS as (Hd & _). unfold dnames in *. split; intros HH a d [<-|Ha]; try (apply HH; now right).
      + rewrite Hd. apply HH; now left.
      + rewrite <- Hd. apply HH; now left. }
  assert (forall q, In q P' -> point_weight g st' wrs bs q = point_weight g st wrs bs q) as Hpw.
  { intros q Hq. apply point_weight_same; [apply HS|]. apply HS. apply Hin. eapply Permutation_in; [symmetry; exact HPP|exact Hq]. }
  change (uweight g st' wrs bs) with (point_weight g st' wrs bs) in *.
  assert (rsum (map (point_weight g st' wrs bs) P') = rsum (map (point_weight g st wrs bs) P)) as Eu.
  { rewrite (rsum_map_ext _ (point_weight g st wrs bs) P') by auto. symmetry. apply rsum_perm, Permutation_map, HPP. }
  cbn zeta. cbn [get binop]. rewrite Gx, Gy, Eu. split.
  - intros H. rewrite vdiv_Fin by auto. f_equal. unfold wavg. f_equal.
    rewrite (rsum_map_ext _ (fun q => point_weight g st wrs bs q * s' q) P'); [symmetry; apply rsum_perm, Permutation_map, HPP|].
    intros q Hq. change (uweight g st' wrs bs q) with (point_weight g st' wrs bs q). now rewrite Hpw.
  - intros H Hu.
    assert (rsum (map (fun q => uweight g st' wrs bs q * s' q) P') = 0) as ->.
    { rewrite (rsum_map_ext _ (fun _ => 0)); [rewrite rsum_map_const; lra|].
      intros q Hq. change (uweight g st' wrs bs q) with (point_weight g st' wrs bs q). rewrite Hpw by auto.
      assert (point_weight g st wrs bs q = 0) as ->; [|lra].
      eapply (rsum_zero_iff (map (point_weight g st wrs bs) P)); [|exact H|apply in_map; eapply Permutation_in; [symmetry; exact HPP|exact Hq]].
      intros z Hz. apply in_map_iff in Hz. destruct Hz as [q' [<- Hq']]. auto. }
    rewrite H. apply vdiv_0_0.
Qed.

(** ** Inequalities for weighted averages *)
Section Avg.
  Variables (P : list env) (u : env -> R).
  Hypothesis Hu : forall q, 0 <= u q.
  Hypothesis Hpos : rsum (map u P) <> 0.

  Lemma tot_pos : 0 < rsum (map u P).
  Proof. assert (0 <= rsum (map u P)) by (apply rsum_map_nonneg; auto). lra. Qed.
  Lemma wavg_le s s' : (forall q, In q P -> u q <> 0 -> s q <= s' q) -> wavg P u s <= wavg P u s'.
  Proof.
    intros H. unfold wavg, Rdiv. apply Rmult_le_compat_r; [apply Rlt_le, Rinv_0_lt_compat, tot_pos|].
    apply rsum_map_le. intros q Hq. destruct (Req_dec (u q) 0) as [->|Hne]; [lra|]. apply Rmult_le_compat_l; auto.
  Qed.
  Lemma wavg_const c : wavg P u (fun _ => c) = c.
  Proof.
    unfold wavg. rewrite (rsum_map_ext _ (fun q => c * u q) P) by (intros; lra). rewrite rsum_map_scale. pose proof tot_pos. field. lra.
  Qed.
  Lemma wavg_nonneg s : (forall q, In q P -> u q <> 0 -> 0 <= s q) -> 0 <= wavg P u s.
  Proof. intros H. rewrite <- (wavg_const 0). now apply wavg_le. Qed.
  Lemma wavg_bounds s lo hi : (forall q, In q P -> u q <> 0 -> lo <= s q <= hi) -> lo <= wavg P u s <= hi.
  Proof.
    intros H. split; [rewrite <- (wavg_const lo)|rewrite <- (wavg_const hi)]; apply wavg_le; intros; now apply H.
  Qed.
  Lemma wavg_add s s' : wavg P u (fun q => s q + s' q) = wavg P u s + wavg P u s'.
  Proof.
    unfold wavg. rewrite (rsum_map_ext _ (fun q => u q * s q + u q * s' q) P) by (intros; lra). rewrite rsum_map_add. pose proof tot_pos. field. lra.
  Qed.
  Lemma wavg_scale c s : wavg P u (fun q => c * s q) = c * wavg P u s.
  Proof.
    unfold wavg. rewrite (rsum_map_ext _ (fun q => c * (u q * s q)) P) by (intros; lra). rewrite rsum_map_scale. pose proof tot_pos. field. lra.
  Qed.
  Lemma wavg_opp s : wavg P u (fun q => - s q) = - wavg P u s.
  Proof. rewrite <- (wavg_ext P u u (fun q => (-1) * s q)) by (auto; intros; lra). rewrite wavg_scale. lra. Qed.
  Lemma wavg_sub s s' : wavg P u (fun q => s q - s' q) = wavg P u s - wavg P u s'.
  Proof. unfold Rminus. rewrite wavg_add, wavg_opp. reflexivity. Qed.
  Lemma wavg_abs s : Rabs (wavg P u s) <= wavg P u (fun q => Rabs (s q)).
  Proof.
    apply Rabs_le. split.
    - rewrite <- wavg_opp. apply wavg_le. intros q _ _. pose proof (Rle_abs (- s q)) as H. rewrite Rabs_Ropp in H. lra.
    - apply wavg_le. intros q _ _. apply Rle_abs.
  Qed.
  Lemma wavg_zero s : (forall q, In q P -> u q <> 0 -> 0 <= s q) -> wavg P u s = 0 -> forall q, In q P -> u q <> 0 -> s q = 0.
  Proof.
    intros H Hz q Hq Hne. unfold wavg in Hz. pose proof tot_pos as Ht.
    assert (rsum (map (fun q => u q * s q) P) = 0) as H0.
    { apply Rmult_eq_reg_r with (/ rsum (map u P)); [|apply Rinv_neq_0_compat; lra]. unfold Rdiv in Hz. rewrite Hz. lra. }
    assert (u q * s q = 0) as Hp.
    { eapply (rsum_zero_iff (map (fun q => u q * s q) P)); [|exact H0|apply in_map_iff; eauto].
      intros z Hz'. apply in_map_iff in Hz'. destruct Hz' as [q' [<- Hq']].
      destruct (Req_dec (u q') 0) as [->|Hne']; [lra|]. apply Rmult_le_pos; auto. }
    apply Rmult_integral in Hp. tauto.
  Qed.
  (** Cauchy-Schwarz *)
  Lemma wavg_CS a b : (wavg P u (fun q => a q * b q)) ^ 2 <= wavg P u (fun q => a q ^ 2) * wavg P u (fun q => b q ^ 2).
  Proof.
    set (A := wavg P u (fun q => a q ^ 2)). set (B := wavg P u (fun q => b q ^ 2)). set (C := wavg P u (fun q => a q * b q)).
    assert (forall x, 0 <= A * x ^ 2 + 2 * x * C + B) as Hq.
    { intros x. assert (wavg P u (fun q => (x * a q + b q) ^ 2) = A * x ^ 2 + 2 * x * C + B) as <-.
      { rewrite <- (wavg_ext P u u (fun q => (x ^ 2 * a q ^ 2 + (2 * x) * (a q * b q)) + b q ^ 2)) by (auto; intros; ring).
        rewrite !wavg_add, !wavg_scale. fold A B C. ring. }
      apply wavg_nonneg. intros q _ _. apply pow2_ge_0. }
    assert (0 <= A) as HA by (apply wavg_nonneg; intros; apply pow2_ge_0).
    destruct (Rle_lt_or_eq_dec 0 A HA) as [HA'|HA'].
    - specialize (Hq (- C / A)).
      assert (A * (- C / A) ^ 2 + 2 * (- C / A) * C + B = B - C ^ 2 / A) as E by (field; lra). rewrite E in Hq.
      assert (C ^ 2 / A <= B) as H by lra. apply Rmult_le_compat_l with (r := A) in H; [|lra].
      replace (A * (C ^ 2 / A)) with (C ^ 2) in H by (field; lra). exact H.
    - rewrite <- HA'. rewrite <- HA' in Hq.
      assert (C = 0) as ->; [|nra]. destruct (Req_dec C 0) as [|Hne]; auto. exfalso.
      specialize (Hq (- (B + 1) / (2 * C))). assert (0 * (- (B + 1) / (2 * C)) ^ 2 + 2 * (- (B + 1) / (2 * C)) * C + B = -1) as E by (field; lra).
      rewrite E in Hq. lra.
  Qed.
  Lemma wavg_sq s : (wavg P u s) ^ 2 <= wavg P u (fun q => s q ^ 2).
  Proof.
    pose proof (wavg_CS s (fun _ => 1)) as H. rewrite <- (wavg_ext P u u s) in H by (auto; intros; lra).
    rewrite <- (wavg_ext P u u (fun _ => 1) (fun _ => 1 ^ 2)) in H by (auto; intros; lra). rewrite (wavg_const 1) in H. lra.
  Qed.
End Avg.
