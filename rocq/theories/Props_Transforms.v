(** C33, continued: what the input transforms compute. *)
From Coq Require Import String ZArith QArith Qcanon List Bool Reals Lra Lia.
Import ListNotations.
From Verif Require Import Prelude Values Model_XArray Spec_XArray Proofs_XArray Model_MetricsBase Model_Calendar Model_Deterministic Model_Categorical Model_Ensemble
  Proofs_Deterministic Spec_Reduce Proofs_Reduce Spec_Statistic Spec_Ensemble Proofs_Ensemble2 Model_Wrappers Spec_Wrappers Proofs_Transforms Proofs_Transforms2.
Local Open Scope R_scope.
Local Open Scope string_scope.
Local Open Scope list_scope.

(** Constructors accept exactly the three values of [which]; thresholds given as arrays need a
    name suffix. *)
Lemma input_transform_Ok w sfx f tr : input_transform w sfx f = Ok tr -> which tr = w /\ suffix tr = sfx /\ transform_fn tr = f.
Proof. unfold input_transform. destruct (memb w _); [|discriminate]. intros [= <-]. auto. Qed.
Theorem C33_constructors : forall w sfx f,
  ((exists tr, input_transform w sfx f = Ok tr) <-> w = "predictions" \/ w = "targets" \/ w = "both") /\
  (forall er, input_transform w sfx f = Err er -> er = ValueError) /\
  (forall str ts d, (forall vs, ts <> TList vs) -> ContinuousToBinary str w ts d None = Err ValueError) /\
  (forall str str2f ts d enf, (forall vs, ts <> TList vs) -> ContinuousToBins str str2f w ts d None enf = Err ValueError) /\
  (forall str ts d enf ri, (forall vs, ts <> TList vs) -> ContinuousToCDF str w ts d None enf ri = Err ValueError) /\
  (forall d sk, w <> "predictions" -> Weibull w d sk = Err AssertionError).
Proof.
  intros w sfx f. split; [|split; [|split; [|split; [|split]]]].
  - unfold input_transform. destruct (memb w _) eqn:E.
    + apply memb_In in E. cbn [In] in E. split; [intros _; intuition auto|]. intros _. eauto.
    + apply memb_false in E. cbn [In] in E. split; [intros (tr & H); discriminate|]. intros H. exfalso. apply E. intuition auto.
  - intros er. unfold input_transform. destruct (memb w _); congruence.
  - intros str [vs|a|ds] d H; [destruct (H vs); reflexivity| |]; reflexivity.
  - intros str str2f [vs|a|ds] d enf H; [destruct (H vs); reflexivity| |]; reflexivity.
  - intros str [vs|a|ds] d enf ri H; [destruct (H vs); reflexivity| |]; reflexivity.
  - intros d sk H. unfold Weibull, eqb. destruct (eq_dec w "predictions"); [contradiction|reflexivity].
Qed.
Print Assumptions C33_constructors.

(** Thresholding: 1 exactly where the value exceeds the threshold, 0 elsewhere, NaN where the
    value is NaN.  (The comparisons are IEEE ones: a NaN threshold is not exceeded.) *)
Theorem C33_binary : forall str w ts d sfx tr name x th y e,
  ContinuousToBinary str w ts d sfx = Ok tr -> thresholds_for name ts d th -> transform_fn tr name x = Ok y -> listed ts d e ->
  (get x e = NaN -> get y e = NaN) /\
  (get x e <> NaN -> get y e = Fin (if vltb (get th e) (get x e) then 1 else 0)) /\
  (forall r q, get x e = Fin r -> get th e = Fin q -> (q < r -> get y e = Fin 1) /\ (r <= q -> get y e = Fin 0)) /\
  (forall vs, ts = TList vs -> wf x -> ~ In d (dnames x) -> dims y = dims x ++ [(d, map fst vs)]).
Proof.
  intros str w ts d sfx tr name x th y e H Hth Hy He. unfold ContinuousToBinary in H. destruct (threshold_suffix str ts sfx) as [sfx'|]; [|discriminate]. cbn [bind] in H.
  apply input_transform_Ok in H. destruct H as (_ & _ & Hf). rewrite Hf in Hy. clear Hf. unfold binarize in Hy.
  match type of Hy with bind ?m _ = _ => destruct m as [c|] eqn:E; [|discriminate] end. cbn [bind] in Hy. injection Hy as <-.
  assert (get c e = get th e) as Ec.
  { destruct ts as [vs|a|ds]; cbn [thresholds_for listed] in *.
    - injection E as <-. destruct Hth as (_ & _ & Hv). cbn [threshold_array get]. destruct (@dget label val _ vs (e d)) as [v|] eqn:Ev; [|apply dget_None in Ev; contradiction].
      symmetry. eapply Hv; eauto.
    - destruct (memb d (dnames a)); [|discriminate]. congruence.
    - destruct (memb d (dataset_dims ds)); [|discriminate]. rewrite Hth in E. congruence. }
  assert (get (da_where_nan (binop (fun a b => b2v (vltb b a)) x c) (notnull x)) e = if isnan (get x e) then NaN else b2v (vltb (get th e) (get x e))) as G.
  { cbn [da_where_nan binop notnull da_map get]. rewrite vtruthy_b2v', Ec. now destruct (isnan (get x e)). }
  split; [|split; [|split]].
  - intros Hx. rewrite G, Hx. reflexivity.
  - intros Hx. rewrite G. destruct (isnan (get x e)) eqn:N; [destruct (get x e); try discriminate; contradiction|reflexivity].
  - intros r q Hr Hq. rewrite G, Hr, Hq. cbn [isnan vltb b2v]. split; intros K.
    + apply Rltb_true in K. now rewrite K.
    + apply Rltb_false in K. now rewrite K.
  - intros vs -> Wx Hd. injection E as <-. cbn [da_where_nan binop notnull da_map dims threshold_array].
    assert (forall l2 : dimlist, (forall n, In n (map fst l2) -> ~ In n (dnames x)) -> merge_dims inter_labels (dims x) l2 = dims x ++ l2) as M.
    { intros l2 Hn. unfold merge_dims. f_equal.
      - rewrite <- (map_id (dims x)) at 2. apply map_ext_in. intros [k l] Hin. cbn [fst snd]. destruct (dget l2 k) eqn:Ek; [|reflexivity].
        apply dget_Some_keys in Ek. exfalso. apply (Hn k Ek). apply in_map_iff. now exists (k, l).
      - apply filter_true. intros [k l] Hin. apply negb_true_iff, memb_false. apply Hn. apply in_map_iff. now exists (k, l). }
    rewrite M by (intros n [<-|[]]; exact Hd).
    unfold merge_dims. assert (filter (fun p => negb (memb (fst p) (map fst (dims x ++ [(d, map fst vs)])))) (dims x) = []) as ->.
    { match goal with |- filter ?f ?l = [] => assert (forall q, In q l -> f q = false) as K end.
      - intros q Hq. apply negb_false_iff, memb_In. rewrite map_app, in_app_iff. left. now apply in_map.
      - revert K. clear. generalize (map fst (dims x ++ [(d, map fst vs)])). intros NS. induction (dims x) as [|q l IH]; intros K; [reflexivity|]. cbn [filter]. rewrite (K q) by now left. apply IH. intros z Hz. apply K. now right. }
    rewrite app_nil_r, map_app. cbn [map fst snd]. f_equal.
    + rewrite <- (map_id (dims x)) at 2. apply map_ext_in. intros [k l] Hin. cbn [fst snd]. assert (dget (dims x) k = Some l) as -> by (apply In_dget; [apply Wx|exact Hin]). now rewrite inter_self.
    + destruct (dget (dims x) d) eqn:Ed; [apply dget_Some_keys in Ed; contradiction|reflexivity].
Qed.
Print Assumptions C33_binary.

Definition distinct_labels (ts : thresholds) : Prop := match ts with TList vs => NoDup (map fst vs) | _ => True end.
Lemma distinct_list ts : distinct_labels ts -> forall vs, ts = TList vs -> NoDup (map fst vs).
Proof. intros H vs ->. exact H. Qed.
Lemma cdf_fun str w ts d sfx enf ri tr : ContinuousToCDF str w ts d sfx enf ri = Ok tr -> transform_fn tr = fun name a => compute_cdf name ts a d enf ri.
Proof.
  unfold ContinuousToCDF. destruct (threshold_suffix str ts sfx) as [sfx'|]; [|discriminate]. cbn [bind]. intros H. now apply input_transform_Ok in H.
Qed.
(** The CDF: whether the value is at most (below) the threshold, NaN where the value or the
    threshold is NaN; thresholds that depend on time are read at the time of the data. *)
Theorem C33_cdf : forall str w ts d sfx enf (right_inclusive : bool) tr name x th y e,
  ContinuousToCDF str w ts d sfx enf right_inclusive = Ok tr -> thresholds_for name ts d th -> wf th -> wf x -> distinct_labels ts ->
  transform_fn tr name x = Ok y -> listed ts d e ->
  get y e = if isnan (get x e) || isnan (threshold_used ts th x e) then NaN
            else b2v (if right_inclusive then vleb (get x e) (threshold_used ts th x e) else vltb (get x e) (threshold_used ts th x e)).
Proof.
  intros str w ts d sfx enf ri tr name x th y e H Hth W Wx HL Hy He. rewrite (cdf_fun _ _ _ _ _ _ _ _ H) in Hy. apply cdf_Ok in Hy. destruct Hy as (c & Hc & _ & _ & Hg).
  destruct (chosen_spec name ts x d th c Hth W Wx (distinct_list ts HL) Hc) as (_ & Hv & _). rewrite Hg, (Hv e He). reflexivity.
Qed.
Print Assumptions C33_cdf.

(** ... so it is monotone: at a higher threshold it is not smaller (0 <= 1). *)
Theorem C33_cdf_monotone : forall str w vs d sfx enf (right_inclusive : bool) tr name x y e l l' q q' v v',
  ContinuousToCDF str w (TList vs) d sfx enf right_inclusive = Ok tr -> NoDup (map fst vs) -> wf x -> ~ In d (dnames x) -> transform_fn tr name x = Ok y ->
  In (l, Fin q) vs -> In (l', Fin q') vs -> q <= q' -> get y (upd e d l) = Fin v -> get y (upd e d l') = Fin v' -> 0 <= v <= v' /\ v' <= 1.
Proof.
  intros str w vs d sfx enf ri tr name x y e l l' q q' v v' H HN Wx Hd Hy Hl Hl' Hq Hv Hv'.
  pose proof (threshold_array_for name d vs) as Hth. pose proof (wf_threshold_array d vs HN) as W.
  rewrite (C33_cdf str w (TList vs) d sfx enf ri tr name x _ y (upd e d l) H Hth W Wx HN Hy) in Hv by (cbn [listed]; rewrite upd_same; apply in_map_iff; now exists (l, Fin q)).
  rewrite (C33_cdf str w (TList vs) d sfx enf ri tr name x _ y (upd e d l') H Hth W Wx HN Hy) in Hv' by (cbn [listed]; rewrite upd_same; apply in_map_iff; now exists (l', Fin q')).
  cbn [threshold_used] in *. rewrite !(wf_upd x e d) in * by auto.
  assert (get (threshold_array d vs) (upd e d l) = Fin q) as E1 by (cbn [threshold_array get]; rewrite upd_same; rewrite (In_dget vs l (Fin q)); auto).
  assert (get (threshold_array d vs) (upd e d l') = Fin q') as E2 by (cbn [threshold_array get]; rewrite upd_same; rewrite (In_dget vs l' (Fin q')); auto).
  rewrite E1 in Hv. rewrite E2 in Hv'. destruct (get x e) as [r| | |]; cbn [isnan orb] in *; try discriminate.
  - destruct ri; unfold b2v, vleb, vltb, veqb in *.
    + injection Hv as <-. injection Hv' as <-. destruct (Rltb r q) eqn:B1; [|destruct (Reqb r q) eqn:B2]; cbn [orb].
      * apply Rltb_true in B1. assert (Rltb r q' = true) as -> by (apply Rltb_true; lra). cbn [orb]. lra.
      * apply Reqb_true in B2. destruct (Rltb r q') eqn:B3; cbn [orb]; [lra|]. apply Rltb_false in B3. assert (Reqb r q' = true) as -> by (apply Reqb_true; lra). lra.
      * destruct (_ || _); lra.
    + injection Hv as <-. injection Hv' as <-. destruct (Rltb r q) eqn:B1; [|destruct (Rltb r q'); lra].
      apply Rltb_true in B1. assert (Rltb r q' = true) as -> by (apply Rltb_true; lra). lra.
  - destruct ri; cbn in *; injection Hv as <-; injection Hv' as <-; lra.
  - destruct ri; cbn in *; injection Hv as <-; injection Hv' as <-; lra.
Qed.
Print Assumptions C33_cdf_monotone.

(** With enforce_monotonicity, thresholds that do not increase strictly raise ValueError; the
    thresholds used at every point of the result do increase. *)
Theorem C33_monotonicity : forall str w ts d sfx (right_inclusive : bool) tr name x th,
  ContinuousToCDF str w ts d sfx true right_inclusive = Ok tr -> thresholds_for name ts d th -> wf th -> wf x -> distinct_labels ts ->
  (forall vs, ts = TList vs -> ((exists y, transform_fn tr name x = Ok y) <-> increasing th d) /\ (~ increasing th d -> transform_fn tr name x = Err ValueError)) /\
  (forall y e a b, transform_fn tr name x = Ok y -> ~ In d (dnames x) -> ~ In d time_dims ->
     point_of (dims y) (upd e d a) -> consecutive (labels_of (dims th) d) a b ->
     vltb (threshold_used ts th x (upd e d a)) (threshold_used ts th x (upd e d b)) = true).
Proof.
  intros str w ts d sfx ri tr name x th H Hth W Wx HL. rewrite (cdf_fun _ _ _ _ _ _ _ _ H). clear H. split.
  - intros vs ->. cbn [thresholds_for] in Hth. destruct Hth as (Hd & _ & Hv).
    assert (increasing th d <-> increasing (threshold_array d vs) d) as EQ.
    { unfold increasing. rewrite Hd. cbn [threshold_array dims]. 
      assert (forall e l, In l (labels_of [(d, map fst vs)] d) -> get th (upd e d l) = get (threshold_array d vs) (upd e d l)) as G.
      { intros e l Hl. unfold labels_of in Hl. cbn [dget fst snd] in Hl. destruct (eq_dec d d); [|congruence]. cbn [threshold_array get]. rewrite upd_same.
        destruct (@dget label val _ vs l) as [v|] eqn:E; [|apply dget_None in E; contradiction]. eapply Hv; [|exact E]. apply upd_same. }
      split; intros H e a b Hp Hc; destruct (consecutive_In _ _ _ Hc) as [Ha Hb]; specialize (H e a b Hp Hc); [rewrite !G in H by auto|rewrite !G by auto]; exact H. }
    rewrite EQ. pose proof (wf_threshold_array d vs HL) as W'. assert (In d (dnames (threshold_array d vs))) as Hin by now left. split.
    + split.
      * intros (y & Hy). apply cdf_Ok in Hy. destruct Hy as (c & Hc & He & _). injection Hc as <-. destruct (He eq_refl) as (df & H1 & H2). eapply diff_positive; eauto.
      * intros Hi. unfold compute_cdf. cbn [chosen_thresholds bind]. destruct (da_diff d (threshold_array d vs)) as [df|er] eqn:E.
        -- cbn [bind]. assert (all_positive df = true) as -> by (eapply diff_positive; eauto). eauto.
        -- unfold da_diff in E. assert (memb d (dnames (threshold_array d vs)) = true) as M by (now apply memb_In). rewrite M in E. discriminate.
    + intros Hn. eapply cdf_fails; eauto. reflexivity.
  - intros y e a b Hy Hdx Hdt Hp Hc. apply cdf_Ok in Hy. destruct Hy as (c & Hch & He & Hdims & _). destruct (He eq_refl) as (df & H1 & H2).
    destruct (chosen_spec name ts x d th c Hth W Wx (distinct_list ts HL) Hch) as (Wc & Hv & Hd). specialize (Hd Hdt).
    pose proof (proj1 (diff_positive d c df Wc H1) H2) as Hi. destruct (consecutive_In _ _ _ Hc) as [Ha Hb].
    assert (forall l, In l (labels_of (dims th) d) -> listed ts d (upd e d l)) as HLs.
    { intros l Hl. destruct ts as [vs|arr|ds]; cbn [listed]; auto. rewrite upd_same. destruct Hth as (Ed & _). rewrite Ed in Hl. unfold labels_of in Hl. cbn [dget fst snd] in Hl. destruct (eq_dec d d); [exact Hl|congruence]. }
    rewrite <- !Hv by auto. apply Hi; [|unfold labels_of in *; rewrite Hd; exact Hc].
    rewrite Hdims in Hp. revert Hp. generalize (merge_dims inter_labels (merge_dims inter_labels (dims x) (dims c)) (dims x)). intros ds Hp n ls Hin.
    unfold point_of in Hp. assert (dget (dims c) n = Some ls) as En by (apply In_dget; [apply Wc|exact Hin]).
    destruct (dget ds n) as [l1|] eqn:E1.
    + assert (In (n, inter_labels l1 ls) (merge_dims inter_labels ds (dims c))) as K by (apply dget_In; rewrite dget_merge, E1, En; reflexivity).
      apply Hp in K. unfold inter_labels in K. apply filter_In in K. destruct K as [_ K]. now apply memb_In in K.
    + assert (In (n, ls) (merge_dims inter_labels ds (dims c))) as K by (apply dget_In; rewrite dget_merge, E1; exact En). now apply Hp in K.
Qed.
Print Assumptions C33_monotonicity.

Lemma bins_fun str str2f w ts d sfx enf tr : ContinuousToBins str str2f w ts d sfx enf = Ok tr -> transform_fn tr = fun name a => to_bins str2f name a ts d enf.
Proof.
  unfold ContinuousToBins. destruct (threshold_suffix str ts sfx) as [sfx'|]; [|discriminate]. cbn [bind]. intros H. now apply input_transform_Ok in H.
Qed.
Lemma bins_values str str2f w ts d sfx enf tr name x th y :
  ContinuousToBins str str2f w ts d sfx enf = Ok tr -> thresholds_for name ts d th -> wf th -> wf x -> distinct_labels ts ->
  ~ In d (dnames x) -> ~ In d time_dims -> names_distinct str2f (labels_of (dims th) d) -> transform_fn tr name x = Ok y ->
  let labels := labels_of (dims th) d in
  NoDup (dnames y) /\ labels_of (dims y) d = map (fun lr => bin_name str2f (fst lr) (snd lr)) (neighbours labels) /\ In d (dnames y) /\
  forall e l l', consecutive labels l l' -> e d = bin_name str2f l l' ->
    let c l := if isnan (get x e) || isnan (threshold_used ts th x (upd e d l)) then NaN else b2v (vleb (get x e) (threshold_used ts th x (upd e d l))) in
    get y e = vsub (c l') (c l) /\
    exists cl cr, dget (aux y) (d ++ "_left")%string = Some cl /\ dget (aux y) (d ++ "_right")%string = Some cr /\
      c_dims cl = [d] /\ c_dims cr = [d] /\ c_get cl e = l /\ c_get cr e = l'.
Proof.
  intros H Hth W Wx HL Hdx Hdt Hnames Hy labels. rewrite (bins_fun _ _ _ _ _ _ _ _ H) in Hy. apply bins_Ok in Hy.
  destruct Hy as (cdf & ls & Hcdf & Hls & Hdims & Hr & Hl & Hget). apply cdf_Ok in Hcdf. destruct Hcdf as (c & Hc & _ & Hcd & Hg).
  destruct (chosen_spec name ts x d th c Hth W Wx (distinct_list ts HL) Hc) as (Wc & Hv & Hd). specialize (Hd Hdt).
  assert (In d (dnames cdf)) as Hin by (apply dget_Some_keys in Hls; exact Hls).
  assert (dget (dims th) d = Some ls) as Eth.
  { rewrite <- Hd. destruct (dget (dims c) d) as [ls'|] eqn:Ec.
    - rewrite Hcd, (dget_cdf x c d ls' Hdx Ec) in Hls. congruence.
    - exfalso. rewrite Hcd in Hls. rewrite !dget_merge, Ec in Hls. destruct (dget (dims x) d) eqn:Ex; [apply dget_Some_keys in Ex; contradiction|discriminate]. }
  assert (labels = ls) as El by (unfold labels, labels_of; now rewrite Eth). clearbody labels. subst labels.
  assert (NoDup ls) as HNl by (apply (proj1 (proj2 W) d); now apply dget_In).
  assert (labels_of (dims th) d = ls) as El by (unfold labels_of; now rewrite Eth). rewrite El in Hnames.
  pose proof (names_NoDup str2f ls HNl Hnames) as HNn.
  assert (NoDup (dnames cdf)) as HNd by (unfold dnames; rewrite Hcd; repeat apply NoDup_merge; (apply Wx || apply Wc)).
  split; [unfold dnames; rewrite Hdims, names_map_const, names_map_at; exact HNd|]. split.
  { unfold labels_of. rewrite Hdims, dget_map_const, dget_map_at, Hls. unfold eqb. destruct (eq_dec d d); [reflexivity|congruence]. }
  split; [unfold dnames; rewrite Hdims, names_map_const, names_map_at; exact Hin|].
  intros e l l' Hcon He cc. destruct (Hget l l' e HNl HNn Hcon He) as (Hg1 & Hg2 & Hg3). split.
  - rewrite Hg1, !Hg. unfold cc. rewrite !(wf_upd x e d) by auto.
    assert (forall k, In k ls -> get c (upd e d k) = threshold_used ts th x (upd e d k)) as K.
    { intros k Hk. apply Hv. destruct ts as [vs|arr|ds]; cbn [listed]; auto. rewrite upd_same. destruct Hth as (Ed & _). rewrite Ed in Eth. cbn [dget fst snd] in Eth. destruct (eq_dec d d); congruence. }
    destruct (consecutive_In _ _ _ Hcon) as [Ha Hb]. rewrite !K by assumption. reflexivity.
  - eexists _, _. split; [exact Hl|]. split; [exact Hr|]. cbn [c_dims c_get]. auto.
Qed.
(** Bins: 1 for the bin (left, right] that contains the value, 0 otherwise, NaN where the value
    or an edge is NaN; the edges are kept as coordinates. *)
Theorem C33_bins : forall str str2f w ts d sfx enf tr name x th y e l l',
  ContinuousToBins str str2f w ts d sfx enf = Ok tr -> thresholds_for name ts d th -> wf th -> wf x -> distinct_labels ts ->
  ~ In d (dnames x) -> ~ In d time_dims -> names_distinct str2f (labels_of (dims th) d) -> transform_fn tr name x = Ok y ->
  consecutive (labels_of (dims th) d) l l' -> e d = LS (str2f l ++ " < p <= " ++ str2f l') ->
  let left := threshold_used ts th x (upd e d l) in
  let right := threshold_used ts th x (upd e d l') in
  In (e d) (labels_of (dims y) d) /\
  (isnan (get x e) = true \/ isnan left = true \/ isnan right = true -> get y e = NaN) /\
  (isnan (get x e) = false -> vltb left right = true -> get y e = Fin (if vltb left (get x e) && vleb (get x e) right then 1 else 0)) /\
  exists cl cr, dget (aux y) (d ++ "_left")%string = Some cl /\ dget (aux y) (d ++ "_right")%string = Some cr /\
    c_dims cl = [d] /\ c_dims cr = [d] /\ c_get cl e = l /\ c_get cr e = l'.
Proof.
  intros str str2f w ts d sfx enf tr name x th y e l l' H Hth W Wx HL Hdx Hdt Hn Hy Hc He left right.
  destruct (bins_values _ _ _ _ _ _ _ _ _ _ _ _ H Hth W Wx HL Hdx Hdt Hn Hy) as (_ & Hlab & _ & Hval). destruct (Hval e l l' Hc He) as [Hg Haux]. clear Hval.
  fold left right in Hg. split; [|split; [|split; [|exact Haux]]].
  - rewrite Hlab. apply in_map_iff. exists (l, l'). split; [now rewrite He|]. now apply consecutive_neighbours.
  - intros K. rewrite Hg. destruct (isnan (get x e)); [reflexivity|]. cbn [orb]. destruct (isnan left); [destruct (isnan right); cbn; destruct (vleb _ _); reflexivity|].
    destruct (isnan right); [reflexivity|]. destruct K as [K|[K|K]]; discriminate.
  - intros Hx Hlt. rewrite Hg, Hx. cbn [orb]. assert (isnan left = false /\ isnan right = false) as [-> ->] by (destruct left, right; cbn in Hlt; try discriminate; auto).
    now apply vleb_trans_neg.
Qed.
Print Assumptions C33_bins.

(** The bins partition the values between the outer edges: the sum over the bins is 1 there and 0
    outside. *)
Theorem C33_bins_partition : forall str str2f w ts d sfx enf tr name x th y s e l0 ls,
  ContinuousToBins str str2f w ts d sfx enf = Ok tr -> thresholds_for name ts d th -> wf th -> wf x -> distinct_labels ts ->
  ~ In d (dnames x) -> ~ In d time_dims -> names_distinct str2f (labels_of (dims th) d) -> transform_fn tr name x = Ok y ->
  labels_of (dims th) d = l0 :: ls -> da_sum [d] y = Ok s -> isnan (get x e) = false ->
  (forall l, In l (l0 :: ls) -> isnan (threshold_used ts th x (upd e d l)) = false) ->
  let first := threshold_used ts th x (upd e d l0) in
  let last := threshold_used ts th x (upd e d (last (l0 :: ls) l0)) in
  vltb first last = true ->
  get s e = Fin (if vltb first (get x e) && vleb (get x e) last then 1 else 0).
Proof.
  intros str str2f w ts d sfx enf tr name x th y s e l0 ls H Hth W Wx HL Hdx Hdt Hn Hy Hls Hs Hx Hnn first last0 Hlt.
  destruct (bins_values _ _ _ _ _ _ _ _ _ _ _ _ H Hth W Wx HL Hdx Hdt Hn Hy) as (HN & Hlab & Hin & Hval). rewrite Hls in *.
  rewrite (da_sum_along d y s e HN Hs). unfold along. rewrite Hlab, map_map.
  set (c := fun l => if vleb (get x e) (threshold_used ts th x (upd e d l)) then 1 else 0).
  rewrite (map_ext_in _ (fun lr => Fin (c (snd lr) - c (fst lr)))).
  2:{ intros [a b] Hab. cbn [fst snd]. apply consecutive_neighbours in Hab. destruct (consecutive_In _ _ _ Hab) as [Ha Hb].
      destruct (Hval (upd e d (bin_name str2f a b)) a b Hab (upd_same _ _ _)) as [Hg _]. rewrite Hg, !upd_upd, !(wf_upd x e d) by auto. rewrite Hx, !Hnn by assumption. cbn [orb]. unfold c, b2v. cbn [vsub vneg vadd]. f_equal. }
  change (map (fun lr => Fin (c (snd lr) - c (fst lr))) (neighbours (l0 :: ls))) with (map (fun lr => Fin ((fun lr : label * label => c (snd lr) - c (fst lr)) lr)) (neighbours (l0 :: ls))).
  rewrite <- (map_map (fun lr : label * label => c (snd lr) - c (fst lr)) Fin), vsum_map_Fin, telescope.
  pose proof (vleb_trans_neg (get x e) first last0 Hx Hlt) as K. unfold b2v at 1 2 in K. cbn [vsub vneg vadd] in K. exact K.
Qed.
Print Assumptions C33_bins_partition.

(** The name of a bin only shows two decimals of its edges: edges that agree to two decimals
    give bins with the same name, and one of them cannot be selected any more. *)
Theorem C33_bin_names_refuted : forall str str2f w d sfx enf tr name x y l1 l2 l3 q1 q2 q3,
  ContinuousToBins str str2f w (TList [(l1, Fin q1); (l2, Fin q2); (l3, Fin q3)]) d sfx enf = Ok tr -> ~ In d (dnames x) ->
  str2f l1 = str2f l2 -> str2f l2 = str2f l3 -> transform_fn tr name x = Ok y ->
  labels_of (dims y) d = [LS (str2f l1 ++ " < p <= " ++ str2f l1); LS (str2f l1 ++ " < p <= " ++ str2f l1)] /\ ~ wf y.
Proof.
  intros str str2f w d sfx enf tr name x y l1 l2 l3 q1 q2 q3 H Hd E1 E2 Hy. rewrite (bins_fun _ _ _ _ _ _ _ _ H) in Hy. apply bins_Ok in Hy.
  destruct Hy as (cdf & ls & Hcdf & Hls & Hdims & _). apply cdf_Ok in Hcdf. destruct Hcdf as (c & Hc & _ & Hcd & _). injection Hc as <-.
  rewrite Hcd, (dget_cdf x _ d [l1; l2; l3] Hd) in Hls by (cbn [threshold_array dims dget fst map]; destruct (eq_dec d d); congruence). injection Hls as <-.
  assert (labels_of (dims y) d = [LS (str2f l1 ++ " < p <= " ++ str2f l1); LS (str2f l1 ++ " < p <= " ++ str2f l1)]) as G.
  { unfold labels_of. rewrite Hdims, dget_map_const, dget_map_at, Hcd, (dget_cdf x _ d [l1; l2; l3] Hd) by (cbn [threshold_array dims dget fst map]; destruct (eq_dec d d); congruence).
    unfold eqb. destruct (eq_dec d d); [|congruence]. cbn [neighbours map fst snd bin_name]. unfold bin_name. now rewrite <- E2, <- E1. }
  split; [exact G|]. intros W. pose proof (wf_labels_NoDup y W d) as N. rewrite G in N. inversion N as [|? ? K _]; subst. apply K. now left.
Qed.
Print Assumptions C33_bin_names_refuted.

(** EnsembleMean: the mean over the members (those that are not NaN, with skipna); arrays without
    the ensemble dimension pass unchanged if asked for, else ValueError. *)
Theorem C33_ensemble_mean : forall w d skipna skip_if_missing tr name x,
  EnsembleMean w d skipna skip_if_missing = Ok tr -> NoDup (dnames x) ->
  (In d (dnames x) -> exists y, transform_fn tr name x = Ok y /\ dims y = keep (fun n => negb (memb n [d])) (dims x) /\
     forall e xs, members skipna (along x d e) xs -> get y e = if length xs then NaN else Fin (rsum xs / INR (length xs))) /\
  (~ In d (dnames x) -> transform_fn tr name x = if skip_if_missing then Ok x else Err ValueError).
Proof.
  intros w d sk sm tr name x H HN. unfold EnsembleMean in H. apply input_transform_Ok in H. destruct H as (_ & _ & Hf). rewrite Hf. clear Hf. split.
  - intros Hd. assert (memb d (dnames x) = true) as -> by (now apply memb_In). cbn [negb andb].
    destruct (reduce (np_mean sk) [d] x) as [y|er] eqn:E.
    + exists y. split; [reflexivity|]. split; [now apply reduce_Ok in E|]. intros e xs Hm. rewrite (reduce_along _ _ _ _ e HN E).
      destruct xs as [|x0 xs]; [now apply np_mean_empty|]. cbn [length]. rewrite (np_mean_members sk _ (x0 :: xs) Hm) by discriminate. reflexivity.
    + unfold reduce in E. assert (subsetb [d] (dnames x) = true) as K by (apply subsetb_iff; intros n [<-|[]]; exact Hd). rewrite K in E. discriminate.
  - intros Hd. assert (memb d (dnames x) = false) as M by (now apply memb_false). rewrite M. cbn [negb andb]. destruct sm; [reflexivity|].
    unfold reduce. cbn [subsetb forallb]. unfold subsetb. cbn [forallb]. rewrite M. reflexivity.
Qed.
Print Assumptions C33_ensemble_mean.

(** Weibull plotting positions: the fraction k/(n+1) of n binary members, so between 0 and 1 and
    never 1. *)
Theorem C33_weibull : forall d tr name x y e xs,
  Weibull "predictions" d false = Ok tr -> wf x -> transform_fn tr name x = Ok y -> along x d e = map Fin xs ->
  (forall v, In v xs -> v = 0 \/ v = 1) ->
  get y e = Fin (INR (length (filter (fun v => Reqb v 1) xs)) / (INR (length xs) + 1)) /\
  0 <= INR (length (filter (fun v => Reqb v 1) xs)) / (INR (length xs) + 1) < 1.
Proof.
  intros d tr name x y e xs H W Hy Hx Hb. unfold Weibull in H. cbn [eqb] in H. unfold eqb in H. destruct (eq_dec "predictions" "predictions"); [|discriminate].
  apply input_transform_Ok in H. destruct H as (_ & _ & Hf). rewrite Hf in Hy. clear Hf.
  destruct (size_of d x) as [n|] eqn:En; [|discriminate]. cbn [bind] in Hy. destruct (reduce (np_sum false) [d] x) as [s|] eqn:Es; [|discriminate]. cbn [bind] in Hy. injection Hy as <-.
  cbn [da_map get]. rewrite (reduce_along _ _ _ _ e (proj1 W) Es), Hx. unfold np_sum. rewrite vsum_map_Fin.
  assert (INR n = INR (length xs)) as ->.
  { unfold size_of in En. destruct (@dget string (list label) _ (dims x) d) as [ls|] eqn:Ed; [|discriminate]. injection En as <-. unfold along, labels_of in Hx. rewrite Ed in Hx. apply (f_equal (@length val)) in Hx. rewrite !map_length in Hx. now rewrite Hx. }
  assert (rsum xs = INR (length (filter (fun v => Reqb v 1) xs))) as ->.
  { clear - Hb. induction xs as [|v xs IH]; [reflexivity|]. cbn [rsum fold_right filter]. change (fold_right Rplus 0 xs) with (rsum xs). rewrite IH by (intros z Hz; apply Hb; now right).
    destruct (Hb v (or_introl eq_refl)) as [->| ->]; unfold Reqb; destruct (Req_EM_T _ _); try lra; cbn [length]. rewrite S_INR. lra. }
  assert (0 <= INR (length (filter (fun v => Reqb v 1) xs)) <= INR (length xs)) as Hc.
  { split; [apply pos_INR|]. apply le_INR. clear. induction xs as [|v xs IH]; [auto|]. cbn [filter]. destruct (Reqb v 1); cbn [length]; lia. }
  rewrite vdiv_fin by lra. split; [reflexivity|]. split.
  - apply Rle_mult_inv_pos; lra.
  - apply Rmult_lt_reg_r with (INR (length xs) + 1); [lra|]. unfold Rdiv. rewrite Rmult_assoc, Rinv_l by lra. lra.
Qed.
Print Assumptions C33_weibull.

(** ReLU: max(x, 0), NaN stays NaN. *)
Theorem C33_relu : forall w tr name x y e, ReLU w = Ok tr -> transform_fn tr name x = Ok y ->
  get y e = match get x e with Fin r => Fin (Rmax r 0) | NaN => NaN | PInf => PInf | NInf => Fin 0 end.
Proof.
  intros w tr name x y e H Hy. apply input_transform_Ok in H. destruct H as (_ & _ & Hf). rewrite Hf in Hy. injection Hy as <-. unfold relu.
  cbn [da_where_nan binop da_map notnull get]. rewrite vtruthy_b2v'. destruct (get x e) as [r| | |]; cbn [isnan negb vltb]; try reflexivity.
  destruct (Rltb 0 r) eqn:B; [apply Rltb_true in B; rewrite Rmax_left by lra; reflexivity|apply Rltb_false in B; rewrite Rmax_right by lra; reflexivity].
Qed.
Print Assumptions C33_relu.

(** ShiftAlongNewDim: adds each shift along the new dimension. *)
Theorem C33_shift : forall w vs d sfx tr name x y e r q, ShiftAlongNewDim w (TList vs) d sfx = Ok tr -> transform_fn tr name x = Ok y ->
  NoDup (map fst vs) -> In (e d, Fin q) vs -> get x e = Fin r -> get y e = Fin (r + q).
Proof.
  intros w vs d sfx tr name x y e r q H Hy HN Hin Hx. apply input_transform_Ok in H. destruct H as (_ & _ & Hf). rewrite Hf in Hy. injection Hy as <-.
  cbn [binop get threshold_array]. rewrite Hx, (In_dget vs (e d) (Fin q)) by auto. reflexivity.
Qed.
Print Assumptions C33_shift.

(** SubselectVariables: the statistics see exactly the listed variables. *)
Theorem C33_subselect : forall m variables p t n s, dget (statistics m) n = Some s ->
  exists s' p' t', dget (statistics (SubselectVariables m variables)) n = Some s' /\ compute s' p t = compute s p' t' /\
    (forall v x, In (v, x) p' <-> In (v, x) p /\ In v variables) /\ (forall v x, In (v, x) t' <-> In (v, x) t /\ In v variables).
Proof.
  intros m variables p t n s H. exists (SubselectVariablesForStatistic s variables), (subselect variables p), (subselect variables t).
  split; [|split; [reflexivity|]].
  - cbn [SubselectVariables statistics]. induction (statistics m) as [|[k s0] l IH]; [discriminate|]. cbn [map dget fst snd] in *. destruct (eq_dec n k); [congruence|auto].
  - unfold subselect. split; intros v x; rewrite filter_In, memb_In; reflexivity.
Qed.
Print Assumptions C33_subselect.

(** ** A concrete case: three values, NaN among them, edges 0, 1/2, 1. *)
Definition q_half : Qc := Q2Qc (1 # 2).
Definition ex_edges : thresholds := TList [(LZ 0, Fin 0); (LQ q_half, Fin (1/2)); (LZ 1, Fin 1)].
Definition ex_x : da := mkDa [("x", [LZ 0; LZ 1; LZ 2])] (fun e => if eqb (e "x") (LZ 0) then Fin (1/2) else if eqb (e "x") (LZ 1) then Fin 2 else NaN) [].
Definition ex_str (l : label) : string := match l with LZ 0 => "0.00" | LQ _ => "0.50" | _ => "1.00" end.
Example C33_bins_example : exists tr y, ContinuousToBins ex_str ex_str "both" ex_edges "bin" None true = Ok tr /\ transform_fn tr "v" ex_x = Ok y /\
  let at_ x b := get y (upd (upd env0 "x" x) "bin" (LS b)) in
  at_ (LZ 0) "0.00 < p <= 0.50" = Fin 1 /\ at_ (LZ 0) "0.50 < p <= 1.00" = Fin 0 /\
  at_ (LZ 1) "0.00 < p <= 0.50" = Fin 0 /\ at_ (LZ 2) "0.50 < p <= 1.00" = NaN.
Proof.
  eexists. destruct (transform_fn (mkTransform "both" "ContinuousToBins_bin_0.00,0.50,1.00" (fun name a => to_bins ex_str name a ex_edges "bin" true)) "v" ex_x) as [y|er] eqn:E.
  - exists y. split; [reflexivity|]. split; [exact E|]. intros at_.
    assert (ContinuousToBins ex_str ex_str "both" ex_edges "bin" None true = Ok (mkTransform "both" "ContinuousToBins_bin_0.00,0.50,1.00" (fun name a => to_bins ex_str name a ex_edges "bin" true))) as H by reflexivity.
    assert (wf (threshold_array "bin" [(LZ 0, Fin 0); (LQ q_half, Fin (1/2)); (LZ 1, Fin 1)])) as W by (apply wf_threshold_array; repeat constructor; simpl; intuition discriminate).
    assert (wf ex_x) as Wx.
    { split; [|split]; [repeat constructor; simpl; tauto|intros d ls [[= <- <-]|[]]; repeat constructor; simpl; intuition discriminate|].
      intros e e' He. cbn [ex_x get]. now rewrite (He "x") by now left. }
    assert (distinct_labels ex_edges) as HL by (repeat constructor; simpl; intuition discriminate).
    assert (names_distinct ex_str [LZ 0; LQ q_half; LZ 1]) as Hn.
    { intros a b a' b' Ha Hb. apply consecutive_neighbours in Ha. apply consecutive_neighbours in Hb. destruct Ha as [[= <- <-]|[[= <- <-]|[]]], Hb as [[= <- <-]|[[= <- <-]|[]]]; intros K; auto; discriminate. }
    assert (forall v a b e, e "bin" = LS (ex_str a ++ " < p <= " ++ ex_str b) -> consecutive [LZ 0; LQ q_half; LZ 1] a b -> get ex_x e = v -> 
      (isnan v = true -> get y e = NaN) /\ (isnan v = false -> vltb (threshold_used ex_edges (threshold_array "bin" [(LZ 0, Fin 0); (LQ q_half, Fin (1/2)); (LZ 1, Fin 1)]) ex_x (upd e "bin" a)) (threshold_used ex_edges (threshold_array "bin" [(LZ 0, Fin 0); (LQ q_half, Fin (1/2)); (LZ 1, Fin 1)]) ex_x (upd e "bin" b)) = true ->
        get y e = Fin (if vltb (threshold_used ex_edges (threshold_array "bin" [(LZ 0, Fin 0); (LQ q_half, Fin (1/2)); (LZ 1, Fin 1)]) ex_x (upd e "bin" a)) v && vleb v (threshold_used ex_edges (threshold_array "bin" [(LZ 0, Fin 0); (LQ q_half, Fin (1/2)); (LZ 1, Fin 1)]) ex_x (upd e "bin" b)) then 1 else 0))) as G.
    { intros v a b e He Hc <-. destruct (C33_bins _ _ _ _ _ _ _ _ "v" ex_x _ y e a b H (threshold_array_for "v" "bin" _) W Wx HL) as (_ & K1 & K2 & _); auto.
      - simpl. intuition discriminate.
      - simpl. intuition discriminate. }
    assert (consecutive [LZ 0; LQ q_half; LZ 1] (LZ 0) (LQ q_half)) as C1 by (apply consecutive_neighbours; now left).
    assert (consecutive [LZ 0; LQ q_half; LZ 1] (LQ q_half) (LZ 1)) as C2 by (apply consecutive_neighbours; right; now left).
    unfold at_. split; [|split; [|split]].
    + destruct (G (Fin (1/2)) (LZ 0) (LQ q_half) (upd (upd env0 "x" (LZ 0)) "bin" (LS "0.00 < p <= 0.50")) eq_refl C1 eq_refl) as [_ K]. rewrite K; [| reflexivity |]; cbn; unfold vleb, vltb, veqb, Rltb, Reqb.
      * destruct (Rlt_dec 0 (1/2)); [|lra]. destruct (Rlt_dec (1/2) (1/2)); [lra|]. destruct (Req_EM_T (1/2) (1/2)); [reflexivity|lra].
      * destruct (Rlt_dec 0 (1/2)); [reflexivity|lra].
    + destruct (G (Fin (1/2)) (LQ q_half) (LZ 1) (upd (upd env0 "x" (LZ 0)) "bin" (LS "0.50 < p <= 1.00")) eq_refl C2 eq_refl) as [_ K]. rewrite K; [| reflexivity |]; cbn; unfold vleb, vltb, veqb, Rltb, Reqb.
      * destruct (Rlt_dec (1/2) (1/2)); [lra|]. reflexivity.
      * destruct (Rlt_dec (1/2) 1); [reflexivity|lra].
    + destruct (G (Fin 2) (LZ 0) (LQ q_half) (upd (upd env0 "x" (LZ 1)) "bin" (LS "0.00 < p <= 0.50")) eq_refl C1 eq_refl) as [_ K]. rewrite K; [| reflexivity |]; cbn; unfold vleb, vltb, veqb, Rltb, Reqb.
      * destruct (Rlt_dec 0 2); [|lra]. destruct (Rlt_dec 2 (1/2)); [lra|]. destruct (Req_EM_T 2 (1/2)); [lra|reflexivity].
      * destruct (Rlt_dec 0 (1/2)); [reflexivity|lra].
    + destruct (G NaN (LQ q_half) (LZ 1) (upd (upd env0 "x" (LZ 2)) "bin" (LS "0.50 < p <= 1.00")) eq_refl C2 eq_refl) as [K _]. now apply K.
  - exfalso. revert E. cbn [transform_fn]. unfold to_bins.
    destruct (compute_cdf "v" ex_edges ex_x "bin" true true) as [c|er'] eqn:Ec; [|intros _].
    + cbn [bind]. apply cdf_Ok in Ec. destruct Ec as (th & Hth & _ & Hd & _). injection Hth as <-. unfold dgetE. rewrite Hd. cbn. unfold da_diff. unfold dnames. rewrite Hd. cbn. discriminate.
    + revert Ec. unfold compute_cdf. cbn. unfold all_positive. cbn. unfold Rltb. destruct (Rlt_dec 0 (1/2 + - 0)); [|lra]. destruct (Rlt_dec 0 (1 + - (1/2))); [|lra]. cbn. discriminate.
Qed.
