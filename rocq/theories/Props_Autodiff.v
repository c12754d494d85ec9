(** C52: linearised per-unit values. *)
From Coq Require Import String ZArith List Bool Reals Lra Lia Permutation FunctionalExtensionality.
Import ListNotations.
From Verif Require Import Prelude Values Model_XArray Spec_XArray Proofs_XArray Model_Tree Proofs_Tree Model_MetricsBase Model_Aggregation Model_Ensemble
  Spec_Aggregator Proofs_Aggregator Spec_Reduce Proofs_Reduce Proofs_Ensemble Proofs_Ensemble2 Proofs_Deterministic Model_Baseline Proofs_Baseline Model_Bootstrap
  Props_Baseline Model_Resample Spec_Resample Proofs_TTest Proofs_Resample Props_Resample Model_TTest Spec_TTest Props_TTest2 Model_Autodiff Spec_Autodiff Proofs_Autodiff.
Local Open Scope R_scope.
Local Open Scope string_scope.
Local Open Scope list_scope.

(** ** The value *)
(** The returned value is the metric of the state summed over the units (the usual point estimate),
    whatever jax returns for the tangents, with missing and infinite values alike. *)
Theorem C52_value_is_point_estimate : forall linearize metrics st d ls value tangents,
  unit_table d ls st -> (forall name var ws w, entry st name var (ws, w) -> proper_coords ws) ->
  per_unit_values_linearized linearize metrics (state_of st) d = Ok (value, tangents) ->
  exists total, sum_along_dims [d] (state_of st) = Ok total /\ state_metrics metrics total = Ok value.
Proof.
  intros linearize metrics st d ls value tangents T C H. rewrite (linearized_eq linearize metrics st d ls T C) in H. cbv zeta in H.
  destruct (compute_metrics_from_statistics metrics (nested_map (unit_mean d) st)) as [v|] eqn:E; [|discriminate]. cbn [bind] in H.
  destruct (mapM _ _) as [outs|] in H; [|discriminate]. cbn [bind] in H. injection H as <- _.
  destruct T as (P & _ & U). exists (Some (tree_of st (fun p => summed d (fst p)), tree_of st (fun p => summed d (snd p)))). split.
  - unfold state_of, sum_along_dims. apply (map_state_tree (da_sum [d]) st fst snd).
    intros name vs var [ws w] I J. destruct (U name var ws w) as [U1 U2]; [now apply (In_entry st name var vs)|]. split; now apply (da_sum_unit d ls).
  - rewrite state_metrics_tree by auto. exact E.
Qed.
Print Assumptions C52_value_is_point_estimate.

(** ** Tangents *)
Lemma isfin_Fin v : isfin v = true -> exists r, v = Fin r. Proof. destruct v; try discriminate. eauto. Qed.
Lemma fin_list {A} (f : A -> val) l : (forall x, In x l -> isfin (f x) = true) -> exists rs, map f l = map Fin rs.
Proof.
  induction l as [|x l IH]; intros H; [now exists []|]. destruct IH as [rs E]; [intros y Hy; apply H; now right|]. destruct (isfin_Fin (f x)) as [r Er]; [apply H; now left|].
  exists (r :: rs). cbn. now rewrite E, Er.
Qed.
(** All values of the per-unit arrays are finite. *)
Definition finite_array (x : da) : Prop := forall e, point_of (dims x) e -> isfin (get x e) = true.
Definition finite_table (st : table) : Prop := forall name var ws w, entry st name var (ws, w) -> finite_array ws /\ finite_array w.

Lemma point_upd d ls x e l : unit_array d ls x -> point_of (dims (mean_over d x)) e -> In l ls -> point_of (dims x) (upd e d l).
Proof.
  intros [W D] P I k m Hk. destruct (string_dec k d) as [->|N].
  - rewrite upd_same. assert (dget (dims x) d = Some m) as G by (apply In_dget; [apply W|exact Hk]). congruence.
  - rewrite upd_other by auto. apply (P k). cbn [mean_over dims]. unfold keep. apply filter_In. split; [exact Hk|]. cbn. apply negb_true_iff, eqb_false_iff. exact N.
Qed.
Lemma mean_Fin d ls x e : unit_array d ls x -> finite_array x -> ls <> [] -> point_of (dims (mean_over d x)) e ->
  exists xs, along x d e = map Fin xs /\ length xs = length ls /\ get (mean_over d x) e = Fin (rsum xs / INR (length ls)) /\
  forall i, (i < length ls)%nat -> get (tangent_array d i x) e = Fin (nth i xs 0 - rsum xs / INR (length ls)).
Proof.
  intros U F N P. destruct (unit_in _ _ _ U) as [I E].
  destruct (fin_list (fun l => get x (upd e d l)) ls) as [xs Hx]. { intros l Hl. apply F. now apply (point_upd d ls). }
  assert (along x d e = map Fin xs) as A by (unfold along; now rewrite E). exists xs.
  assert (length xs = length ls) as L by (rewrite <- (map_length Fin xs), <- Hx; now rewrite map_length).
  assert (0 < INR (length ls)) as Pn by (apply lt_0_INR; destruct ls; [congruence|cbn; lia]).
  assert (get (mean_over d x) e = Fin (rsum xs / INR (length ls))) as M.
  { cbn [mean_over get]. rewrite A, E, vsum_map_Fin'. apply vdiv_fin. lra. }
  split; [exact A|]. split; [exact L|]. split; [exact M|]. intros i Hi. cbn [tangent_array get]. rewrite M, E.
  assert (get x (upd e d (nth i ls (LZ 0))) = Fin (nth i xs 0)) as ->; [|apply vsub_Fin].
  assert (nth i (map (fun l => get x (upd e d l)) ls) (get x (upd e d (LZ 0))) = nth i (map Fin xs) (Fin 0)) as H.
  { rewrite Hx. apply nth_indep. rewrite map_length. lia. }
  rewrite (map_nth (fun l => get x (upd e d l)) ls (LZ 0) i) in H. rewrite (map_nth Fin xs 0 i) in H. exact H.
Qed.
Lemma wf_tangent d ls i x : unit_array d ls x -> wf (tangent_array d i x).
Proof.
  intros [W D]. split; [|split].
  - unfold dnames. cbn [tangent_array mean_over dims]. apply keep_NoDup, W.
  - intros k m I. cbn [tangent_array mean_over dims] in I. unfold keep in I. apply filter_In in I. now apply (proj1 (proj2 W) k m).
  - intros e e' H. assert (forall l, get x (upd e d l) = get x (upd e' d l)) as K.
    { intros l. apply W. intros k Hk. destruct (string_dec k d) as [->|N]; [now rewrite !upd_same|]. rewrite !upd_other by auto. apply H.
      unfold dnames. cbn [tangent_array mean_over dims]. apply in_map_iff in Hk. destruct Hk as ([k' m] & <- & Hk). apply in_map_iff. exists (k', m). split; [reflexivity|].
      unfold keep. apply filter_In. split; [exact Hk|]. cbn. apply negb_true_iff, eqb_false_iff. exact N. }
    cbn [tangent_array get mean_over]. rewrite K. f_equal. f_equal. unfold along. f_equal. apply map_ext. exact K.
Qed.
Lemma tangents_are d ls st i : unit_table d ls st -> finite_table st -> (i < length ls)%nat ->
  tangent st (fun z => mean_over d (fst z)) (fun z => mean_over d (snd z)) (fun z => tangent_array d i (fst z)) (fun z => tangent_array d i (snd z)).
Proof.
  intros (P & _ & U) F Hi name var [ws w] H. destruct (U _ _ _ _ H) as [U1 U2]. destruct (F _ _ _ _ H) as [F1 F2]. cbn [fst snd].
  assert (ls <> []) as N by (intros ->; cbn in Hi; lia). split; [reflexivity|]. split; [reflexivity|]. split; [intros e Pe|split; [intros e Pe|split; eapply wf_tangent; eauto]].
  - destruct (mean_Fin d ls ws e U1 F1 N Pe) as (xs & _ & _ & _ & G). now rewrite G.
  - destruct (mean_Fin d ls w e U2 F2 N Pe) as (xs & _ & _ & _ & G). now rewrite G.
Qed.
Lemma deviations_sum_zero xs n : length xs = n -> (0 < n)%nat -> rsum (map (fun i => nth i xs 0 - rsum xs / INR n) (seq 0 n)) = 0.
Proof.
  intros L P. transitivity (rsum (map (fun i => nth i xs 0 + - (rsum xs / INR n)) (seq 0 n))); [apply rsum_eq; intros; ring|].
  rewrite rsum_add. rewrite rsum_const_seq. subst n. rewrite <- (nth_seq_map xs (fun x => x)), List.map_id. 
  assert (0 < INR (length xs)) by (now apply lt_0_INR). field. lra.
Qed.

Lemma Forall2_nth_error {A B} (R : A -> B -> Prop) l1 l2 i x : Forall2 R l1 l2 -> nth_error l1 i = Some x -> exists y, nth_error l2 i = Some y /\ R x y.
Proof. intros H. revert i. induction H as [|a b l1 l2 Hab H IH]; intros [|i] E; try discriminate; [injection E as <-; exists b; auto|now apply IH]. Qed.
(** The entries of the result. *)
Lemma entry_output d ls outs (value : metric_arrays) m var t : proper_table value ->
  entry (map (fun mv => (fst mv, map (fun va => (fst va, output_array d ls outs (fst mv) va)) (snd mv))) value) m var t ->
  exists a, entry value m var a /\ t = output_array d ls outs m (var, a).
Proof.
  intros P (vs & H & G).
  assert (exists vs0, dget value m = Some vs0 /\ vs = map (fun va => (fst va, output_array d ls outs m va)) vs0) as (vs0 & H0 & ->).
  { clear -H. induction value as [|[k w] value IH]; [discriminate|]. cbn [map fst snd dget] in *. destruct (eq_dec m k) as [->|]; [injection H as <-; eauto|auto]. }
  assert (exists a, dget vs0 var = Some a /\ t = output_array d ls outs m (var, a)) as (a & Ha & ->).
  { clear -G. induction vs0 as [|[k w] vs0 IH]; [discriminate|]. cbn [map fst snd dget] in *. destruct (eq_dec var k) as [->|]; [injection G as <-; eauto|auto]. }
  exists a. split; [exists vs0; auto|reflexivity].
Qed.
Lemma output_along d ls outs m var a e : ~ In d (dnames a) -> length outs = length ls -> NoDup ls ->
  (forall o, In o outs -> exists y, entry o m var y /\ wf y /\ dims y = dims a) ->
  along (output_array d ls outs m (var, a)) d e =
  map (fun o => match dget o m with Some vs => match dget vs var with Some y => get y e | None => NaN end | None => NaN end) outs.
Proof.
  intros Nd L NL H. unfold along. assert (labels_of (dims (output_array d ls outs m (var, a))) d = ls) as ->.
  { unfold labels_of, output_array. cbn [dims snd]. rewrite dget_app_r; [cbn [dget]; now destruct (eq_dec d d)|]. destruct (dget (dims a) d) eqn:G; auto. apply dget_Some_keys in G. contradiction. }
  apply nth_ext with (d := NaN) (d' := NaN); [now rewrite !map_length|]. intros i Hi. rewrite map_length in Hi.
  destruct (nth_error ls i) as [l|] eqn:El; [|apply nth_error_None in El; lia].
  destruct (nth_error outs i) as [o|] eqn:Eo; [|apply nth_error_None in Eo; lia].
  rewrite (nth_error_nth _ _ NaN (map_nth_error _ _ _ El)), (nth_error_nth _ _ NaN (map_nth_error _ _ _ Eo)).
  cbn [output_array get fst]. rewrite upd_same, (index_of_map_nth ls i l NL El). match goal with |- context [nth_error ?a i] => change (nth_error a i) with (nth_error outs i) end. rewrite Eo.
  destruct (H o (nth_error_In _ _ Eo)) as (y & (vs & G1 & G2) & W & D). rewrite G1, G2. apply W. intros k Hk. apply upd_other. intros ->. apply Nd. unfold dnames in *. now rewrite <- D.
Qed.
Lemma wf_output d ls outs m var a : wf a -> ~ In d (dnames a) -> NoDup ls ->
  (forall o, In o outs -> exists y, entry o m var y /\ wf y /\ dims y = dims a) -> wf (output_array d ls outs m (var, a)).
Proof.
  intros W Nd NL H. split; [|split].
  - unfold dnames, output_array. cbn [dims snd]. rewrite map_app. cbn [map fst].
    apply (Permutation_NoDup (l := d :: dnames a)); [apply Permutation_cons_append|]. constructor; [exact Nd|apply W].
  - intros k l I. cbn [output_array dims snd] in I. apply in_app_iff in I. destruct I as [I|[[= <- <-]|[]]]; [exact (proj1 (proj2 W) k l I)|exact NL].
  - intros e e' He. cbn [output_array get fst]. unfold dnames in He. cbn [output_array dims snd] in He. rewrite map_app in He. cbn [map fst] in He.
    assert (e d = e' d) as -> by (apply He, in_app_iff; right; now left).
    match goal with |- context [nth_error ?x ?y] => destruct (nth_error x y) as [o|] eqn:Eo end; [|reflexivity].
    destruct (H o (nth_error_In _ _ Eo)) as (y & (vs & G1 & G2) & Wy & Dy). rewrite G1, G2. apply Wy. intros k Hk. apply He, in_app_iff. left. unfold dnames in Hk. now rewrite <- Dy.
Qed.
Lemma linear_sum (jac : list (R * place)) (tans : nat -> place -> R) (sums : place -> R) n :
  (forall c pl, In (c, pl) jac -> rsum (map (fun i => tans i pl) (seq 0 n)) = sums pl) ->
  rsum (map (fun i => rsum (map (fun cp => fst cp * tans i (snd cp)) jac)) (seq 0 n)) = rsum (map (fun cp => fst cp * sums (snd cp)) jac).
Proof.
  induction jac as [|[c pl] jac IH]; intros H.
  - cbn [map]. change (rsum []) with 0. rewrite rsum_zeros; auto.
  - cbn [map fst snd]. change (rsum (?a :: ?b)) with (a + rsum b). rewrite rsum_add, rsum_scale, (H c pl) by (now left). f_equal. apply IH. intros c' pl' I. apply (H c'). now right.
Qed.

(** If jax's linearisation at the mean state is a linear map, then the linearised deviations of every
    metric add up to zero over the units: the average of value + tangents is the value. *)
Theorem C52_tangents_sum_to_zero : forall linearize metrics st d ls value tangents,
  unit_table d ls st -> (forall name var ws w, entry st name var (ws, w) -> proper_coords ws) ->
  finite_table st -> ls <> [] -> NoDup ls ->
  per_unit_values_linearized linearize metrics (state_of st) d = Ok (value, tangents) ->
  proper_table value ->
  let mean_stats := fun z => mean_over d (fst z) in let mean_weights := fun z => mean_over d (snd z) in
  let L := linearize (state_metrics metrics) (arrays_state st mean_stats mean_weights) in
  linear_on st mean_stats mean_weights L -> shaped_like st mean_stats mean_weights L value ->
  forall m var t, entry tangents m var t ->
  exists a, entry value m var a /\ dims t = dims a ++ [(d, ls)] /\
  (~ In d (dnames a) -> forall e, point_of (dims a) e ->
     exists ts, along t d e = map Fin ts /\ length ts = length ls /\ rsum ts = 0).
Proof.
  intros linearize metrics st d ls value tangents T C F N NL H PV ms mw L (J & JP & JL) SL m var t Ht.
  rewrite (linearized_eq linearize metrics st d ls T C) in H. cbv zeta in H. fold ms mw in H. fold L in H.
  destruct (compute_metrics_from_statistics metrics (nested_map (unit_mean d) st)) as [v|] eqn:E; [|discriminate]. cbn [bind] in H.
  destruct (mapM _ (seq 0 (length ls))) as [outs|] eqn:M in H; [|discriminate]. cbn [bind] in H. injection H as -> <-.
  apply (entry_output d ls outs value m var t PV) in Ht. destruct Ht as (a & Ha & ->). exists a. split; [exact Ha|]. split; [reflexivity|]. intros Nd e Pe.
  assert (length outs = length ls) as LO by (apply mapM_Ok_length in M; now rewrite seq_length in M).
  apply mapM_Ok_Forall2 in M.
  assert (forall i, (i < length ls)%nat -> exists o, nth_error outs i = Some o /\ L (arrays_state st (fun z => tangent_array d i (fst z)) (fun z => tangent_array d i (snd z))) = Ok o) as OI.
  { intros i Hi. assert (nth_error (seq 0 (length ls)) i = Some i) as Es by (rewrite (nth_error_nth' _ O) by (now rewrite seq_length); now rewrite seq_nth).
    exact (Forall2_nth_error _ _ _ _ _ M Es). }
  assert (forall i, (i < length ls)%nat -> exists o y, nth_error outs i = Some o /\ L (arrays_state st (fun z => tangent_array d i (fst z)) (fun z => tangent_array d i (snd z))) = Ok o /\ entry o m var y /\ dims y = dims a /\ wf y) as OY.
  { intros i Hi. destruct (OI i Hi) as (o & Eo & Lo). destruct (SL _ _ (tangents_are d ls st i T F Hi)) as (o' & Lo' & K). assert (o' = o) as -> by (unfold ms, mw in *; congruence).
    destruct (K m var a Ha) as (y & Hy & Dy & Wy). exists o, y. auto. }
  set (tv := fun i pl => match value_at st (fun z => tangent_array d i (fst z)) (fun z => tangent_array d i (snd z)) pl with Fin r => r | _ => 0 end).
  assert (forall c pl, In (c, pl) (J m var e) -> (forall i, (i < length ls)%nat -> value_at st (fun z => tangent_array d i (fst z)) (fun z => tangent_array d i (snd z)) pl = Fin (tv i pl)) /\
      rsum (map (fun i => tv i pl) (seq 0 (length ls))) = 0) as TV.
  { intros c pl I. specialize (JP m var e c pl I). destruct pl as [[[b name] v'] e']. destruct JP as ([ws w] & Hz & Pz). destruct T as (PT & _ & U). destruct (U _ _ _ _ Hz) as [U1 U2]. destruct (F _ _ _ _ Hz) as [F1 F2].
    assert (forall i, value_at st (fun z => tangent_array d i (fst z)) (fun z => tangent_array d i (snd z)) (b, name, v', e') = get (tangent_array d i (if b then w else ws)) e') as VA.
    { intros i. destruct Hz as (vs & G1 & G2). cbn [value_at]. rewrite G1, G2. destruct b; reflexivity. }
    destruct (mean_Fin d ls (if b then w else ws) e') as (xs & _ & Lx & _ & G); auto; [destruct b; auto|destruct b; auto|destruct b; exact Pz|].
    split.
    - intros i Hi. unfold tv. rewrite VA, (G i Hi). reflexivity.
    - rewrite <- (deviations_sum_zero xs (length ls) Lx); [|destruct ls; [congruence|cbn; lia]]. apply rsum_eq. intros i Hi. apply in_seq in Hi. unfold tv. rewrite VA, (G i) by lia. reflexivity. }
  exists (map (fun i => rsum (map (fun cp => fst cp * tv i (snd cp)) (J m var e))) (seq 0 (length ls))).
  split; [|split; [now rewrite map_length, seq_length|]].
  - rewrite output_along; auto.
    + apply nth_ext with (d := NaN) (d' := NaN); [now rewrite !map_length, seq_length|]. intros i Hi. rewrite map_length in Hi. rewrite LO in Hi.
      destruct (OY i Hi) as (o & y & Eo & Lo & Hy & Dy & Wy). rewrite (nth_error_nth _ _ NaN (map_nth_error _ _ _ Eo)).
      rewrite map_map. assert (nth_error (seq 0 (length ls)) i = Some i) as Es by (rewrite (nth_error_nth' _ O) by (now rewrite seq_length); now rewrite seq_nth).
      rewrite (nth_error_nth _ _ NaN (map_nth_error _ _ _ Es)). pose proof Hy as (vs & G1 & G2). rewrite G1, G2.
      rewrite (JL _ _ o m var y e (tangents_are d ls st i T F Hi)); [|exact Lo|exact Hy|now rewrite Dy].
      rewrite <- vsum_map_Fin'. f_equal. rewrite map_map. apply map_ext_in. intros [c pl] I. cbn [fst snd]. destruct (TV c pl I) as [K _]. rewrite (K i Hi). apply vmul_Fin.
    + intros o Io. apply In_nth_error in Io. destruct Io as [i Ei]. assert (i < length ls)%nat as Hi by (rewrite <- LO; apply nth_error_Some; congruence).
      destruct (OY i Hi) as (o' & y & Eo & _ & Hy & Dy & Wy). assert (o' = o) as -> by congruence. eauto.
  - rewrite (linear_sum _ tv (fun _ => 0)).
    + apply rsum_zeros. intros cp _. ring.
    + intros c pl I. apply (TV c pl I).
Qed.
Print Assumptions C52_tangents_sum_to_zero.

(** ** Weighted means *)
Lemma metric_value metrics tbl r m (s : statistic da) vs : compute_metrics_from_statistics metrics tbl = Ok r -> dget metrics m = Some (metric_of_statistic s) ->
  dget tbl (unique_name s) = Some vs -> dget r m = Some vs.
Proof.
  unfold compute_metrics_from_statistics. revert r. induction metrics as [|[k q] metrics IH]; intros r H G D; [discriminate|]. cbn [mapM fst snd] in H. cbn [dget] in G.
  destruct (compute_metric_from_statistics q tbl) as [x|] eqn:E; [|discriminate]. cbn [bind] in H. destruct (mapM _ metrics) as [r'|] eqn:M; [|discriminate]. cbn [bind] in H. injection H as <-.
  cbn [dget]. destruct (eq_dec m k) as [->|N]; [|now apply IH]. injection G as ->. f_equal. unfold compute_metric_from_statistics in E. cbn [metric_of_statistic statistics mapM fst snd] in E.
  assert (dgetE tbl (unique_name s) = Ok vs) as DE by (now apply dgetE_Some). rewrite DE in E. cbn [bind] in E. cbn [metric_of_statistic values_from_mean_statistics] in E. unfold dgetE in E. cbn in E. congruence.
Qed.
Lemma nested_get {X Y} (f : X -> Y) (st : dict string (dict string X)) name vs : dget st name = Some vs ->
  dget (nested_map f st) name = Some (map (fun va => (fst va, f (snd va))) vs).
Proof.
  unfold nested_map. induction st as [|[k w] st IH]; [discriminate|]. cbn [map fst snd dget]. destruct (eq_dec name k); [intros [= ->]; reflexivity|apply IH].
Qed.
Lemma affine_derivative (c a : R) : derivable_pt_lim (fun h => c + h * a) 0 a.
Proof.
  intros eps He. exists (mkposreal 1 Rlt_0_1). intros h Hh _. replace ((c + (0 + h) * a - (c + 0 * a)) / h - a) with 0 by (field; exact Hh). now rewrite Rabs_R0.
Qed.
Lemma ratio_derivative A a W w : W <> 0 -> derivable_pt_lim (fun h => (A + h * a) / (W + h * w)) 0 ((a * W - w * A) / (W * W)).
Proof.
  intros N. pose proof (derivable_pt_lim_div (fun h => A + h * a) (fun h => W + h * w) 0 a w (affine_derivative A a) (affine_derivative W w)) as H.
  cbv beta in H. replace (W + 0 * w) with W in H by ring. specialize (H N). replace (A + 0 * a) with A in H by ring. exact H.
Qed.
Lemma unit_NoDup d ls st : unit_table d ls st -> NoDup ls.
Proof. intros (_ & (n & v & [ws w] & H) & U). destruct (U _ _ _ _ H) as [[W D] _]. exact (proj1 (proj2 W) d ls (dget_In _ _ D)). Qed.
Lemma combine_map_nth {A} (f : R * R -> A) xs us n : length xs = n -> length us = n -> map f (combine xs us) = map (fun i => f (nth i xs 0, nth i us 0)) (seq 0 n).
Proof.
  revert us n. induction xs as [|x xs IH]; intros us n L1 L2; subst n; [reflexivity|]. destruct us as [|u us]; [discriminate|]. cbn [length seq map combine nth]. f_equal.
  rewrite <- seq_shift, map_map. apply IH; auto.
Qed.

(** For the average of a statistic, sum(ws)/sum(w), differentiating at the mean state gives the
    deviations (ws_i - m w_i) / mean(w). *)
Theorem C52_ratio : forall linearize metrics st d ls value tangents m s var ws w,
  unit_table d ls st -> (forall name var ws w, entry st name var (ws, w) -> proper_coords ws) ->
  finite_table st -> ls <> [] ->
  per_unit_values_linearized linearize metrics (state_of st) d = Ok (value, tangents) ->
  (forall g : da * da -> da, exists r, compute_metrics_from_statistics metrics (nested_map g st) = Ok r) ->
  let mean_stats := fun z => mean_over d (fst z) in let mean_weights := fun z => mean_over d (snd z) in
  let L := linearize (state_metrics metrics) (arrays_state st mean_stats mean_weights) in
  derivative_on st mean_stats mean_weights (state_metrics metrics) L -> shaped_like st mean_stats mean_weights L value ->
  dget metrics m = Some (metric_of_statistic s) -> entry st (unique_name s) var (ws, w) ->
  exists a t, entry value m var a /\ entry tangents m var t /\ dims t = dims a ++ [(d, ls)] /\ wf t /\
  forall e xs us, point_of (dims a) e -> along ws d e = map Fin xs -> along w d e = map Fin us -> rsum us <> 0 ->
    get a e = Fin (rsum xs / rsum us) /\
    along t d e = map Fin (map (fun xu => (fst xu - rsum xs / rsum us * snd xu) / (rsum us / INR (length ls))) (combine xs us)).
Proof.
  intros linearize metrics st d ls value tangents m s var ws w T C F N H EV ms mw L DV SL Gm Hz.
  assert (NoDup ls) as NL by (now apply (unit_NoDup d ls st)).
  rewrite (linearized_eq linearize metrics st d ls T C) in H. cbv zeta in H. fold ms mw in H. fold L in H.
  destruct (compute_metrics_from_statistics metrics (nested_map (unit_mean d) st)) as [v|] eqn:E; [|discriminate]. cbn [bind] in H.
  destruct (mapM _ (seq 0 (length ls))) as [outs|] eqn:M in H; [|discriminate]. cbn [bind] in H. injection H as -> <-.
  assert (PT : proper_table st) by apply T. pose proof T as (_ & _ & U). destruct (U _ _ _ _ Hz) as [U1 U2]. destruct (F _ _ _ _ Hz) as [F1 F2].
  assert (forall g r, compute_metrics_from_statistics metrics (nested_map g st) = Ok r -> entry r m var (g (ws, w))) as EN.
  { intros g r Er. destruct Hz as (vs & G1 & G2). exists (map (fun va => (fst va, g (snd va))) vs). split.
    - apply (metric_value metrics (nested_map g st) r m s); auto. now apply nested_get.
    - clear -G2. induction vs as [|[k x] vs IH]; [discriminate|]. cbn [map fst snd dget] in *. destruct (eq_dec var k); [now injection G2 as ->|auto]. }
  pose proof (EN _ _ E) as Ha. set (a := unit_mean d (ws, w)) in *. exists a, (output_array d ls outs m (var, a)).
  split; [exact Ha|]. split.
  { destruct Ha as (vs & G1 & G2). exists (map (fun va => (fst va, output_array d ls outs m va)) vs). split.
    - clear -G1. induction value as [|[k x] value IH]; [discriminate|]. cbn [map fst snd dget] in *. destruct (eq_dec m k) as [->|]; [now injection G1 as ->|auto].
    - clear -G2. induction vs as [|[k x] vs IH]; [discriminate|]. cbn [map fst snd dget] in *. destruct (eq_dec var k) as [->|]; [now injection G2 as ->|auto]. }
  assert (a = binop vdiv (mean_over d ws) (mean_over d w)) as Ea by (symmetry; now apply (same_ratio d ls)).
  set (n := length ls) in *. assert (length outs = n) as LO by (apply mapM_Ok_length in M; now rewrite seq_length in M). apply mapM_Ok_Forall2 in M.
  assert (~ In d (dnames a)) as Nd.
  { rewrite Ea. unfold dnames. cbn [binop dims]. rewrite names_merge. cbn [mean_over dims]. rewrite !names_keep. assert (negb (eqb d d) = false) as -> by (now rewrite eqb_refl). intuition discriminate. }
  assert (forall i, (i < n)%nat -> exists o y, nth_error outs i = Some o /\ L (arrays_state st (fun z => tangent_array d i (fst z)) (fun z => tangent_array d i (snd z))) = Ok o /\ entry o m var y /\ dims y = dims a /\ wf y) as OY.
  { intros i Hi. assert (nth_error (seq 0 n) i = Some i) as Es by (rewrite (nth_error_nth' _ O) by (now rewrite seq_length); now rewrite seq_nth).
    destruct (Forall2_nth_error _ _ _ _ _ M Es) as (o & Eo & Lo). destruct (SL _ _ (tangents_are d ls st i T F Hi)) as (o' & Lo' & K). assert (o' = o) as -> by (unfold ms, mw in *; congruence).
    destruct (K m var a Ha) as (y & Hy & Dy & Wy). exists o, y. auto. }
  assert (forall o, In o outs -> exists y, entry o m var y /\ wf y /\ dims y = dims a) as OO.
  { intros o Io. apply In_nth_error in Io. destruct Io as [i Ei]. assert (i < n)%nat as Hi by (rewrite <- LO; apply nth_error_Some; congruence).
    destruct (OY i Hi) as (o' & y & Eo & _ & Hy & Dy & Wy). assert (o' = o) as -> by congruence. eauto. }
  assert (wf a) as Wa. { rewrite Ea. apply wf_binop; eapply wf_reduce; try (eapply mean_reduced; eassumption); [apply U1|apply U2]. }
  split; [reflexivity|]. split; [now apply wf_output|]. intros e xs us Pe A1 A2 Nu.
  assert (point_of (dims (mean_over d ws)) e /\ point_of (dims (mean_over d w)) e) as [P1 P2].
  { rewrite Ea in Pe. cbn [binop dims] in Pe. apply point_inter in Pe; auto. apply keep_NoDup, U2. }
  destruct (mean_Fin d ls ws e U1 F1 N P1) as (xs' & A1' & L1 & M1 & T1). destruct (mean_Fin d ls w e U2 F2 N P2) as (us' & A2' & L2 & M2 & T2).
  assert (xs' = xs) as ->. { rewrite A1 in A1'. clear -A1'. revert xs' A1'. induction xs as [|x xs IH]; intros [|y ys] H; try discriminate; auto. cbn in H. injection H as -> H. f_equal. auto. }
  assert (us' = us) as ->. { rewrite A2 in A2'. clear -A2'. revert us' A2'. induction us as [|x us IH]; intros [|y ys] H; try discriminate; auto. cbn in H. injection H as -> H. f_equal. auto. }
  assert (0 < INR (length ls)) as Pn by (apply lt_0_INR; destruct ls; [congruence|cbn; lia]). fold n in Pn.
  split.
  - unfold a. rewrite (mean_value' d ls ws w e xs us U1 U2 A1 A2). now apply vdiv_fin.
  - rewrite output_along; auto.
    rewrite (combine_map_nth _ xs us n) by auto.
    apply nth_ext with (d := NaN) (d' := NaN); [now rewrite !map_length, seq_length|]. intros i Hi. rewrite map_length in Hi. rewrite LO in Hi.
    destruct (OY i Hi) as (o & y & Eo & Lo & Hy & Dy & Wy). rewrite (nth_error_nth _ _ NaN (map_nth_error _ _ _ Eo)).
    rewrite map_map. assert (nth_error (seq 0 n) i = Some i) as Es by (rewrite (nth_error_nth' _ O) by (now rewrite seq_length); now rewrite seq_nth).
    rewrite (nth_error_nth _ _ NaN (map_nth_error _ _ _ Es)). pose proof Hy as (vs & G1 & G2). rewrite G1, G2. cbn [fst snd].
    set (A := rsum xs / INR n) in *. set (W := rsum us / INR n) in *. set (x := nth i xs 0). set (u := nth i us 0).
    assert (W <> 0) as NW. { unfold W. intros Z. apply Nu. assert (rsum us = rsum us / INR n * INR n) as -> by (field; lra). rewrite Z. ring. }
    assert (0 < Rabs W / (1 + Rabs (u - W))) as Pd.
    { assert (0 < Rabs W) by (now apply Rabs_pos_lt). assert (0 <= Rabs (u - W)) by apply Rabs_pos. apply Rdiv_lt_0_compat; lra. }
    destruct (DV _ _ o m var y e (fun h => (A + h * (x - A)) / (W + h * (u - W))) (Rabs W / (1 + Rabs (u - W))) (tangents_are d ls st i T F Hi) Lo Hy) as (r & Er & Dr); [now rewrite Dy|exact Pd| |].
    + intros h Hh. assert (W + h * (u - W) <> 0) as ND.
      { intros Z. assert (Rabs (h * (u - W)) = Rabs W) as Q. { replace (h * (u - W)) with (- W) by lra. apply Rabs_Ropp. }
        rewrite Rabs_mult in Q. assert (0 <= Rabs (u - W)) by apply Rabs_pos. assert (0 < Rabs W) by (now apply Rabs_pos_lt). assert (0 <= Rabs h) by apply Rabs_pos.
        assert (Rabs h * (1 + Rabs (u - W)) < Rabs W). { apply (Rmult_lt_compat_r (1 + Rabs (u - W))) in Hh; [|lra]. replace (Rabs W / (1 + Rabs (u - W)) * (1 + Rabs (u - W))) with (Rabs W) in Hh by (field; lra). exact Hh. }
        nra. }
      set (G := fun z : da * da => binop vdiv (moved_array h (ms z) (tangent_array d i (fst z))) (moved_array h (mw z) (tangent_array d i (snd z)))).
      destruct (EV G) as (fh & Ef). exists fh, (G (ws, w)). split; [|split].
      * unfold moved, arrays_state. rewrite state_metrics_tree by auto. exact Ef.
      * now apply EN.
      * unfold G, ms, mw. cbn [fst snd binop get moved_array]. rewrite M1, M2, (T1 i Hi), (T2 i Hi). rewrite !vmul_Fin. cbn [vadd]. fold x u. now apply vdiv_fin.
    + rewrite Er. f_equal. assert (rsum xs / rsum us = A / W) as ->. { unfold A, W. field. lra. }
      rewrite (uniqueness_limite _ _ _ _ Dr (ratio_derivative A (x - A) W (u - W) NW)). field. exact NW.
Qed.
Print Assumptions C52_ratio.

(** With constant weights these are the plain deviations of the per-unit values ws_i / w_i from their
    average. *)
Theorem C52_constant_weights : forall (xs us : list R) c n,
  length xs = n -> length us = n -> (0 < n)%nat -> c <> 0 -> (forall u, In u us -> u = c) ->
  let ys := map (fun x => x / c) xs in
  rsum us <> 0 /\ rsum xs / rsum us = rsum ys / INR n /\
  map (fun xu => (fst xu - rsum xs / rsum us * snd xu) / (rsum us / INR n)) (combine xs us) = map (fun y => y - rsum ys / INR n) ys.
Proof.
  intros xs us c n L1 L2 P Nc Hu ys. assert (0 < INR n) by (now apply lt_0_INR).
  assert (us = repeat c n) as ->. { subst n. clear -L2 Hu. rewrite <- L2. clear L2. induction us as [|u us IH]; [reflexivity|]. cbn. rewrite (Hu u) by (now left). f_equal. apply IH. intros x Hx. apply Hu. now right. }
  assert (forall k, rsum (repeat c k) = INR k * c) as S. { induction k as [|k IH]; [cbn; lra|]. cbn [repeat]. change (rsum (c :: repeat c k)) with (c + rsum (repeat c k)). rewrite IH, S_INR. ring. }
  rewrite S. assert (rsum ys = rsum xs / c) as Sy. { unfold ys. clear -Nc. induction xs as [|x xs IH]; [cbn; field; exact Nc|]. cbn [map]. change (rsum (?a :: ?b)) with (a + rsum b). rewrite IH. field. exact Nc. }
  split; [|split].
  - apply Rmult_integral_contrapositive. split; lra.
  - rewrite Sy. field. split; lra.
  - rewrite Sy. unfold ys. rewrite map_map. assert (forall zs k, length zs = k -> map (fun xu => (fst xu - rsum xs / (INR n * c) * snd xu) / (INR n * c / INR n)) (combine zs (repeat c k)) = map (fun z => z / c - rsum xs / c / INR n) zs) as K.
    { induction zs as [|z zs IH]; intros k Lk; [reflexivity|]. destruct k as [|k]; [discriminate|]. cbn [repeat combine map fst snd]. f_equal; [field; split; lra|]. apply IH. now injection Lk. }
    now apply K.
Qed.
Print Assumptions C52_constant_weights.

(** ** The classical t-test *)
Lemma mapM_dget {A B} (F : string -> A -> result B) (l : dict string A) r k x :
  mapM (fun kv => do y <- F (fst kv) (snd kv); Ok (fst kv, y)) l = Ok r -> dget l k = Some x -> exists y, dget r k = Some y /\ F k x = Ok y.
Proof.
  revert r. induction l as [|[k' x'] l IH]; intros r H G; [discriminate|]. cbn [mapM fst snd] in H. destruct (F k' x') as [y|] eqn:E; [|discriminate]. cbn [bind] in H.
  destruct (mapM _ l) as [r'|] eqn:M; [|discriminate]. cbn [bind] in H. injection H as <-. cbn [dget] in *. destruct (eq_dec k k') as [->|]; [injection G as ->; eauto|now apply IH].
Qed.
Lemma entry_unique {X} (st : dict string (dict string X)) m var x y : entry st m var x -> entry st m var y -> x = y.
Proof. intros (v1 & A1 & B1) (v2 & A2 & B2). congruence. Qed.
Lemma t_tests_entry linearize cr metrics s d value tangents res m var a t : per_unit_values_linearized linearize metrics s d = Ok (value, tangents) ->
  t_tests linearize cr metrics s d = Ok res -> entry value m var a -> entry tangents m var t ->
  exists r, entry res m var r /\ cr d a t = Ok r.
Proof.
  intros H R (vs & G1 & G2) (ts & D1 & D2). unfold t_tests in R. rewrite H in R. cbn [bind fst snd] in R.
  assert (mapM (fun kv => do y <- (do tv <- dgetE tangents (fst kv);
      mapM (fun va => do y <- (do t <- dgetE tv (fst va); cr d (snd va) t); Ok (fst va, y)) (snd kv)); Ok (fst kv, y)) value = Ok res) as R'.
  { rewrite <- R. apply mapM_ext. intros [k v] _. cbn [fst snd]. destruct (dgetE tangents k) as [tv|]; [|reflexivity]. cbn [bind].
    rewrite (mapM_ext _ (fun va => do t <- dgetE tv (fst va); do r <- cr d (snd va) t; Ok (fst va, r))).
    - destruct (mapM _ v); reflexivity.
    - intros [k' x'] _. cbn [fst snd]. destruct (dgetE tv k'); [|reflexivity]. cbn [bind]. destruct (cr d x' _); reflexivity. }
  apply (mapM_dget (fun k v => do tv <- dgetE tangents k; mapM (fun va => do y <- (do t <- dgetE tv (fst va); cr d (snd va) t); Ok (fst va, y)) v) value res m vs) in R'; [|exact G1].
  destruct R' as (rs & E1 & E2). assert (dgetE tangents m = Ok ts) as Q by (now apply dgetE_Some). rewrite Q in E2. cbn [bind] in E2.
  apply (mapM_dget (fun k x => do t <- dgetE ts k; cr d x t) vs rs var a) in E2; [|exact G2]. destruct E2 as (r & E3 & E4). assert (dgetE ts var = Ok t) as Q' by (now apply dgetE_Some). rewrite Q' in E4. cbn [bind] in E4.
  exists r. split; [exists rs; auto|exact E4].
Qed.

(** End to end: for the average of a statistic with constant weights, the IID test is the classical
    one-sample t-test on the per-unit values ws_i / w_i. *)
Theorem C52_classical_t_test : forall linearize metrics st d ls value tangents results m s var ws w,
  unit_table d ls st -> (forall name var ws w, entry st name var (ws, w) -> proper_coords ws) ->
  finite_table st -> (2 <= length ls)%nat ->
  per_unit_values_linearized linearize metrics (state_of st) d = Ok (value, tangents) ->
  t_tests linearize iid_results metrics (state_of st) d = Ok results ->
  (forall g : da * da -> da, exists r, compute_metrics_from_statistics metrics (nested_map g st) = Ok r) ->
  let mean_stats := fun z => mean_over d (fst z) in let mean_weights := fun z => mean_over d (snd z) in
  let L := linearize (state_metrics metrics) (arrays_state st mean_stats mean_weights) in
  derivative_on st mean_stats mean_weights (state_metrics metrics) L -> shaped_like st mean_stats mean_weights L value ->
  dget metrics m = Some (metric_of_statistic s) -> entry st (unique_name s) var (ws, w) ->
  exists r, entry results m var r /\ r_dof r = (Z.of_nat (length ls) - 1)%Z /\
  forall e xs c, point_of (dims (r_mean r)) e -> along ws d e = map Fin xs -> along w d e = map (fun _ => Fin c) ls -> c <> 0 ->
    let ys := map (fun x => x / c) xs in let mean := rsum ys / INR (length ls) in
    get (r_mean r) e = Fin mean /\
    get (r_standard_error r) e = Fin (sqrt (rsum (map (fun y => (y - mean) * (y - mean)) ys) / (INR (length ls) - 1) / INR (length ls))).
Proof.
  intros linearize metrics st d ls value tangents results m s var ws w T C F N H R EV ms mw L DV SL Gm Hz.
  assert (ls <> []) as NE by (intros ->; cbn in N; lia).
  destruct (C52_ratio linearize metrics st d ls value tangents m s var ws w T C F NE H EV DV SL Gm Hz) as (a & t & Ha & Ht & Dt & Wt & K).
  destruct (t_tests_entry _ _ _ _ _ _ _ _ _ _ _ _ H R Ha Ht) as (r & Hr & Er).
  assert (In d (dnames t)) as It. { unfold dnames. rewrite Dt, map_app, in_app_iff. right. now left. }
  assert (~ In d (dnames a)) as Nd.
  { intros I. destruct Wt as [Wn _]. unfold dnames in Wn. rewrite Dt, map_app in Wn. cbn [map fst] in Wn. apply NoDup_remove_2 in Wn. rewrite app_nil_r in Wn. contradiction. }
  assert (labels_of (dims t) d = ls) as Lt.
  { rewrite Dt. unfold labels_of. rewrite dget_app_r; [cbn [dget]; now destruct (eq_dec d d)|]. destruct (dget (dims a) d) eqn:G; auto. apply dget_Some_keys in G. contradiction. }
  destruct (C53_iid d a t Wt It) as (r' & Er' & Mr & Dr & _ & G). rewrite Lt in Dr, G. assert (r' = r) as -> by congruence.
  exists r. split; [exact Hr|]. split; [exact Dr|]. intros e xs c Pe A1 A2 Nc ys mean. rewrite Mr in *.
  assert (along w d e = map Fin (repeat c (length ls))) as A2'. { rewrite A2. clear. induction ls as [|l ls IH]; [reflexivity|]. cbn. now rewrite IH. }
  assert (length xs = length ls) as Lx. { destruct T as (_ & _ & U). destruct (U _ _ _ _ Hz) as [U1 _]. destruct (unit_in _ _ _ U1) as [_ E1]. rewrite <- (map_length Fin xs), <- A1. unfold along. now rewrite map_length, E1. }
  destruct (C52_constant_weights xs (repeat c (length ls)) c (length ls) Lx (repeat_length _ _)) as (Q1 & Q2 & Q3); [lia|exact Nc|intros u Hu; now apply repeat_spec in Hu|].
  destruct (K e xs _ Pe A1 A2' Q1) as [K1 K2]. fold ys in Q2, Q3. fold mean in Q2, Q3. split; [now rewrite K1, Q2|].
  destruct (G e) as [G1 _]. rewrite Q3 in K2. destruct (G1 _ K2 N) as [G2 _]. rewrite G2. f_equal. f_equal. f_equal.
  unfold sample_variance, sum_squares, ys. rewrite !map_length, Lx, !map_map. reflexivity.
Qed.
Print Assumptions C52_classical_t_test.

(** ** The laws can be met *)
(** For the average of one statistic, the quotient rule is a linear map and the derivative. *)
Section QuotientRule.
  Variables (X : Type) (name var m : string) (z : X) (a b : X -> da) (s : statistic da).
  Let st : dict string (dict string X) := [(name, [(var, z)])].
  Hypothesis unique : unique_name s = name.
  Hypothesis same : dims (a z) = dims (b z).
  Hypotheses (Wa : wf (a z)) (Wb : wf (b z)).
  Variables (A B : env -> R).
  Hypothesis values_a : forall e, point_of (dims (a z)) e -> get (a z) e = Fin (A e).
  Hypothesis values_b : forall e, point_of (dims (a z)) e -> get (b z) e = Fin (B e).
  Hypothesis nonzero_b : forall e, point_of (dims (a z)) e -> B e <> 0.

  Definition quotient_rule (v : state) : result metric_arrays :=
    match v with
    | Some (Dict [(_, Dict [(_, Leaf p)])], Dict [(_, Dict [(_, Leaf q)])]) =>
        Ok [(m, [(var, mkDa (dims (a z))
            (fun e => if in_box (dims (a z)) e then vadd (vmul (Fin (1 / B e)) (get p e)) (vmul (Fin (- (A e / (B e * B e)))) (get q e)) else NaN) [])])]
    | _ => Err TypeError
    end.
  Lemma entry_one {Y} (y : Y) n v x : entry [(name, [(var, y)])] n v x -> n = name /\ v = var /\ x = y.
  Proof.
    intros (vs & G1 & G2). cbn [dget] in G1. destruct (eq_dec n name) as [->|]; [|discriminate]. injection G1 as <-. cbn [dget] in G2. destruct (eq_dec v var) as [->|]; [|discriminate]. injection G2 as <-. auto.
  Qed.
  Lemma entry_z : entry st name var z.
  Proof. exists [(var, z)]. split; cbn [st dget]; [now destruct (eq_dec name name)|now destruct (eq_dec var var)]. Qed.
  Lemma entry_out (y : da) n v x : entry [(m, [(var, y)])] n v x -> n = m /\ v = var /\ x = y.
  Proof.
    intros (vs & G1 & G2). cbn [dget] in G1. destruct (eq_dec n m) as [->|]; [|discriminate]. injection G1 as <-. cbn [dget] in G2. destruct (eq_dec v var) as [->|]; [|discriminate]. injection G2 as <-. auto.
  Qed.
  Theorem C52_quotient_rule_linear : linear_on st a b quotient_rule.
  Proof.
    exists (fun _ _ e => if in_box (dims (a z)) e then [(1 / B e, (false, name, var, e)); (- (A e / (B e * B e)), (true, name, var, e))] else []). split.
    - intros m' v e c pl I. destruct (in_box (dims (a z)) e) eqn:E; [|destruct I]. apply in_box_iff in E. destruct I as [[= <- <-]|[[= <- <-]|[]]]; exists z; split; try apply entry_z; [exact E|now rewrite <- same].
    - intros p q o m' v y e Ht Ho Hy Pe. cbn in Ho. injection Ho as <-. apply entry_out in Hy. destruct Hy as (-> & -> & ->). cbn [dims] in Pe. cbn [get].
      assert (in_box (dims (a z)) e = true) as -> by (now apply in_box_iff). cbn [map fst snd].
      assert (dget st name = Some [(var, z)]) as G1 by (unfold st; cbn [dget]; now destruct (eq_dec name name)).
      assert (dget [(var, z)] var = Some z) as G2 by (cbn [dget]; now destruct (eq_dec var var)).
      unfold value_at. rewrite G1, G2.
      destruct (Ht name var z entry_z) as (_ & _ & Fp & Fq & _). destruct (isfin_Fin _ (Fp e Pe)) as [rp Ep]. destruct (isfin_Fin (get (q z) e)) as [rq Eq]; [apply Fq; now rewrite <- same|].
      rewrite Ep, Eq, !vmul_Fin. unfold vsum. cbn [fold_right vadd]. apply f_equal. ring.
  Qed.
  Theorem C52_quotient_rule_derivative : derivative_on st a b (state_metrics [(m, metric_of_statistic s)]) quotient_rule.
  Proof.
    intros p q o m' v y e g delta Ht Ho Hy Pe Pd Hg. cbn in Ho. injection Ho as <-. apply entry_out in Hy. destruct Hy as (-> & -> & ->). cbn [dims] in Pe. cbn [get].
    assert (in_box (dims (a z)) e = true) as -> by (now apply in_box_iff).
    destruct (Ht name var z entry_z) as (_ & _ & Fp & Fq & _). destruct (isfin_Fin _ (Fp e Pe)) as [rp Ep]. destruct (isfin_Fin (get (q z) e)) as [rq Eq]; [apply Fq; now rewrite <- same|].
    rewrite Ep, Eq, !vmul_Fin. cbn [vadd]. eexists. split; [reflexivity|].
    assert (forall h, Rabs h < delta -> Fin (g h) = vdiv (Fin (A e + h * rp)) (Fin (B e + h * rq))) as G.
    { intros h Hh. destruct (Hg h Hh) as (fh & x & Ef & Ex & Eg). unfold moved, arrays_state in Ef. rewrite state_metrics_tree in Ef.
      2: { split; [cbn; constructor; [intros []|constructor]|]. intros n vs [[= <- <-]|[]]. cbn. constructor; [intros []|constructor]. }
      apply (metric_value _ _ _ m s [(var, binop vdiv (moved_array h (a z) (p z)) (moved_array h (b z) (q z)))]) in Ef.
      - destruct Ex as (vs & G1 & G2). pose proof (eq_trans (eq_sym G1) Ef) as Ev. injection Ev as ->. cbn [dget] in G2. destruct (eq_dec var var); [|congruence]. injection G2 as <-.
        cbn [binop get moved_array] in Eg. rewrite (values_a e Pe), (values_b e Pe), Ep, Eq, !vmul_Fin in Eg. cbn [vadd] in Eg. now symmetry.
      - cbn [dget]. now destruct (eq_dec m m).
      - rewrite unique. unfold st. cbn [nested_map map fst snd dget]. now destruct (eq_dec name name). }
    assert (B e <> 0) as NB by (now apply nonzero_b).
    pose proof (ratio_derivative (A e) rp (B e) rq NB) as D.
    replace (1 / B e * rp + - (A e / (B e * B e)) * rq) with ((rp * B e - rq * A e) / (B e * B e)) by (field; exact NB).
    (* g agrees with the quotient near 0 *)
    intros eps He. destruct (D eps He) as [d1 H1].
    set (d0 := Rmin (Rmin d1 delta) (Rabs (B e) / (1 + Rabs rq))).
    assert (0 < Rabs (B e)) as PB by (now apply Rabs_pos_lt). assert (0 <= Rabs rq) as Pq by apply Rabs_pos.
    assert (0 < d0) as Pd0. { unfold d0. repeat apply Rmin_glb_lt; [apply cond_pos|exact Pd|apply Rdiv_lt_0_compat; lra]. }
    exists (mkposreal d0 Pd0). intros h Hh Hd. cbn [pos] in Hd.
    assert (Rabs h < d1) as L1. { eapply Rlt_le_trans; [exact Hd|]. unfold d0. eapply Rle_trans; [apply Rmin_l|apply Rmin_l]. }
    assert (Rabs h < delta) as L2. { eapply Rlt_le_trans; [exact Hd|]. unfold d0. eapply Rle_trans; [apply Rmin_l|apply Rmin_r]. }
    assert (Rabs h < Rabs (B e) / (1 + Rabs rq)) as L3. { eapply Rlt_le_trans; [exact Hd|]. unfold d0. apply Rmin_r. }
    assert (forall k, Rabs k < Rabs (B e) / (1 + Rabs rq) -> Rabs k < delta -> g k = (A e + k * rp) / (B e + k * rq)) as GG.
    { intros k Hk Hk2. specialize (G k Hk2). rewrite vdiv_fin in G; [now injection G|].
      intros Z. assert (Rabs (k * rq) = Rabs (B e)) as Q. { replace (k * rq) with (- B e) by lra. apply Rabs_Ropp. }
      rewrite Rabs_mult in Q. assert (0 <= Rabs k) by apply Rabs_pos.
      assert (Rabs k * (1 + Rabs rq) < Rabs (B e)). { apply (Rmult_lt_compat_r (1 + Rabs rq)) in Hk; [|lra]. replace (Rabs (B e) / (1 + Rabs rq) * (1 + Rabs rq)) with (Rabs (B e)) in Hk by (field; lra). exact Hk. }
      nra. }
    rewrite !GG; rewrite ?Rplus_0_l, ?Rabs_R0; auto; [|apply Rdiv_lt_0_compat; lra].
    specialize (H1 h Hh L1). rewrite Rplus_0_l in H1. exact H1.
  Qed.
  Theorem C52_quotient_rule_shaped : forall x : da, dims x = dims (a z) -> shaped_like st a b quotient_rule [(m, [(var, x)])].
  Proof.
    intros x Dx p q Ht. eexists. split; [reflexivity|]. intros m' v y Hy. apply entry_out in Hy. destruct Hy as (-> & -> & ->). eexists. split; [|split].
    - unfold entry. eexists. split; cbn [dget]; [destruct (eq_dec m m); [reflexivity|congruence]|cbn [dget]; destruct (eq_dec var var); [reflexivity|congruence]].
    - cbn [dims]. now symmetry.
    - destruct (Ht name var z entry_z) as (Dp & Dq & Fp & Fq & Wp & Wq). split; [exact (proj1 Wa)|]. split; [exact (proj1 (proj2 Wa))|].
      intros e e' H. cbn [get]. assert (in_box (dims (a z)) e = in_box (dims (a z)) e') as Ebox.
      { apply eq_true_iff_eq. rewrite !in_box_iff. split; intros P k n I.
        - rewrite <- H; [now apply (P k n)|]. apply in_map_iff. now exists (k, n).
        - rewrite H; [now apply (P k n)|]. apply in_map_iff. now exists (k, n). }
      rewrite <- Ebox. destruct (in_box (dims (a z)) e) eqn:E; [|reflexivity]. pose proof (eq_sym Ebox) as E'. apply in_box_iff in E, E'.
      assert (A e = A e') as ->. { assert (get (a z) e = get (a z) e') as Q by (now apply Wa). rewrite (values_a e E), (values_a e' E') in Q. now injection Q. }
      assert (B e = B e') as ->. { assert (get (b z) e = get (b z) e') as Q by (apply Wb; unfold dnames; rewrite <- same; exact H). rewrite (values_b e E), (values_b e' E') in Q. now injection Q. }
      f_equal; f_equal; [apply Wp|apply Wq]; unfold dnames; [rewrite Dp|rewrite Dq, <- same]; exact H.
  Qed.
End QuotientRule.
Print Assumptions C52_quotient_rule_linear.
Print Assumptions C52_quotient_rule_derivative.
Print Assumptions C52_quotient_rule_shaped.
