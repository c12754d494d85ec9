(** C64: averages over the ensemble members. *)
From Coq Require Import String List Bool Reals Lra ZArith Permutation.
Import ListNotations.
From Verif Require Import Prelude Values Model_XArray Spec_XArray Proofs_XArray Model_Tree Model_MetricsBase Model_Aggregation
  Spec_Aggregator Proofs_Aggregator Proofs_Aggregator2 Spec_Metrics Proofs_Metrics Spec_Means Proofs_Means Model_Calendar Model_Deterministic Proofs_Deterministic
  Model_Categorical Proofs_Categorical Model_Ensemble Spec_Ensemble Proofs_Ensemble Spec_Reduce Proofs_Ensemble2 Spec_Statistic Proofs_Beam9 Proofs_Det2 Proofs_MemberMean Proofs_Exists Proofs_Seeps.
Local Open Scope R_scope.
Local Open Scope string_scope.
Local Open Scope list_scope.

Lemma averaged_value d k s p t v sv st : (forall raw, compute s p t = Ok raw -> NoDup (keys raw)) ->
  statistic_value s p t v sv -> statistic_value (EnsembleAveragedStatistic d k s) p t v st -> reduce (np_mean k) [d] sv = Ok st.
Proof.
  intros N (raw & H & D) (out & H' & D'). cbn [compute EnsembleAveragedStatistic] in H'. rewrite H in H'. cbn [bind] in H'.
  destruct (map_vars_value _ _ _ _ _ (N _ H) H' D') as (b & Hb & E). rewrite D in Hb. injection Hb as <-. exact E.
Qed.
Lemma keep_one (d : string) (D : dimlist) : keep (fun n => negb (memb n [d])) D = keep (fun n => negb (eqb n d)) D.
Proof. apply filter_ext. intros [n l]. cbn [fst memb existsb]. now rewrite orb_false_r. Qed.
Lemma valid_all_NaN vs : (forall x, In x vs -> x = NaN) -> valid vs = [].
Proof. induction vs as [|x vs IH]; intros H; [reflexivity|]. unfold valid. cbn [filter]. rewrite (H x) by (now left). cbn [isnan negb]. apply IH. intros; apply H; now right. Qed.

(** The averaged statistic has the dimensions of the statistic without the ensemble dimension.
    With skipna_ensemble=False a missing member makes the average missing, otherwise it is the
    mean of the members' values; with skipna_ensemble=True it is the mean of the available ones. *)
Theorem C64_average : forall d k s p t v sv st e, (forall raw, compute s p t = Ok raw -> NoDup (keys raw)) ->
  statistic_value s p t v sv -> wf sv -> statistic_value (EnsembleAveragedStatistic d k s) p t v st ->
  In d (dnames sv) /\ dims st = keep (fun n => negb (eqb n d)) (dims sv) /\
  (k = false -> (In NaN (along sv d e) -> get st e = NaN) /\
                forall xs, along sv d e = map Fin xs -> xs <> [] -> get st e = Fin (mean xs)) /\
  (k = true -> ((forall x, In x (along sv d e) -> x = NaN) -> get st e = NaN) /\
               forall q, average_of_valid (along sv d e) q -> get st e = Fin q).
Proof.
  intros d k s p t v sv st e N Hs W Ha. pose proof (averaged_value d k s p t v sv st N Hs Ha) as H.
  pose proof (reduce_along _ _ _ _ e (proj1 W) H) as G. apply reduce_Ok in H. destruct H as (Hd & _ & _ & Hi). split; [apply Hi; now left|]. split; [rewrite Hd; apply keep_one|]. split; intros ->.
  - split; [intros I; rewrite G; now apply np_mean_NaN|]. intros xs E Hx. rewrite G. now apply np_mean_members.
  - split; [intros I; rewrite G; apply np_mean_empty; exact (valid_all_NaN _ I)|]. intros q (xs & E & Hx & ->). rewrite G. now apply np_mean_members.
Qed.
Print Assumptions C64_average.

(** It is computed if the statistic is and has the ensemble dimension for every variable; a variable
    without it is a ValueError, and an exception of the statistic is passed on. *)
Theorem C64_defined : forall d k s p t,
  (forall raw, compute s p t = Ok raw ->
     (exists out, compute (EnsembleAveragedStatistic d k s) p t = Ok out /\ keys out = keys raw) <-> (forall v sv, In (v, sv) raw -> In d (dnames sv))) /\
  (forall raw v sv, compute s p t = Ok raw -> In (v, sv) raw -> ~ In d (dnames sv) -> compute (EnsembleAveragedStatistic d k s) p t = Err ValueError) /\
  (forall x, compute s p t = Err x -> compute (EnsembleAveragedStatistic d k s) p t = Err x).
Proof.
  assert (forall f sv, In f (dnames sv) -> forall g, exists a, reduce g [f] sv = Ok a) as R1.
  { intros f sv I g. unfold reduce. cbn [subsetb forallb]. rewrite (proj2 (memb_In _ _) I). cbn [andb]. eauto. }
  assert (forall f sv, ~ In f (dnames sv) -> forall g, reduce g [f] sv = Err ValueError) as R2.
  { intros f sv I g. unfold reduce. cbn [subsetb forallb]. destruct (memb f (dnames sv)) eqn:E; [apply memb_In in E; contradiction|]. reflexivity. }
  assert (forall d k (raw : vars da), (forall v sv, In (v, sv) raw -> In d (dnames sv)) -> exists out, map_vars (reduce (np_mean k) [d]) raw = Ok out /\ keys out = keys raw) as T1.
  { intros d k raw. unfold map_vars. induction raw as [|[n a] raw IH]; intros H; [exists []; auto|]. destruct (R1 d a (H n a (or_introl eq_refl)) (np_mean k)) as [b Hb].
    destruct IH as (out & E & K); [intros; eapply H; right; eauto|]. exists ((n, b) :: out). cbn [mapM fst snd]. rewrite Hb. cbn [bind]. unfold vars, dict in *. rewrite E. cbn [bind].
    split; [reflexivity|]. change (n :: keys out = n :: keys raw). now f_equal. }
  assert (forall d k (raw : vars da) v sv, In (v, sv) raw -> ~ In d (dnames sv) -> map_vars (reduce (np_mean k) [d]) raw = Err ValueError) as T2.
  { intros d k raw v sv. unfold map_vars. induction raw as [|[n a] raw IH]; intros I Hn; [destruct I|]. cbn [mapM fst snd]. destruct I as [[= -> ->]|I].
    - rewrite (R2 d sv Hn). reflexivity.
    - destruct (memb d (dnames a)) eqn:Em.
      + destruct (R1 d a (proj1 (memb_In _ _) Em) (np_mean k)) as [b ->]. cbn [bind]. unfold vars, dict in *. rewrite (IH I Hn). reflexivity.
      + rewrite (R2 d a); [reflexivity|]. intros K. apply memb_In in K. congruence. }
  intros d k s p t. split; [|split].
  - intros raw H. cbn [compute EnsembleAveragedStatistic]. rewrite H. cbn [bind]. split.
    + intros (out & Ho & _) v sv I. destruct (memb d (dnames sv)) eqn:Em; [now apply memb_In|]. rewrite (T2 d k raw v sv I) in Ho; [discriminate|]. intros K. apply memb_In in K. congruence.
    + apply T1.
  - intros raw v sv H I Hn. cbn [compute EnsembleAveragedStatistic]. rewrite H. cbn [bind]. eapply T2; eauto.
  - intros x H. cbn [compute EnsembleAveragedStatistic]. now rewrite H.
Qed.
Print Assumptions C64_defined.

(** EnsembleErrorExceedance: the share of the available members whose absolute error exceeds the
    threshold; missing if no member is available, or the target or the threshold is missing. *)
Theorem C64_exceedance : forall thr d p t v pv tv st e, NoDup (keys p) -> dget p v = Some pv -> dget t v = Some tv -> wf pv -> wf tv -> wf thr ->
  In d (dnames pv) -> ~ In d (dnames tv) -> ~ In d (dnames thr) -> statistic_value (EnsembleErrorExceedance thr d) p t v st ->
  ((forall x, In x (along pv d e) -> x = NaN) \/ get tv e = NaN \/ get thr e = NaN -> get st e = NaN) /\
  forall xs y h, filter (fun x => negb (isnan x)) (along pv d e) = map Fin xs -> xs <> [] -> get tv e = Fin y -> get thr e = Fin h ->
    get st e = Fin (INR (length (filter (fun x => Rltb h (Rabs (x - y))) xs)) / INR (length xs)).
Proof.
  intros thr d p t v pv tv st e N Hp Ht Wp Wt Wh I1 I2 I3 Hs. apply (per_variable_value _ _ _ _ _ pv tv) in Hs; auto. cbv beta in Hs.
  destruct (reduce (np_mean true) [d] (exceedance_var thr pv tv)) as [r|] eqn:E; [|discriminate]. cbn [bind] in Hs. injection Hs as ->.
  set (A := exceedance_var thr pv tv) in *.
  assert (wf A) as WA. { unfold A, exceedance_var, da_where_nan, notnull. repeat first [apply wf_binop|apply wf_map]; assumption. }
  rewrite (reduce_along _ _ _ _ e (proj1 WA) E).
  assert (labels_of (dims A) d = labels_of (dims pv) d) as HL.
  { unfold A, exceedance_var, da_where_nan, notnull, labels_of. cbn [binop da_map dims]. rewrite !dget_merge.
    assert (dget (dims tv) d = None) as ->. { destruct (dget (dims tv) d) eqn:G; auto. apply dget_Some_keys in G. contradiction. }
    assert (dget (dims thr) d = None) as ->. { destruct (dget (dims thr) d) eqn:G; auto. apply dget_Some_keys in G. contradiction. }
    destruct (dget (dims pv) d) as [ls|] eqn:G; [|reflexivity]. repeat (rewrite ?filter_all; try reflexivity; unfold inter_labels). all: intros l Hl; apply memb_In; exact Hl. }
  set (cell := fun x => if isnan (vsub x (get tv e)) then NaN else if isnan (get thr e) then NaN else b2v (vltb (get thr e) (vabs (vsub x (get tv e))))).
  assert (along A d e = map cell (along pv d e)) as HA.
  { unfold along. rewrite HL, map_map. apply map_ext. intros l. unfold A. rewrite exceedance_get. rewrite (wf_upd tv e d l Wt I2), (wf_upd thr e d l Wh I3). reflexivity. }
  rewrite HA. clear HA HL E WA A. unfold vsub in cell. split.
  - intros HN. apply np_mean_empty. unfold members. apply valid_all_NaN. intros x Hx. apply in_map_iff in Hx. destruct Hx as (z & <- & Hz). unfold cell.
    destruct HN as [HN|[HN|HN]].
    + rewrite (HN z Hz). reflexivity.
    + rewrite HN. cbn [vneg]. destruct z; reflexivity.
    + rewrite HN. destruct (isnan (vadd z (vneg (get tv e)))); reflexivity.
  - intros xs y h. revert xs. assert (forall xs, filter (fun x => negb (isnan x)) (along pv d e) = map Fin xs -> get tv e = Fin y -> get thr e = Fin h ->
      members true (map cell (along pv d e)) (map (fun x => if Rltb h (Rabs (x - y)) then 1 else 0) xs)) as K.
    { intros xs E Ey Eh. unfold members. unfold cell. rewrite Ey, Eh. cbn [vneg isnan]. clear cell. revert xs E. induction (along pv d e) as [|z zs IH]; intros xs E; [destruct xs; [reflexivity|discriminate E]|].
      cbn [filter map] in E |- *. destruct (isnan z) eqn:Ez; cbn [negb] in E.
      - assert (z = NaN) as -> by (destruct z; try discriminate Ez; reflexivity). unfold valid. cbn [vadd isnan filter negb]. apply (IH xs E).
      - destruct xs as [|x xs]; [discriminate E|]. cbn [map] in E. injection E as -> E. unfold valid. cbn [vadd isnan vabs vltb map].
        change (x + - y) with (x - y). assert (isnan (b2v (Rltb h (Rabs (x - y)))) = false) as Eb by reflexivity. cbn [filter]. rewrite Eb. cbn [negb]. f_equal.
        exact (IH xs E). }
    intros xs E Hx Ey Eh. rewrite (np_mean_members true _ _ (K xs E Ey Eh)) by (destruct xs; [congruence|discriminate]). unfold mean, size. rewrite map_length. f_equal. f_equal.
    clear. induction xs as [|x xs IH]; [reflexivity|]. cbn [map filter]. rewrite rsum_cons, IH. destruct (Rltb h (Rabs (x - y))); cbn [length]; rewrite ?S_INR; lra.
Qed.
Print Assumptions C64_exceedance.

(** ** Averaging over the members and then aggregating is aggregating over the members too *)
Lemma point_upd a q d l : ~ In d (dnames a) -> point_of (dims a) q -> point_of (dims a) (upd q d l).
Proof. intros N H n ls I. rewrite upd_other; [now apply H|]. intros ->. apply N. now apply (in_map fst) in I. Qed.
Lemma reals_upd ws wrs q d l : Forall2 real_valued ws wrs -> (forall a, In a ws -> wf a /\ ~ In d (dnames a) /\ point_of (dims a) q) ->
  map (fun r : env -> R => r (upd q d l)) wrs = map (fun r => r q) wrs.
Proof.
  intros F. induction F as [|w r ws wrs H1 F IH]; intros H; [reflexivity|]. cbn [map]. f_equal; [|apply IH; intros; apply H; now right].
  destruct (H w (or_introl eq_refl)) as (Ww & Nd & Pq). assert (Fin (r (upd q d l)) = Fin (r q)) as E; [|now injection E].
  rewrite <- (H1 q Pq), <- (H1 (upd q d l)) by (now apply point_upd). now apply wf_upd.
Qed.
Lemma bools_upd ms bs q d l : Forall2 indicator ms bs -> (forall a, In a ms -> wf a /\ ~ In d (dnames a) /\ point_of (dims a) q) ->
  forallb (fun b : env -> bool => b (upd q d l)) bs = forallb (fun b => b q) bs.
Proof.
  intros F. induction F as [|w r ws wrs H1 F IH]; intros H; [reflexivity|]. cbn [forallb]. rewrite IH by (intros; apply H; now right). f_equal.
  destruct (H w (or_introl eq_refl)) as (Ww & Nd & Pq). assert (b2v (r (upd q d l)) = b2v (r q)) as E.
  { rewrite <- (H1 q Pq), <- (H1 (upd q d l)) by (now apply point_upd). now apply wf_upd. }
  unfold b2v in E. destruct (r (upd q d l)), (r q); try reflexivity; injection E; lra.
Qed.
Lemma same_sample_refl st : wf st -> same_sample st st.
Proof. intros H. split; [reflexivity|]. split; [reflexivity|]. split; [exact H|]. reflexivity. Qed.

(** Two arrays with the same points and the same values. *)
Definition equal_arrays (a b : da) : Prop := (forall e, point_of (dims a) e <-> point_of (dims b) e) /\ forall e, point_of (dims a) e -> get a e = get b e.

(** [sv] is a statistic with members along [d], [st] its average over them, and [g] does not reduce [d].
    The same weights and bins apply to both and do not depend on the member, no value is
    missing, and a mask, if there is one, does not depend on the member. *)
Record pooled_input (g : aggregator) (d : string) (st sv : da) (avg x : env -> R) ws wrs ms bs : Prop := {
  po_dim : ~ In d (reduce_dims g);
  po_averaged : weighted_input g st avg ws wrs ms bs;
  po_members : weighted_input (with_reduce_dims g (d :: reduce_dims g)) sv x ws wrs ms bs;
  po_free : forall a, In a (ws ++ ms) -> ~ In d (dnames a);
  po_weights : forall q, 0 <= rprod (map (fun r => r q) wrs);
  po_finite : forall q, point_of (dims sv) q -> get sv q = Fin (x q);
  po_some : labels_of (dims sv) d <> [];
  po_mask : forall c, dget (aux sv) "mask" = Some c -> ~ In d (c_dims c) /\ forall q l, c_get c (upd q d l) = c_get c q }.

Section Pooled.
  Variables (g : aggregator) (st sv : da) (d : string) (k : bool).
  Variables (avg x : env -> R) (ws : list da) (wrs : list (env -> R)) (ms : list da) (bs : list (env -> bool)).
  Let g' := with_reduce_dims g (d :: reduce_dims g).
  Hypothesis Havg : reduce (np_mean k) [d] sv = Ok st.
  Hypothesis PO : pooled_input g d st sv avg x ws wrs ms bs.
  Let Hd := po_dim _ _ _ _ _ _ _ _ _ _ PO.
  Let W := po_averaged _ _ _ _ _ _ _ _ _ _ PO.
  Let W' := po_members _ _ _ _ _ _ _ _ _ _ PO.
  Let Hfree := po_free _ _ _ _ _ _ _ _ _ _ PO.
  Let Hpos := po_weights _ _ _ _ _ _ _ _ _ _ PO.
  Let Hfin := po_finite _ _ _ _ _ _ _ _ _ _ PO.
  Let Hsome := po_some _ _ _ _ _ _ _ _ _ _ PO.
  Let Hmask := po_mask _ _ _ _ _ _ _ _ _ _ PO.

  Lemma stDims : dims st = keep (fun n => negb (eqb n d)) (dims sv).
  Proof. destruct (reduce_Ok _ _ _ _ Havg) as (H & _). rewrite H. apply keep_one. Qed.
  Lemma d_in : In d (dnames sv).
  Proof. destruct (reduce_Ok _ _ _ _ Havg) as (_ & _ & _ & H). apply H. now left. Qed.
  Let Wsv : wf sv := wi_wf _ _ _ _ _ _ _ W'.

  Lemma st_value q : point_of (dims st) q -> get st q = Fin (mean (map (fun l => x (upd q d l)) (labels_of (dims sv) d))).
  Proof.
    intros Hq. rewrite (reduce_along _ _ _ _ q (proj1 Wsv) Havg). apply np_mean_members; [|intros E; apply map_eq_nil in E; now apply Hsome].
    unfold along, members. assert (map (fun l => get sv (upd q d l)) (labels_of (dims sv) d) = map Fin (map (fun l => x (upd q d l)) (labels_of (dims sv) d))) as ->.
    { rewrite map_map. apply map_ext_in. intros l Hl. apply Hfin. now apply (point_member st sv d Wsv stDims). }
    destruct k; [|reflexivity]. unfold valid. generalize (map (fun l => x (upd q d l)) (labels_of (dims sv) d)). clear. induction l as [|a l IH]; [reflexivity|]. cbn [map filter isnan negb]. now rewrite IH.
  Qed.

  Lemma mask_same : dget (aux st) "mask" = dget (aux sv) "mask".
  Proof.
    destruct (reduce_Ok _ _ _ _ Havg) as (_ & Ha & _). rewrite Ha. unfold aux_without. pose proof Hmask as H. clear - H. revert H.
    generalize (aux sv). intros l. induction l as [|[n c] l IH]; intros H; [reflexivity|]. cbn [filter fst snd].
    cbn [dget fst snd] in H |- *. destruct (eq_dec "mask" n) as [E|E].
    - destruct (H c eq_refl) as [Hc _]. match goal with |- context [if ?b then _ else _] => assert (b = true) as -> end.
      { cbn [snd]. rewrite negb_true_iff. clear - Hc. induction (c_dims c) as [|m l IH]; [reflexivity|]. cbn [existsb]. rewrite IH by (intros K; apply Hc; now right). rewrite orb_false_r.
        destruct (memb m [d]) eqn:E; [|reflexivity]. apply memb_In in E. destruct E as [->|[]]. exfalso. apply Hc. now left. }
      cbn [dget fst snd]. destruct (eq_dec "mask" n); [reflexivity|contradiction].
    - match goal with |- context [if ?b then _ else _] => destruct b end; [cbn [dget fst snd]; destruct (eq_dec "mask" n); [contradiction|]|]; now apply IH.
  Qed.
  Lemma counted_member q l : point_of (dims st) q -> In l (labels_of (dims sv) d) -> counted g' sv (upd q d l) = counted g st q.
  Proof.
    intros Hq Hl. clearbody Hmask. unfold counted. change (masked g') with (masked g). change (skipna g') with (skipna g). rewrite mask_same, (st_value q Hq), (Hfin (upd q d l)); [|now apply (point_member st sv d Wsv stDims)].
    cbn [isnan]. f_equal. destruct (masked g); [|reflexivity]. destruct (dget (aux sv) "mask") as [c|] eqn:E; [|reflexivity]. now rewrite (proj2 (Hmask c eq_refl)).
  Qed.
  Lemma weight_member q l : point_of (dims st) q -> (forall a, In a (ws ++ ms) -> point_of (dims a) q) -> In l (labels_of (dims sv) d) ->
    point_weight g' sv wrs bs (upd q d l) = point_weight g st wrs bs q.
  Proof.
    intros Hq Ha Hl. unfold point_weight. rewrite (counted_member q l Hq Hl).
    rewrite (reals_upd ws wrs q d l (wi_real _ _ _ _ _ _ _ W)), (bools_upd ms bs q d l (wi_ind _ _ _ _ _ _ _ W)); [reflexivity| |].
    - intros a I. assert (In a (ws ++ ms)) as I' by (apply in_or_app; now right). split; [now apply (wi_all_wf _ _ _ _ _ _ _ W)|]. split; [now apply Hfree|now apply Ha].
    - intros a I. assert (In a (ws ++ ms)) as I' by (apply in_or_app; now left). split; [now apply (wi_all_wf _ _ _ _ _ _ _ W)|]. split; [now apply Hfree|now apply Ha].
  Qed.
  Lemma weight_pos q : 0 <= point_weight g st wrs bs q.
  Proof. unfold point_weight. destruct (_ && _); [apply Hpos|lra]. Qed.
  Lemma weight_pos' q : 0 <= point_weight g' sv wrs bs q.
  Proof. unfold point_weight. destruct (_ && _); [apply Hpos|lra]. Qed.

  Lemma mean_points (h : aggregator) (s : da) (f : env -> R) (a : da) : weighted_input h s f ws wrs ms bs -> mean_array h s a ->
    forall e, point_of (dims a) e <-> forall n, ~ In n (reduce_dims h) -> forall b, In b (s :: ws ++ ms) -> In n (dnames b) -> In (e n) (labels_of (dims b) n).
  Proof.
    intros Wh (X & Y & HXY & Ha) e. rewrite (mean_dims h s a X Y (wi_weights_coords _ _ _ _ _ _ _ Wh) (wi_bins_coords _ _ _ _ _ _ _ Wh) (wi_spans _ _ _ _ _ _ _ Wh) HXY Ha).
    destruct (agg_var_Some h s X Y) as (ws' & ms' & Hw' & Hm' & _ & _ & Hx & _); try apply Wh; auto.
    rewrite (wi_weights _ _ _ _ _ _ _ Wh) in Hw'. injection Hw' as <-. apply bin_masks_Some in Hm'. destruct Hm' as [Hm' _].
    rewrite (wi_bins _ _ _ _ _ _ _ Wh) in Hm'. injection Hm' as <-. rewrite Hx, dims_dot, (ijoint_dims _ s _ (proj1 (prepare_dims h s))).
    assert (forall b, In b (s :: ws ++ ms) -> wf b) as WF by (intros b [<-|I]; [apply Wh|now apply (wi_all_wf _ _ _ _ _ _ _ Wh)]).
    assert (NoDup (map fst (ijoint (s :: ws ++ ms)))) as NJ by (apply ij_NoDup; intros; now apply WF).
    rewrite point_of_labels by (now apply keep_NoDup). split.
    - intros H n Hn b Hb Hnb. assert (In n (map fst (ijoint (s :: ws ++ ms)))) as J by (apply ij_names; eauto).
      assert (negb (memb n (reduce_dims h)) = true) as En. { rewrite negb_true_iff. destruct (memb n (reduce_dims h)) eqn:Em; [apply memb_In in Em; contradiction|reflexivity]. }
      specialize (H n). rewrite keep_names in H. specialize (H (conj J En)). unfold labels_of in H at 1. rewrite dget_keep, En in H.
      fold (labels_of (ijoint (s :: ws ++ ms)) n) in H. apply ij_labels in H. destruct H as [_ H]. now apply H.
    - intros H n Hn. apply keep_names in Hn. destruct Hn as [J En]. unfold labels_of. rewrite dget_keep, En. fold (labels_of (ijoint (s :: ws ++ ms)) n). apply ij_labels.
      rewrite negb_true_iff in En. split; [now apply ij_names|]. intros b Hb Hnb. apply H; auto. intros K. apply memb_In in K. congruence.
  Qed.

  Lemma pooled a b : mean_array g st a -> mean_array g' sv b -> equal_arrays a b.
  Proof.
    intros Ha Hb. assert (forall e, point_of (dims a) e <-> point_of (dims b) e) as PE.
    { intros e. rewrite (mean_points g st avg a W Ha), (mean_points g' sv x b W' Hb). change (reduce_dims g') with (d :: reduce_dims g). split; intros H n Hn c Hc Nc.
      - assert (n <> d) as Nn by (intros ->; apply Hn; now left). assert (~ In n (reduce_dims g)) as Hn' by (intros ?; apply Hn; now right). destruct Hc as [<-|Hc].
        + rewrite <- (labels_st st sv d stDims n Nn). apply H; [exact Hn'|now left|]. apply (names_st st sv d stDims). auto.
        + apply H; [exact Hn'|now right|exact Nc].
      - assert (n <> d) as Nn. { intros ->. destruct Hc as [<-|Hc]; [apply (names_st st sv d stDims) in Nc; tauto|now apply (Hfree c Hc)]. }
        assert (~ In n (d :: reduce_dims g)) as Hn' by (intros [?|?]; [congruence|contradiction]). destruct Hc as [<-|Hc].
        + rewrite (labels_st st sv d stDims n Nn). apply H; [exact Hn'|now left|]. now apply (names_st st sv d stDims) in Nc.
        + apply H; [exact Hn'|now right|exact Nc]. }
    split; [exact PE|]. intros e He.
    destruct (joint_means g st avg ws wrs ms bs a e W Ha He) as (P & HP & HPin & HJ).
    destruct (joint_means g' sv x ws wrs ms bs b e W' Hb (proj1 (PE e) He)) as (P' & HP' & _ & HJ').
    destruct (HJ st (fun q => mean (map (fun l => x (upd q d l)) (labels_of (dims sv) d))) a (same_sample_refl st (wi_wf _ _ _ _ _ _ _ W))) as (_ & J1 & J2); [intros q Hq _; now apply st_value|exact Ha|].
    destruct (HJ' sv x b (same_sample_refl sv Wsv)) as (_ & J1' & J2'); [intros q Hq _; now apply Hfin|exact Hb|]. clear HJ HJ'.
    pose proof (member_points st sv (ws ++ ms) d (reduce_dims g) e Wsv d_in Hd stDims Hfree P P' HP HP') as PP.
    set (L := labels_of (dims sv) d) in *. set (u := point_weight g st wrs bs) in *. set (u' := point_weight g' sv wrs bs) in *.
    assert (0 < INR (length L)) as NL by (apply lt_0_INR; apply Nat.neq_0_lt_0; intros E; apply length_zero_iff_nil in E; exact (Hsome E)).
    assert (forall q l, In q P -> In l L -> u' (upd q d l) = u q) as Hu.
    { intros q l Hq Hl. apply weight_member; [now apply HPin| |exact Hl]. intros c Hc. pose proof (proj1 (proj2 HP q) Hq) as [A B].
      rewrite point_of_labels by (apply (wi_all_wf _ _ _ _ _ _ _ W c Hc)). intros n Hn. destruct (memb n (reduce_dims g)) eqn:Em; [apply memb_In in Em; apply B; [now right|exact Em|exact Hn]|].
      assert (~ In n (reduce_dims g)) as Hn' by (intros K; apply memb_In in K; congruence). rewrite A by (intros [? _]; contradiction).
      apply (proj1 (mean_points g st avg a W Ha e) He n Hn' c); [now right|exact Hn]. }
    assert (rsum (map u' P') = INR (length L) * rsum (map u P)) as S0.
    { rewrite (rsum_perm _ _ (Permutation_map u' PP)), rsum_flat, <- rsum_map_scale. apply rsum_map_ext. intros q Hq. rewrite (rsum_map_ext _ (fun _ => u q) L) by (intros; now apply Hu).
      rewrite rsum_map_const. ring. }
    assert (rsum (map (fun q => u' q * x q) P') = INR (length L) * rsum (map (fun q => u q * mean (map (fun l => x (upd q d l)) L)) P)) as S1.
    { rewrite (rsum_perm _ _ (Permutation_map (fun q => u' q * x q) PP)), rsum_flat, <- rsum_map_scale. apply rsum_map_ext. intros q Hq.
      rewrite (rsum_map_ext _ (fun l => u q * x (upd q d l)) L) by (intros; now rewrite Hu). rewrite rsum_map_scale. unfold mean, size. rewrite map_length. field. lra. }
    destruct (Req_dec (rsum (map u P)) 0) as [Z|Z].
    - rewrite J2 by (auto; apply weight_pos). rewrite J2'; [reflexivity| |apply weight_pos']. rewrite S0, Z. ring.
    - rewrite J1 by exact Z. rewrite J1' by (rewrite S0; apply Rmult_integral_contrapositive_currified; lra). f_equal. unfold wavg. rewrite S0, S1. field. split; lra.
  Qed.
End Pooled.

(** For one statistic: the metric averaged over the members, and the metric itself with an
    aggregator that reduces the ensemble dimension too, have equal values. *)
Theorem C64_pooled : forall g d k s p t v sv st avg x ws wrs ms bs a b, (forall raw, compute s p t = Ok raw -> NoDup (keys raw)) ->
  statistic_value s p t v sv -> statistic_value (EnsembleAveragedStatistic d k s) p t v st -> pooled_input g d st sv avg x ws wrs ms bs ->
  metric_value g p t (EnsembleAveragedMetric d k (metric_of_statistic s)) v a ->
  metric_value (with_reduce_dims g (d :: reduce_dims g)) p t (metric_of_statistic s) v b -> equal_arrays a b.
Proof.
  intros g d k s p t v sv st avg x ws wrs ms bs a b N Hs Ha PO Ma Mb. change (EnsembleAveragedMetric d k (metric_of_statistic s)) with (metric_of_statistic (EnsembleAveragedStatistic d k s)) in Ma.
  assert (forall raw, compute (EnsembleAveragedStatistic d k s) p t = Ok raw -> NoDup (keys raw)) as N'.
  { intros out H. cbn [compute EnsembleAveragedStatistic] in H. destruct (compute s p t) as [raw|] eqn:E; [|discriminate]. cbn [bind] in H. specialize (N raw eq_refl). clear - N H. unfold map_vars in H.
    assert (keys out = keys raw) as ->; [|exact N]. clear N. revert out H. induction raw as [|[n c] raw IH]; intros out H; cbn [mapM fst snd] in H; [injection H as <-; reflexivity|].
    destruct (reduce (np_mean k) [d] c); [|discriminate]. cbn [bind] in H. destruct (mapM _ raw) as [r|] eqn:Er; [|discriminate]. cbn [bind] in H. injection H as <-. change (n :: keys r = n :: keys raw). f_equal. now apply IH. }
  destruct (value_of_statistic g p t _ v a N' Ma) as (ra & sa & Hra & Da & Ha'). destruct (value_of_statistic _ p t _ v b N Mb) as (rb & sb & Hrb & Db & Hb').
  destruct Ha as (ra' & E1 & E2). rewrite Hra in E1. injection E1 as <-. rewrite Da in E2. injection E2 as <-.
  destruct Hs as (rb' & E3 & E4). rewrite Hrb in E3. injection E3 as <-. rewrite Db in E4. injection E4 as <-.
  exact (pooled g sa sb d k avg x ws wrs ms bs (averaged_value d k s p t v sb sa N (ex_intro _ rb (conj Hrb Db)) (ex_intro _ ra (conj Hra Da))) PO a b Ha' Hb').
Qed.
Print Assumptions C64_pooled.

(** The root mean squared error over all members. *)
Theorem C64_rmse : forall g d k p t v sv st avg x ws wrs ms bs a b, NoDup (keys p) ->
  statistic_value SquaredError p t v sv -> statistic_value (EnsembleAveragedStatistic d k SquaredError) p t v st -> pooled_input g d st sv avg x ws wrs ms bs ->
  metric_value g p t (EnsembleAveragedMetric d k RMSE) v a ->
  metric_value (with_reduce_dims g (d :: reduce_dims g)) p t RMSE v b -> equal_arrays a b.
Proof.
  intros g d k p t v sv st avg x ws wrs ms bs a b N Hs Ha PO Ma Mb.
  assert (forall raw, compute SquaredError p t = Ok raw -> NoDup (keys raw)) as N1 by (apply per_var_outputs).
  assert (forall raw, compute (EnsembleAveragedStatistic d k SquaredError) p t = Ok raw -> NoDup (keys raw)) as N'.
  { intros out H. cbn [compute EnsembleAveragedStatistic] in H. destruct (compute SquaredError p t) as [raw|] eqn:E; [|discriminate]. cbn [bind] in H. specialize (N1 raw eq_refl). clear - N1 H. unfold map_vars in H.
    assert (keys out = keys raw) as ->; [|exact N1]. clear N1. revert out H. induction raw as [|[n c] raw IH]; intros out H; cbn [mapM fst snd] in H; [injection H as <-; reflexivity|].
    destruct (reduce (np_mean k) [d] c); [|discriminate]. cbn [bind] in H. destruct (mapM _ raw) as [r|] eqn:Er; [|discriminate]. cbn [bind] in H. injection H as <-. change (n :: keys r = n :: keys raw). f_equal. now apply IH. }
  change (EnsembleAveragedMetric d k RMSE) with (per_variable_metric [("SquaredError", EnsembleAveragedStatistic d k SquaredError)] (fun vals => do x <- dgetE vals "SquaredError"; Ok (da_map vsqrt x))) in Ma.
  apply value_of_metric in Ma; [|intros s raw [<-|[]]; apply N'|intros s s' [<-|[]] [<-|[]] _; reflexivity|repeat constructor; intros []].
  apply value_of_metric in Mb; [|intros s raw [<-|[]]; apply N1|intros s s' [<-|[]] [<-|[]] _; reflexivity|repeat constructor; intros []].
  destruct Ma as (pa & Fa & La). destruct Mb as (pb & Fb & Lb). inversion La as [|? [na ma] ? ? [Ea (ra & sa & Hra & Da & Ha')] La']; subst. inversion La'; subst. inversion Lb as [|? [nb mb] ? ? [Eb (rb & sb & Hrb & Db & Hb')] Lb']; subst. inversion Lb'; subst.
  cbn [fst snd] in *. subst na nb. unfold dgetE in Fa, Fb. cbn in Fa, Fb. injection Fa as <-. injection Fb as <-.
  destruct Ha as (ra' & E1 & E2). rewrite Hra in E1. injection E1 as <-. rewrite Da in E2. injection E2 as <-.
  destruct Hs as (rb' & E3 & E4). rewrite Hrb in E3. injection E3 as <-. rewrite Db in E4. injection E4 as <-.
  assert (equal_arrays ma mb) as [Q1 Q2]. { exact (pooled g sa sb d k avg x ws wrs ms bs (averaged_value d k SquaredError p t v sb sa N1 (ex_intro _ rb (conj Hrb Db)) (ex_intro _ ra (conj Hra Da))) PO ma mb Ha' Hb'). }
  split; [exact Q1|]. intros e He. cbn [get da_map]. now rewrite (Q2 e He).
Qed.
Print Assumptions C64_rmse.

(** ** Examples: two members 1 and 3, target 0 *)
Definition ex_p : da := mkDa [("time", [LZ 0]); ("number", [LZ 0; LZ 1])] (fun e => if eqb (e "number") (LZ 0) then Fin 1 else Fin 3) [].
Definition ex_t : da := mkDa [("time", [LZ 0])] (fun _ => Fin 0) [].
Definition ex_g : aggregator := mkAgg ["time"] [] [] false false.
Lemma ex_wf_p : wf ex_p.
Proof.
  split; [|split].
  - cbn. repeat constructor; cbn; intuition discriminate.
  - intros n ls I. cbn in I. destruct I as [[= <- <-]|[[= <- <-]|[]]]; repeat constructor; cbn; intuition discriminate.
  - intros e e' H. cbn [get ex_p]. rewrite (H "number"); [reflexivity|]. right. now left.
Qed.
Lemma ex_wf_t : wf ex_t.
Proof. split; [|split]; [cbn; repeat constructor; cbn; intuition discriminate|intros n ls I; cbn in I; destruct I as [[= <- <-]|[]]; repeat constructor; cbn; intuition discriminate|reflexivity]. Qed.
Definition ex_sv : da := squared_error_var ex_p ex_t.
Definition ex_x (e : env) : R := if eqb (e "number") (LZ 0) then 1 else 9.
Lemma ex_sv_value e : get ex_sv e = Fin (ex_x e).
Proof. unfold ex_sv, squared_error_var. cbn [da_map binop get ex_p ex_t]. unfold ex_x. destruct (eqb (e "number") (LZ 0)); unfold vsub; cbn [vneg vadd]; rewrite vsq_Fin; f_equal; ring. Qed.
Example C64_example : exists st avg a b,
  statistic_value (EnsembleAveragedStatistic "number" false SquaredError) [("v", ex_p)] [("v", ex_t)] "v" st /\
  pooled_input ex_g "number" st ex_sv avg ex_x [] [] [] [] /\
  metric_value ex_g [("v", ex_p)] [("v", ex_t)] (EnsembleAveragedMetric "number" false RMSE) "v" a /\
  metric_value (with_reduce_dims ex_g ["number"; "time"]) [("v", ex_p)] [("v", ex_t)] RMSE "v" b.
Proof.
  assert (wf ex_sv) as Wsv by (apply wf_map, wf_binop; [apply ex_wf_p|apply ex_wf_t]).
  destruct (reduce (np_mean false) ["number"] ex_sv) as [st|] eqn:E; [|discriminate E]. pose proof (wf_reduce _ _ _ _ Wsv E) as Wst.
  assert (forall e, get st e = Fin 5) as G.
  { intros e. rewrite (reduce_along _ _ _ _ e (proj1 Wsv) E). unfold along. change (labels_of (dims ex_sv) "number") with [LZ 0; LZ 1]. cbn [map]. rewrite !ex_sv_value.
    rewrite (np_mean_members false _ [1; 9]); [unfold mean, size; rewrite !rsum_cons, rsum_nil; cbn [length]; f_equal; cbn [INR]; lra| |discriminate]. unfold members. reflexivity. }
  assert (compute SquaredError [("v", ex_p)] [("v", ex_t)] = Ok [("v", ex_sv)]) as C1 by reflexivity.
  assert (compute (EnsembleAveragedStatistic "number" false SquaredError) [("v", ex_p)] [("v", ex_t)] = Ok [("v", st)]) as C2.
  { cbn [compute EnsembleAveragedStatistic]. rewrite C1. cbn [bind map_vars mapM fst snd]. rewrite E. reflexivity. }
  assert (dims st = [("time", [LZ 0])]) as Dst by (destruct (reduce_Ok _ _ _ _ E) as (H & _); rewrite H; reflexivity).
  destruct (aggregate_stat_var ex_g st) as [[[X Y]|]|] eqn:A1.
  2,3: exfalso; revert A1; unfold aggregate_stat_var, prepare, ex_g; cbn [masked skipna]; unfold aggregation_fn; cbn [weigh_by bin_by mapM bind bin_masks reduce_dims]; unfold dnames; cbn [dims]; rewrite Dst; discriminate.
  destruct (aggregate_stat_var (with_reduce_dims ex_g ["number"; "time"]) ex_sv) as [[[X' Y']|]|] eqn:A2; [|discriminate A2|discriminate A2].
  exists st, (fun _ => 5), (da_map vsqrt (binop vdiv X Y)), (da_map vsqrt (binop vdiv X' Y')). split; [exists [("v", st)]; split; [exact C2|reflexivity]|]. split; [|split].
  - constructor.
    + intros [H|[]]. discriminate H.
    + constructor; [exact Wst|intros c H; destruct (reduce_Ok _ _ _ _ E) as (_ & Ha & _); rewrite Ha in H; discriminate H|intros ? []|intros ? []|reflexivity|reflexivity|intros ? []|constructor|constructor|intros e _ _; apply G].
    + constructor; [exact Wsv|intros c H; discriminate H|intros ? []|intros ? []|reflexivity|reflexivity|intros ? []|constructor|constructor|intros e _ _; apply ex_sv_value].
    + intros a [].
    + intros q. cbn. lra.
    + intros q _. apply ex_sv_value.
    + discriminate.
    + intros c H. discriminate H.
  - change (EnsembleAveragedMetric "number" false RMSE) with (per_variable_metric [("SquaredError", EnsembleAveragedStatistic "number" false SquaredError)] (fun vals => do x <- dgetE vals "SquaredError"; Ok (da_map vsqrt x))).
    apply (metric_value_intro _ _ _ _ _ _ _ [("SquaredError", binop vdiv X Y)]); [discriminate|repeat constructor; intros []|intros s s' [<-|[]] [<-|[]] _; reflexivity| |reflexivity].
    constructor; [|constructor]. split; [reflexivity|]. exists st. split; [exact C2|]. exists X, Y. auto.
  - apply (metric_value_intro _ _ _ _ _ _ _ [("SquaredError", binop vdiv X' Y')]); [discriminate|repeat constructor; intros []|intros s s' [<-|[]] [<-|[]] _; reflexivity| |reflexivity].
    constructor; [|constructor]. split; [reflexivity|]. exists ex_sv. split; [exact C1|]. exists X', Y'. auto.
Qed.

(** Two of the three members 1, 3 and NaN are available; one has an error above 2. *)
Definition ex_q : da := mkDa [("number", [LZ 0; LZ 1; LZ 2])] (fun e => if eqb (e "number") (LZ 0) then Fin 1 else if eqb (e "number") (LZ 1) then Fin 3 else NaN) [].
Definition ex_0 : da := mkDa [] (fun _ => Fin 0) [].
Definition ex_h : da := mkDa [("error_exceedance_thresholds", [LZ 2])] (fun _ => Fin 2) [].
Example C64_exceedance_example : exists st e, statistic_value (EnsembleErrorExceedance ex_h "number") [("v", ex_q)] [("v", ex_0)] "v" st /\ get st e = Fin (1 / 2).
Proof.
  assert (wf ex_q) as W1. { split; [|split]; [cbn; repeat constructor; cbn; intuition discriminate|intros n ls I; cbn in I; destruct I as [[= <- <-]|[]]; repeat constructor; cbn; intuition discriminate|]. intros e e' H. cbn [get ex_q]. rewrite (H "number"); [reflexivity|now left]. }
  assert (wf ex_0) as W2 by (split; [constructor|split; [intros ? ? []|reflexivity]]).
  assert (wf ex_h) as W3. { split; [|split]; [cbn; repeat constructor; cbn; intuition discriminate|intros n ls I; cbn in I; destruct I as [[= <- <-]|[]]; repeat constructor; cbn; intuition discriminate|reflexivity]. }
  destruct (reduce (np_mean true) ["number"] (exceedance_var ex_h ex_q ex_0)) as [st|] eqn:E; [|discriminate E].
  assert (statistic_value (EnsembleErrorExceedance ex_h "number") [("v", ex_q)] [("v", ex_0)] "v" st) as S by (apply single_value; cbv beta; rewrite E; reflexivity).
  exists st, (fun _ => LZ 0). split; [exact S|].
  destruct (C64_exceedance ex_h "number" [("v", ex_q)] [("v", ex_0)] "v" ex_q ex_0 st (fun _ => LZ 0)) as [_ H]; auto; [repeat constructor; intros []|now left|intros [K|[]]; discriminate K|].
  rewrite (H [1; 3] 0 2); try reflexivity; [|discriminate]. cbn [filter]. rewrite (proj2 (Rltb_false 2 (Rabs (1 - 0)))), (proj2 (Rltb_true 2 (Rabs (3 - 0)))) by (unfold Rabs; destruct (Rcase_abs _); lra).
    cbn [length INR]. f_equal; try lra.
Qed.
