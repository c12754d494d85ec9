(** Metric values of equal states (C69): from entries to the dataset. *)
From Coq Require Import String Ascii List Bool Arith Lia.
Import ListNotations.
From Verif Require Import Prelude Values Model_XArray Spec_XArray Proofs_XArray Model_Tree Spec_Tree Proofs_Tree Proofs_AggState
  Model_MetricsBase Model_Aggregation Spec_Aggregator Proofs_Aggregator2 Spec_RoundTrip Proofs_Deterministic Proofs_Metrics Proofs_MetricValues
  Model_Beam Spec_Beam Spec_BeamWrite Proofs_BeamWrite.
Local Open Scope string_scope.
Local Open Scope list_scope.

(** ** Metrics from equal tables *)
Lemma renamed_same (sts : dict string (statistic da)) vals vals' r : same_tables vals vals' ->
  mapM (fun kv => do x <- dgetE vals (unique_name (snd kv)); Ok (fst kv, x)) sts = Ok r ->
  exists r', mapM (fun kv => do x <- dgetE vals' (unique_name (snd kv)); Ok (fst kv, x)) sts = Ok r' /\ items_rel same_vars r r'.
Proof.
  intros H. revert r. induction sts as [|[k st] sts IH]; intros r E; cbn [mapM fst snd] in *.
  - injection E as <-. exists []. split; constructor.
  - unfold dgetE in E at 1. unfold dgetE at 1. pose proof (H (unique_name st)) as Hs.
    destruct (dget vals (unique_name st)) as [x|]; [|discriminate]. destruct (dget vals' (unique_name st)) as [y|]; [|destruct Hs].
    cbn [bind] in *. match type of E with bind ?q _ = _ => destruct q as [q0|] eqn:Eq; [|discriminate] end. cbn [bind] in E. injection E as <-.
    destruct (IH q0 eq_refl) as (r' & -> & R). cbn [bind]. exists ((k, y) :: r'). split; auto. constructor; auto.
Qed.
Lemma items_tables (x y : dict string (vars da)) : items_rel same_vars x y -> same_tables x y.
Proof. intros H k. pose proof (items_rel_dget _ _ _ k H) as G. exact G. Qed.
Lemma metrics_same metrics n n' mv : (forall name m, In (name, m) metrics -> extensional m) -> same_tables n n' ->
  compute_metrics_from_statistics metrics n = Ok mv ->
  exists mv', compute_metrics_from_statistics metrics n' = Ok mv' /\ items_rel same_vars mv mv'.
Proof.
  intros HM H. unfold compute_metrics_from_statistics. revert mv. induction metrics as [|[name m] metrics IH]; intros mv E; cbn [mapM fst snd] in *.
  - injection E as <-. exists []. split; constructor.
  - unfold compute_metric_from_statistics in E at 1. unfold compute_metric_from_statistics at 1.
    destruct (mapM (fun kv => do x <- dgetE n (unique_name (snd kv)); Ok (fst kv, x)) (statistics m)) as [rn|] eqn:Er; [|discriminate].
    destruct (renamed_same _ _ _ _ H Er) as (rn' & -> & R). cbn [bind] in *.
    destruct (values_from_mean_statistics m rn) as [x|] eqn:Ex; [|discriminate].
    destruct (HM name m (or_introl eq_refl) rn rn' x (items_tables _ _ R) Ex) as (x' & -> & SX). cbn [bind] in *.
    match type of E with bind ?q _ = _ => destruct q as [q0|] eqn:Eq; [|discriminate] end. cbn [bind] in E. injection E as <-.
    destruct (IH (fun a b I => HM a b (or_intror I)) q0 eq_refl) as (r' & -> & R'). cbn [bind]. exists ((name, x') :: r'). split; auto. constructor; auto.
Qed.

(** ** The dataset *)
Lemma assign_same l : (forall k a, In (k, a) l -> wf a) ->
  (forall k a k' b, In (k, a) l -> In (k', b) l -> labels_agree a b) ->
  forall k a', dget (assign_all l) k = Some a' ->
    exists l1 a l2, l = l1 ++ (k, a) :: l2 /\ ~ In k (map fst l2) /\ same_array a' a.
Proof.
  induction l as [|[k0 a0] l IH] using rev_ind; intros Hn Hs k a' H; [discriminate|].
  rewrite assign_app in H. unfold ds_assign in H. rewrite dget_dset in H.
  assert (forall k a', dget (assign_all l) k = Some a' -> exists l1 a l2, l = l1 ++ (k, a) :: l2 /\ ~ In k (map fst l2) /\ same_array a' a) as IH'.
  { apply IH; intros; [eapply Hn|eapply Hs]; try (apply in_app_iff; left; eauto). }
  destruct (eq_dec k k0) as [->|Hne].
  - exists l, a0, []. split; [reflexivity|]. split; [intros []|]. injection H as <-.
    set (F := fun p : string * list label => match ds_labels (assign_all l) (fst p) with Some ls => (fst p, ls) | None => p end).
    assert (wf a0) as W0 by (eapply Hn; apply in_app_iff; right; now left).
    assert (forall p, fst (F p) = fst p) as F1 by (intros [d ls]; unfold F; cbn [fst]; now destruct (ds_labels _ d)).
    assert (forall d ls, In (d, ls) (dims a0) -> NoDup (snd (F (d, ls))) /\ forall x, In x (snd (F (d, ls))) <-> In x ls) as F2.
    { intros d ls I. assert (NoDup ls) as NL by (eapply W0; eauto). unfold F, ds_labels. cbn [fst].
      destruct (find _ (assign_all l)) as [[k1 b']|] eqn:Ef; [|cbn; tauto]. cbn [snd].
      apply find_some in Ef. destruct Ef as [Hin _].
      assert (NoDup (keys (assign_all l))) as Hnd.
      { rewrite keys_assign_all. clear. induction (map fst l) as [|x m IHm]; simpl; [constructor|]. constructor.
        - rewrite filter_In. rewrite String.eqb_refl. simpl. intros [_ ?]; discriminate.
        - now apply NoDup_filter. }
      destruct (IH' k1 b' (In_dget _ _ _ Hnd Hin)) as (l1 & b & l2 & El & _ & (Wb' & Wb & E1 & E2 & _)).
      destruct (dget (dims b') d) as [ls'|] eqn:Eb; [|cbn; tauto]. cbn [snd].
      assert (In (d, ls') (dims b')) as I' by (now apply dget_In in Eb).
      split; [eapply Wb'; eauto|]. intros x.
      assert (labels_agree a0 b) as Hab.
      { eapply Hs; [apply in_app_iff; right; now left|]. apply in_app_iff. left. rewrite El. apply in_app_iff. right. now left. }
      assert (In d (dnames a0)) as D0 by (apply in_map_iff; exists (d, ls); auto).
      assert (In d (dnames b)) as Db by (apply E1; apply in_map_iff; exists (d, ls'); auto).
      specialize (Hab d D0 Db x). rewrite <- E2 in Hab. unfold labels_of in Hab. rewrite Eb in Hab.
      rewrite (In_dget _ _ _ (proj1 W0) I) in Hab. symmetry. exact Hab. }
    assert (map fst (map F (dims a0)) = map fst (dims a0)) as FN by (rewrite map_map; apply map_ext; auto).
    split; [|split; [exact W0|]].
    + split; [unfold dnames; cbn [dims]; rewrite FN; apply W0|]. split.
      * intros d ls I. cbn [dims] in I. apply in_map_iff in I. destruct I as ([d' ls'] & E & I). destruct (F2 d' ls' I) as [N _]. change (F (d', ls') = (d, ls)) in E. rewrite E in N. exact N.
      * intros e e' He. cbn [get]. unfold dnames in He. cbn [dims] in He. rewrite FN in He.
        rewrite (in_box_local (dims a0) e e' He). destruct (in_box (dims a0) e'); auto. apply W0. exact He.
    + split; [unfold dnames; cbn [dims]; now rewrite FN|]. split.
      * intros d x. cbn [dims]. unfold labels_of.
        assert (dget (map F (dims a0)) d = match dget (dims a0) d with Some ls => Some (snd (F (d, ls))) | None => None end) as ->.
        { clear - F1. induction (dims a0) as [|[d0 ls] q IH]; [reflexivity|]. cbn [map dget]. rewrite (surjective_pairing (F (d0, ls))), F1. cbn [fst dget].
          destruct (eq_dec d d0) as [->|]; [reflexivity|exact IH]. }
        destruct (dget (dims a0) d) as [ls|] eqn:E; [|reflexivity]. apply (F2 d ls). now apply dget_In in E.
      * intros e He. cbn [get]. assert (in_box (dims a0) e = true) as ->; [|reflexivity]. apply in_box_iff. intros d ls I.
        apply (F2 d ls I). apply (He d). cbn [dims]. apply in_map_iff. exists (d, ls). split; [|exact I].
        change (F (d, ls) = (d, snd (F (d, ls)))). rewrite (surjective_pairing (F (d, ls))) at 1. now rewrite F1.
  - destruct (IH' k a' H) as (l1 & a & l2 & -> & H2 & H3). exists l1, a, (l2 ++ [(k0, a0)]).
    split; [rewrite <- app_assoc; reflexivity|]. split; auto. rewrite map_app, in_app_iff. simpl. intuition congruence.
Qed.

Lemma clean_value mv n vs v a : clean mv -> In (n, vs) mv -> In (v, a) vs ->
  exists a', dget (values_dataset mv) (n ++ "." ++ v)%string = Some a' /\ same_array a' a.
Proof.
  intros C Hin Hv.
  destruct (keys_dget (values_dataset mv) (n ++ "." ++ v)%string) as [a' Ha']; [apply values_names; exists n, vs, v, a; auto|].
  exists a'. split; auto. rewrite values_flat in Ha'. change (fold_left _ _ _) with (assign_all (flat mv)) in Ha'.
  apply assign_same in Ha'.
  - destruct Ha' as (l1 & b & l2 & El & _ & S).
    assert (In ((n ++ "." ++ v)%string, b) (flat mv)) as Hb by (rewrite El; apply in_app_iff; right; now left).
    apply In_flat in Hb. destruct Hb as (n' & vs' & v' & H1 & H2 & H3).
    destruct (cl_unamb _ C _ _ _ _ _ _ _ _ Hin Hv H1 H2 H3) as [<- <-].
    assert (vs' = vs) as -> by (assert (dget mv n = Some vs) as G by (apply In_dget; auto; apply C); assert (dget mv n = Some vs') as G' by (apply In_dget; auto; apply C); congruence).
    assert (b = a) as -> by (assert (dget vs v = Some a) as G by (apply In_dget; auto; eapply C; eauto); assert (dget vs v = Some b) as G' by (apply In_dget; auto; eapply C; eauto); congruence).
    exact S.
  - intros k b Hb. apply In_flat in Hb. destruct Hb as (n' & vs' & v' & H1 & H2 & H3). eapply C; eauto.
  - intros k b k' c Hb Hc. apply In_flat in Hb, Hc. destruct Hb as (n1 & vs1 & v1 & H1 & H2 & H3), Hc as (n2 & vs2 & v2 & H4 & H5 & H6). eapply (cl_labels _ C n1 vs1 v1 b n2 vs2 v2 c); eauto.
Qed.

Lemma items_In mv mv' n vs' : items_rel same_vars mv mv' -> In (n, vs') mv' -> exists vs, In (n, vs) mv /\ same_vars vs vs'.
Proof.
  induction 1 as [|[k x] [k' y] l l' [E S] HF IH]; intros I; [destruct I|]. cbn [fst snd] in *. subst k'. destruct I as [[= -> ->]|I].
  - exists x. split; [now left|auto].
  - destruct (IH I) as (z & ? & ?). exists z. split; [now right|auto].
Qed.
Lemma items_In2 mv mv' n vs : items_rel same_vars mv mv' -> In (n, vs) mv -> exists vs', In (n, vs') mv' /\ same_vars vs vs'.
Proof.
  induction 1 as [|[k x] [k' y] l l' [E S] HF IH]; intros I; [destruct I|]. cbn [fst snd] in *. subst k'. destruct I as [[= -> ->]|I].
  - exists y. split; [now left|auto].
  - destruct (IH I) as (z & ? & ?). exists z. split; [now right|auto].
Qed.
Lemma same_vars_In x y v b : same_vars x y -> In (v, b) y -> exists a, In (v, a) x /\ same_array a b.
Proof.
  intros (N & N' & H) I. specialize (H v). rewrite (In_dget _ _ _ N' I) in H. destruct (dget x v) as [a|] eqn:G; [|destruct H].
  exists a. split; auto. now apply dget_In in G.
Qed.
Lemma same_vars_In2 x y v a : same_vars x y -> In (v, a) x -> exists b, In (v, b) y /\ same_array a b.
Proof.
  intros (N & N' & H) I. specialize (H v). rewrite (In_dget _ _ _ N I) in H. destruct (dget y v) as [b|] eqn:G; [|destruct H].
  exists b. split; auto. now apply dget_In in G.
Qed.

Lemma labels_agree_same a b a' b' : same_array a a' -> same_array b b' -> labels_agree a b -> labels_agree a' b'.
Proof.
  intros (_ & _ & H1 & H2 & _) (_ & _ & G1 & G2 & _) L d D D' l. rewrite <- H1 in D. rewrite <- G1 in D'. rewrite <- H2, <- G2. now apply L.
Qed.
Lemma clean_same mv mv' : items_rel same_vars mv mv' -> clean mv -> clean mv'.
Proof.
  intros R C.
  assert (keys mv' = keys mv) as K by (clear - R; induction R as [|[k x] [k' y] l l' [E S] HF IH]; cbn; [reflexivity|]; cbn in E; subst; now f_equal).
  assert (forall n vs v a, In (n, vs) mv' -> In (v, a) vs -> exists vs0 a0, In (n, vs0) mv /\ In (v, a0) vs0 /\ same_array a0 a) as B.
  { intros n vs v a I J. destruct (items_In _ _ _ _ R I) as (vs0 & I0 & S). destruct (same_vars_In _ _ _ _ S J) as (a0 & J0 & S0). eauto 8. }
  split.
  - rewrite K. apply C.
  - intros n vs I. destruct (items_In _ _ _ _ R I) as (vs0 & I0 & S). apply S.
  - intros n vs v a I J. destruct (B _ _ _ _ I J) as (? & ? & _ & _ & S). apply S.
  - intros n vs v a n' vs' v' b I J I' J'. destruct (B _ _ _ _ I J) as (vs0 & a0 & I0 & J0 & S0). destruct (B _ _ _ _ I' J') as (vs1 & b0 & I1 & J1 & S1).
    eapply labels_agree_same; [exact S0|exact S1|]. eapply (cl_labels _ C n vs0 v a0 n' vs1 v' b0); eauto.
  - intros n vs v a n' vs' v' b I J I' J' E. destruct (B _ _ _ _ I J) as (vs0 & a0 & I0 & J0 & S0). destruct (B _ _ _ _ I' J') as (vs1 & b0 & I1 & J1 & S1).
    eapply (cl_unamb _ C n vs0 v a0 n' vs1 v' b0); eauto.
Qed.

Theorem values_same mv mv' : items_rel same_vars mv mv' -> clean mv -> same_dataset (values_dataset mv) (values_dataset mv').
Proof.
  intros R C k. pose proof (clean_same _ _ R C) as C'. destruct (dget (values_dataset mv) k) as [a'|] eqn:G.
  - assert (In k (keys (values_dataset mv))) as I by exact (dget_Some_keys _ _ G). apply values_names in I. destruct I as (n & vs & v & a & I & J & ->).
    destruct (clean_value _ _ _ _ _ C I J) as (a1 & G1 & S1). rewrite G in G1. injection G1 as <-.
    destruct (items_In2 _ _ _ _ R I) as (vs' & I' & S). destruct (same_vars_In2 _ _ _ _ S J) as (b & J' & S0).
    destruct (clean_value _ _ _ _ _ C' I' J') as (b1 & -> & S2). cbn.
    exact (same_array_trans _ _ _ S1 (same_array_trans _ _ _ S0 (same_array_sym _ _ S2))).
  - destruct (dget (values_dataset mv') k) as [b'|] eqn:G'; [|exact I].
    assert (In k (keys (values_dataset mv'))) as I by exact (dget_Some_keys _ _ G'). apply values_names in I. destruct I as (n & vs & v & b & I & J & ->).
    destruct (items_In _ _ _ _ R I) as (vs' & I' & S). destruct (same_vars_In _ _ _ _ S J) as (a & J' & S0).
    destruct (clean_value _ _ _ _ _ C I' J') as (b1 & G1 & S2). congruence.
Qed.
