(** Congruence of metric values in the mean statistics (C69). *)
From Coq Require Import String Ascii List Bool Arith Lia.
Import ListNotations.
From Verif Require Import Prelude Values Model_XArray Spec_XArray Proofs_XArray Model_Tree Spec_Tree Proofs_Tree Proofs_AggState
  Model_MetricsBase Model_Aggregation Spec_Aggregator Proofs_Aggregator2 Spec_RoundTrip Proofs_Deterministic Proofs_Metrics Proofs_MetricValues Spec_Beam Spec_BeamWrite.
Local Open Scope string_scope.
Local Open Scope list_scope.

(** ** Arrays *)
Lemma same_array_refl a : wf a -> same_array a a.
Proof. intros W. split; auto. split; auto. apply da_equiv_refl. Qed.
Lemma same_array_sym a b : same_array a b -> same_array b a.
Proof. intros (A & B & E). split; auto. split; auto. now apply da_equiv_sym. Qed.
Lemma same_array_trans a b c : same_array a b -> same_array b c -> same_array a c.
Proof. intros (A & B & E) (_ & C & F). split; auto. split; auto. now apply (da_equiv_trans a b c). Qed.
Lemma same_map f a b : same_array a b -> same_array (da_map f a) (da_map f b).
Proof.
  intros (A & B & H1 & H2 & H3). split; [now apply wf_map|]. split; [now apply wf_map|].
  split; [exact H1|]. split; [exact H2|]. intros e He. cbn [da_map get]. f_equal. now apply H3.
Qed.
Lemma names_binop f a b d : In d (dnames (binop f a b)) <-> In d (dnames a) \/ In d (dnames b).
Proof.
  unfold dnames, binop. cbn [dims]. rewrite merge_names, in_app_iff, filter_In. destruct (memb d (map fst (dims a))) eqn:E.
  - apply memb_In in E. tauto.
  - cbn [negb]. tauto.
Qed.
Lemma labels_binop f a b d x : In x (labels_of (dims (binop f a b)) d) <->
  (In d (dnames a) \/ In d (dnames b)) /\ (In d (dnames a) -> In x (labels_of (dims a) d)) /\ (In d (dnames b) -> In x (labels_of (dims b) d)).
Proof.
  unfold binop, labels_of, dnames. cbn [dims]. rewrite dget_merge.
  assert (forall ds : dimlist, In d (map fst ds) <-> dget ds d <> None) as N.
  { intros ds. split.
    - intros H. destruct (keys_dget ds d H) as [v ->]. discriminate.
    - intros H. destruct (dget ds d) eqn:G; [|congruence]. exact (dget_Some_keys _ _ G). }
  rewrite (N (dims a)), (N (dims b)). destruct (dget (dims a) d) as [l1|] eqn:Ea, (dget (dims b) d) as [l2|] eqn:Eb.
  - unfold inter_labels. rewrite filter_In, memb_In. split; [intros [P Q]|intros (P & Q & T)].
    + split; [left; discriminate|]. auto.
    + split; [apply Q|apply T]; discriminate.
  - split; [intros P|intros (_ & Q & _)]; [|apply Q; discriminate]. split; [left; discriminate|]. split; auto. congruence.
  - split; [intros P|intros (_ & _ & Q)]; [|apply Q; discriminate]. split; [right; discriminate|]. split; auto. congruence.
  - split; [intros []|]. intros ([P|P] & _); congruence.
Qed.
Lemma point_binop f a b e : wf a -> wf b -> point_of (dims (binop f a b)) e -> point_of (dims a) e /\ point_of (dims b) e.
Proof.
  intros A B H. rewrite point_of_labels in H by apply (wf_binop f a b A B).
  split; rewrite point_of_labels by (apply A || apply B); intros d Hd; specialize (H d); rewrite labels_binop in H;
  change (map fst (dims (binop f a b))) with (dnames (binop f a b)) in H; rewrite names_binop in H; apply H; auto.
Qed.
Lemma same_binop f a b a' b' : same_array a a' -> same_array b b' -> same_array (binop f a b) (binop f a' b').
Proof.
  intros (A & A' & H1 & H2 & H3) (B & B' & G1 & G2 & G3). split; [now apply wf_binop|]. split; [now apply wf_binop|].
  split; [|split].
  - intros d. now rewrite !names_binop, H1, G1.
  - intros d x. now rewrite !labels_binop, !H1, !G1, !H2, !G2.
  - intros e He. apply point_binop in He; auto. cbn [binop get]. f_equal; [apply H3|apply G3]; apply He.
Qed.

(** ** Variables *)
Lemma same_vars_refl x : NoDup (keys x) -> (forall v a, dget x v = Some a -> wf a) -> same_vars x x.
Proof. intros N W. split; auto. split; auto. intros v. destruct (dget x v) eqn:G; cbn; auto. apply same_array_refl. eauto. Qed.
Lemma same_vars_keys x y v : same_vars x y -> In v (keys x) <-> In v (keys y).
Proof.
  intros (_ & _ & H). specialize (H v). split; intros I.
  - destruct (keys_dget _ _ I) as [a G]. rewrite G in H. destruct (dget y v) eqn:G'; [|destruct H]. exact (dget_Some_keys _ _ G').
  - destruct (keys_dget _ _ I) as [a G]. rewrite G in H. destruct (dget x v) eqn:G'; [|destruct H]. exact (dget_Some_keys _ _ G').
Qed.
Lemma same_get x y v a : same_vars x y -> dget x v = Some a -> exists b, dget y v = Some b /\ same_array a b.
Proof. intros (_ & _ & H) G. specialize (H v). rewrite G in H. destruct (dget y v) as [b|]; [|destruct H]. eauto. Qed.

(** ** Metrics *)
Theorem extensional_statistic st : extensional (metric_of_statistic st).
Proof.
  intros vals vals' r H E. cbn [metric_of_statistic values_from_mean_statistics] in *. unfold dgetE in *. specialize (H "self").
  destruct (dget vals "self") as [x|]; [|discriminate]. injection E as <-. destruct (dget vals' "self") as [y|]; [|destruct H]. eauto.
Qed.

(** The function of a per-variable metric looks at its arguments as labelled arrays only. *)
Definition ext_fun (f : dict string da -> result da) : Prop := forall l l' r, items_rel same_array l l' -> f l = Ok r -> exists r', f l' = Ok r' /\ same_array r r'.

Theorem extensional_per_variable stats f : NoDup (keys stats) -> ext_fun f -> extensional (per_variable_metric stats f).
Proof.
  intros NS F vals vals' r H E. cbn [per_variable_metric values_from_mean_statistics] in *.
  destruct (mapM (fun s => dgetE vals s) (keys stats)) as [tables|] eqn:Et; cbn [bind] in E; [|discriminate].
  assert (exists tables', mapM (fun s => dgetE vals' s) (keys stats) = Ok tables' /\ Forall2 same_vars tables tables') as (tables' & Et' & TF).
  { clear - H Et. revert tables Et. induction (keys stats) as [|s l IH]; intros tables Et; cbn [mapM] in *.
    - injection Et as <-. exists []. split; constructor.
    - unfold dgetE at 1 in Et. unfold dgetE at 1. pose proof (H s) as Hs. destruct (dget vals s) as [x|]; [|discriminate]. destruct (dget vals' s) as [y|]; [|destruct Hs].
      cbn [bind] in *. destruct (mapM _ l) as [t|] eqn:El; cbn [bind] in Et; [|discriminate]. injection Et as <-.
      destruct (IH t eq_refl) as (t' & E & TF). rewrite E. cbn [bind]. exists (y :: t'). split; auto. }
  rewrite Et'. cbn [bind]. destruct TF as [|t0 t0' ts ts' T0 TF]; [discriminate|].
  set (per := fun (vs : dict string (vars da)) v => mapM (fun s => do t <- dgetE vs s; do x <- dgetE t v; Ok (s, x)) (keys stats)) in *.
  set (cm := filter (fun v => forallb (fun t => memb v (keys t)) ts) (keys t0)) in *.
  set (cm' := filter (fun v => forallb (fun t => memb v (keys t)) ts') (keys t0')).
  assert (forall v, In v cm <-> In v cm') as C.
  { intros v. unfold cm, cm'. rewrite !filter_In, !forallb_forall, (same_vars_keys _ _ v T0).
    assert ((forall x, In x ts -> memb v (keys x) = true) <-> (forall x, In x ts' -> memb v (keys x) = true)) as ->; [|reflexivity].
    clear - TF. induction TF as [|x y ts ts' S TF IH]; [split; intros _ ? []|].
    split; intros G z [<-|I].
    - apply memb_In, (same_vars_keys _ _ v S), memb_In, G. now left.
    - apply (proj1 IH); [intros; apply G; now right|exact I].
    - apply memb_In, (same_vars_keys _ _ v S), memb_In, G. now left.
    - apply (proj2 IH); [intros; apply G; now right|exact I]. }
  assert (forall v p, per vals v = Ok p -> exists p', per vals' v = Ok p' /\ items_rel same_array p p') as P.
  { intros v. unfold per. clear - H. induction (keys stats) as [|s l IH]; intros p E; cbn [mapM] in *.
    - injection E as <-. exists []. split; constructor.
    - unfold dgetE in E at 1. unfold dgetE at 1. pose proof (H s) as Hs. destruct (dget vals s) as [x|]; [|discriminate]. destruct (dget vals' s) as [y|]; [|destruct Hs].
      cbn [bind] in *. unfold dgetE in E at 1. unfold dgetE at 1. destruct (dget x v) as [a|] eqn:Ga; [|discriminate].
      destruct (same_get _ _ _ _ Hs Ga) as (b & -> & Sab). cbn [bind] in *.
      match type of E with bind ?q _ = _ => destruct q as [q0|] eqn:Eq; [|discriminate] end. cbn [bind] in E. injection E as <-.
      destruct (IH q0 eq_refl) as (p' & -> & R). cbn [bind]. exists ((s, b) :: p'). split; auto. constructor; auto. }
  assert (mapM (fun v => do x <- (do q <- per vals v; f q); Ok (v, x)) cm = Ok r) as E'.
  { rewrite <- E. apply mapM_ext. intros v _. fold (per vals v); fold (per vals' v); destruct (per _ v); reflexivity. }
  destruct (mapM_named _ _ _ E') as [Kr Vr].
  assert (forall v, In v cm -> exists a b, dget r v = Some a /\ (do q <- per vals' v; f q) = Ok b /\ same_array a b) as V.
  { intros v I. destruct (keys_dget r v) as [a Ga]; [unfold keys; now rewrite Kr|]. pose proof (Vr v a (dget_In _ _ Ga)) as Q.
    destruct (per vals v) as [q|] eqn:Eq; [|discriminate]. cbn [bind] in Q. destruct (P v q Eq) as (q' & -> & R). cbn [bind].
    destruct (F q q' a R Q) as (b & Eb & S). eauto. }
  assert (exists r', mapM (fun v => do x <- (do q <- per vals' v; f q); Ok (v, x)) cm' = Ok r') as [r' Er'].
  { apply mapM_total. intros v I. apply C in I. destruct (V v I) as (a & b & _ & -> & _). cbn [bind]. eauto. }
  exists r'. split.
  { etransitivity; [|exact Er']. apply mapM_ext. intros v _. fold (per vals v); fold (per vals' v); destruct (per _ v); reflexivity. }
  destruct (mapM_named _ _ _ Er') as [Kr' Vr'].
  split; [|split].
  - unfold keys. rewrite Kr. apply NoDup_filter. apply T0.
  - unfold keys. rewrite Kr'. apply NoDup_filter. apply T0.
  - intros v. destruct (dget r v) as [a|] eqn:Ga.
    + assert (In v cm) as I by (rewrite <- Kr; exact (dget_Some_keys _ _ Ga)).
      destruct (V v I) as (a' & b & Ga' & Eb & S). rewrite Ga in Ga'. injection Ga' as <-.
      destruct (keys_dget r' v) as [b' Gb]; [unfold keys; rewrite Kr'; now apply C|]. rewrite Gb. cbn.
      pose proof (Vr' v b' (dget_In _ _ Gb)) as Q. rewrite Eb in Q. injection Q as <-. exact S.
    + destruct (dget r' v) as [b|] eqn:Gb; [|exact I]. exfalso. assert (In v cm') as I by (rewrite <- Kr'; exact (dget_Some_keys _ _ Gb)).
      apply C in I. destruct (V v I) as (a' & ? & Ga' & _). congruence.
Qed.
