(** Averages over the ensemble members: lemmas for C64. *)
From Coq Require Import String List Bool Reals Lra ZArith Permutation FunctionalExtensionality.
Import ListNotations.
From Verif Require Import Prelude Values Model_XArray Spec_XArray Proofs_XArray Model_Tree Model_MetricsBase Model_Aggregation
  Spec_Aggregator Proofs_Aggregator Proofs_Aggregator2 Spec_Metrics Proofs_Metrics Spec_Means Proofs_Means Model_Calendar Model_Deterministic Proofs_Deterministic
  Model_Categorical Model_Ensemble Spec_Ensemble Proofs_Ensemble Spec_Reduce Proofs_Ensemble2 Spec_Statistic Proofs_Beam9.
Local Open Scope R_scope.
Local Open Scope string_scope.
Local Open Scope list_scope.

Lemma map_vars_value f st out v a : NoDup (keys st) -> map_vars f st = Ok out -> dget out v = Some a -> exists b, dget st v = Some b /\ f b = Ok a.
Proof.
  unfold map_vars. revert out. induction st as [|[k x] st IH]; intros out N H D; cbn [mapM fst snd] in H.
  - injection H as <-. discriminate D.
  - destruct (f x) as [y|] eqn:E; [|discriminate]. cbn [bind] in H. destruct (mapM _ st) as [r|] eqn:Er; [|discriminate]. cbn [bind] in H. injection H as <-.
    cbn [dget fst snd] in D |- *. destruct (eq_dec v k) as [->|].
    + injection D as <-. eauto.
    + change (NoDup (k :: keys st)) in N. inversion N; subst. eauto.
Qed.

(** The points of a reduction over [d] and [D] are those over [D] with every label of [d]. *)
Section Points.
  Variables (st sv : da) (arrs : list da) (d : string) (D : list string) (e : env).
  Hypothesis Wsv : wf sv.
  Hypothesis Hd : In d (dnames sv).
  Hypothesis HdD : ~ In d D.
  Hypothesis Hst : dims st = keep (fun n => negb (eqb n d)) (dims sv).
  Hypothesis Harr : forall a, In a arrs -> ~ In d (dnames a).

  Lemma names_st n : In n (dnames st) <-> n <> d /\ In n (dnames sv).
  Proof. unfold dnames. rewrite Hst, keep_names, negb_true_iff, eqb_false_iff. tauto. Qed.
  Lemma labels_st n : n <> d -> labels_of (dims st) n = labels_of (dims sv) n.
  Proof. intros H. unfold labels_of. rewrite Hst, dget_keep. assert (negb (eqb n d) = true) as -> by (now rewrite negb_true_iff, eqb_false_iff). reflexivity. Qed.

  Lemma member_points P P' : reduced_points (st :: arrs) D e P -> reduced_points (sv :: arrs) (d :: D) e P' ->
    Permutation P' (flat_map (fun q => map (upd q d) (labels_of (dims sv) d)) P).
  Proof.
    intros [N1 H1] [N2 H2]. assert (NoDup (labels_of (dims sv) d)) as NL by (now apply wf_labels_NoDup).
    assert (forall q, In q P -> q d = e d) as Qd.
    { intros q Hq. apply H1 in Hq. apply Hq. intros [? _]. contradiction. }
    apply NoDup_Permutation; [exact N2| |].
    - clear H1 N2 H2. induction P as [|q P IH]; [constructor|]. cbn [flat_map]. apply NoDup_cons_iff in N1. destruct N1 as [Nq N1]. apply NoDup_app_intro.
      + apply FinFun.Injective_map_NoDup; [|exact NL]. intros x y E. apply (f_equal (fun f => f d)) in E. now rewrite !upd_same in E.
      + apply IH; [exact N1|]. intros; apply Qd; now right.
      + intros x Hx Hy. apply in_map_iff in Hx. destruct Hx as (l & <- & _). apply in_flat_map in Hy. destruct Hy as (q' & Hq' & Hy). apply in_map_iff in Hy. destruct Hy as (l' & E & _).
        apply Nq. replace q with q'; [exact Hq'|]. apply functional_extensionality. intros n. destruct (string_dec n d) as [->|Nn].
        * rewrite (Qd q'), (Qd q) by (simpl; auto). reflexivity.
        * apply (f_equal (fun f => f n)) in E. now rewrite !upd_other in E by exact Nn.
    - intros q'. rewrite in_flat_map, H2. split.
      + intros [A B]. exists (upd q' d (e d)). split.
        * apply H1. split.
          -- intros n Hn. destruct (string_dec n d) as [->|Nn]; [now rewrite upd_same|]. rewrite upd_other by exact Nn. apply A. intros [[->|I] (a & Ia & Na)]; [congruence|].
             apply Hn. split; [exact I|]. destruct Ia as [<-|Ia]; [exists st; split; [now left|apply names_st; auto]|exists a; split; [now right|exact Na]].
          -- intros a n Ia In' Na. assert (n <> d) as Nn by (intros ->; contradiction). rewrite upd_other by exact Nn. destruct Ia as [<-|Ia].
             ++ rewrite labels_st by exact Nn. apply B; [now left|now right|]. now apply names_st.
             ++ apply B; [now right|now right|exact Na].
        * apply in_map_iff. exists (q' d). split; [|apply B; [now left|now left|exact Hd]]. apply functional_extensionality. intros n.
          destruct (string_dec n d) as [->|Nn]; [now rewrite upd_same|]. now rewrite !upd_other by exact Nn.
      + intros (q & Hq & I). apply in_map_iff in I. destruct I as (l & <- & Hl). apply H1 in Hq. destruct Hq as [A B]. split.
        * intros n Hn. destruct (string_dec n d) as [->|Nn]; [exfalso; apply Hn; split; [now left|exists sv; split; [now left|exact Hd]]|]. rewrite upd_other by exact Nn. apply A.
          intros [I (a & Ia & Na)]. apply Hn. split; [now right|]. destruct Ia as [<-|Ia]; [exists sv; split; [now left|now apply names_st in Na]|exists a; split; [now right|exact Na]].
        * intros a n Ia I Na. destruct (string_dec n d) as [->|Nn]; [rewrite upd_same; destruct Ia as [<-|Ia]; [exact Hl|now apply Harr in Na]|]. rewrite upd_other by exact Nn.
          destruct I as [->|I]; [congruence|]. destruct Ia as [<-|Ia]; [rewrite <- labels_st by exact Nn; apply B; [now left|exact I|now apply names_st]|apply B; [now right|exact I|exact Na]].
  Qed.

  Lemma point_member q l : point_of (dims st) q -> In l (labels_of (dims sv) d) -> point_of (dims sv) (upd q d l).
  Proof.
    intros H Hl n ls I. destruct (string_dec n d) as [->|Nn].
    - rewrite upd_same. unfold labels_of in Hl. apply In_dget in I; [|apply Wsv]. now rewrite I in Hl.
    - rewrite upd_other by exact Nn. apply H. rewrite Hst. apply filter_In. split; [exact I|]. cbn [fst]. now rewrite negb_true_iff, eqb_false_iff.
  Qed.
End Points.

Lemma rsum_flat {A} (L : list label) (f : env -> R) (P : list A) (h : A -> label -> env) :
  rsum (map f (flat_map (fun q => map (h q) L) P)) = rsum (map (fun q => rsum (map (fun l => f (h q l)) L)) P).
Proof.
  induction P as [|q P IH]; [reflexivity|]. cbn [flat_map]. rewrite map_app, rsum_app. cbn [map]. rewrite rsum_cons, IH, map_map. reflexivity.
Qed.
