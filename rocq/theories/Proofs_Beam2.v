(** Concatenation of disjoint chunks as a zero-extended sum; keys of the pipeline. *)
From Coq Require Import String ZArith Bool List Permutation Lia Arith.
Import ListNotations.
From Verif Require Import Prelude Values Model_XArray Spec_XArray Proofs_XArray Model_Tree Spec_Tree Proofs_Tree
  Model_Aggregation Spec_Aggregation Spec_Aggregator Proofs_AggState Proofs_Aggregator Model_Beam Spec_Beam Proofs_Beam.
From Coq Require Import Reals.
Local Open Scope string_scope.
Local Open Scope list_scope.

Definition excl : list string := ["init_time"; "lead_time"].
Lemma excl_time d : memb d excl = true <-> time_dim d.
Proof. rewrite memb_In. unfold excl, time_dim. simpl. intuition. Qed.
Lemma excl_not_time d : memb d excl = false <-> ~ time_dim d.
Proof. rewrite <- excl_time. destruct (memb d excl); split; congruence. Qed.

Lemma find_one {Y} (p : Y -> bool) l1 y l2 : p y = true -> (forall z, In z (l1 ++ l2) -> p z = false) -> find p (l1 ++ y :: l2) = Some y.
Proof.
  intros Hy Ho. induction l1 as [|z l1 IH]; simpl; [now rewrite Hy|]. rewrite Ho by now left. apply IH. intros w Hw. apply Ho. now right.
Qed.

Section Concat.
  Variable zs : list da.
  Hypothesis Hwf : forall z, In z zs -> wf z.
  Hypothesis Hsame : forall a b, In a zs -> In b zs -> same_dims a b.
  Let J := fold_left (merge_dims union_labels) (map dims zs) [].
  Hypothesis Htime : forall z d, In z zs -> time_dim d -> In d (dnames z) -> labels_of (dims z) d <> [].
  Hypothesis Hother : forall d, ~ time_dim d -> (exists z, In z zs /\ In d (dnames z)) -> exists z l, In z zs /\ In l (labels_of (dims z) d).
  Definition tbox (z : da) (e : env) : bool := in_box (keep (fun d => memb d excl) (dims z)) e.
  Hypothesis Hone : forall e, point_of J e -> exactly_one (fun z => tbox z e) zs.
  Hypothesis Hne : zs <> [].

  Definition al (z : da) : da :=
    mkDa (map (fun p => (fst p, if memb (fst p) excl then snd p else labels_of J (fst p))) (dims z))
         (fun e => if in_box (keep (fun d => negb (memb d excl)) (dims z)) e then get z e else Fin 0%R)
         (aux z).
  Lemma aligned_eq : align_outer excl (Fin 0%R) zs = map al zs.
  Proof. reflexivity. Qed.

  Lemma J_labels d l : In l (labels_of J d) <-> exists z, In z zs /\ In l (labels_of (dims z) d).
  Proof.
    unfold J. change (fold_left (merge_dims union_labels) (map dims zs) []) with (joint (map dims zs) []). rewrite labels_joint. split.
    - intros [[]|[ds [H1 H2]]]. apply in_map_iff in H1. destruct H1 as [a [<- Ha]]. eauto.
    - intros [a [H1 H2]]. right. exists (dims a). split; auto. now apply in_map.
  Qed.
  Lemma J_names d : In d (map fst J) <-> exists z, In z zs /\ In d (dnames z).
  Proof.
    unfold J. change (fold_left (merge_dims union_labels) (map dims zs) []) with (joint (map dims zs) []). rewrite names_joint. split.
    - intros [[]|[ds [H1 H2]]]. apply in_map_iff in H1. destruct H1 as [a [<- Ha]]. eauto.
    - intros [a [H1 H2]]. right. exists (dims a). split; auto. now apply in_map.
  Qed.
  Lemma J_NoDup : NoDup (map fst J).
  Proof. apply NoDup_joint; [constructor|]. intros ds H. apply in_map_iff in H. destruct H as [a [<- Ha]]. now apply Hwf. Qed.
  Lemma J_labels_NoDup d : NoDup (labels_of J d).
  Proof. apply NoDup_labels_joint; [intros; constructor|]. intros ds d' H. apply in_map_iff in H. destruct H as [a [<- Ha]]. now apply wf_labels_NoDup, Hwf. Qed.

  Lemma al_names z : dnames (al z) = dnames z.
  Proof. unfold dnames, al. cbn [dims]. rewrite map_map. reflexivity. Qed.
  Lemma al_labels z d : labels_of (dims (al z)) d = if in_dec string_dec d (dnames z) then (if memb d excl then labels_of (dims z) d else labels_of J d) else [].
  Proof.
    unfold labels_of at 1, al. cbn [dims]. rewrite (dget_map_snd (fun d ls => if memb d excl then ls else labels_of J d)). unfold labels_of.
    destruct (in_dec string_dec d (dnames z)) as [H|H].
    - apply names_dget in H. destruct (dget (dims z) d); congruence.
    - destruct (dget (dims z) d) eqn:E; [|reflexivity]. exfalso. apply H. apply names_dget. congruence.
  Qed.
  Lemma al_size z : In z zs -> Nat.ltb 0 (da_size (al z)) = true.
  Proof.
    intros Hz. apply Nat.ltb_lt. unfold da_size.
    assert (forall d ls, In (d, ls) (dims (al z)) -> ls <> []) as H.
    { intros d ls Hin. assert (In d (dnames (al z))) as Hd by (apply in_map_iff; exists (d, ls); auto).
      assert (NoDup (dnames (al z))) as Hn by (rewrite al_names; now apply Hwf).
      assert (labels_of (dims (al z)) d = ls) as <- by (unfold labels_of; now rewrite (In_dget (dims (al z)) d ls Hn Hin)).
      rewrite al_labels. rewrite al_names in Hd. destruct (in_dec string_dec d (dnames z)); [|contradiction].
      destruct (memb d excl) eqn:E; [apply excl_time in E; auto|]. apply excl_not_time in E.
      destruct (Hother d E) as (z' & l & Hz' & Hl); [eauto|]. intros F. assert (In l (labels_of J d)) as HH by (apply J_labels; eauto). now rewrite F in HH. }
    revert H. generalize (dims (al z)). intros ds. induction ds as [|[d ls] ds IH]; simpl; intros H; [lia|].
    assert (length ls <> 0)%nat by (specialize (H d ls (or_introl eq_refl)); destruct ls; simpl; congruence).
    specialize (IH (fun d' ls' H' => H d' ls' (or_intror H'))). nia.
  Qed.
  Lemma combine_eq : combine_data_arrays_by_coords zs = combine_by_coords (map al zs).
  Proof.
    unfold combine_data_arrays_by_coords. fold excl. rewrite aligned_eq, filter_true.
    - destruct (map al zs) eqn:E; [apply map_eq_nil in E; congruence|reflexivity].
    - intros a Ha. apply in_map_iff in Ha. destruct Ha as [z [<- Hz]]. now apply al_size.
  Qed.

  Let D := dims (combine_by_coords (map al zs)).
  Lemma D_names d : In d (map fst D) <-> exists z, In z zs /\ In d (dnames z).
  Proof.
    unfold D, combine_by_coords. cbn [dims]. change (fold_left (merge_dims union_labels) (map dims (map al zs)) []) with (joint (map dims (map al zs)) []).
    rewrite names_joint, map_map. split.
    - intros [[]|[ds [H1 H2]]]. apply in_map_iff in H1. destruct H1 as [a [<- Ha]]. exists a. split; auto. now rewrite <- al_names.
    - intros [a [H1 H2]]. right. exists (dims (al a)). split; [now apply (in_map (fun z => dims (al z)))|]. change (In d (dnames (al a))). now rewrite al_names.
  Qed.
  Lemma D_labels d l : In l (labels_of D d) <-> exists z, In z zs /\ In l (labels_of (dims z) d).
  Proof.
    unfold D, combine_by_coords. cbn [dims]. change (fold_left (merge_dims union_labels) (map dims (map al zs)) []) with (joint (map dims (map al zs)) []).
    rewrite labels_joint, map_map. split.
    - intros [[]|[ds [H1 H2]]]. apply in_map_iff in H1. destruct H1 as [a [<- Ha]]. rewrite al_labels in H2.
      destruct (in_dec string_dec d (dnames a)); [|destruct H2]. destruct (memb d excl); [eauto|]. now apply J_labels.
    - intros [a [H1 H2]]. right. exists (dims (al a)). split; [now apply (in_map (fun z => dims (al z)))|]. rewrite al_labels.
      destruct (in_dec string_dec d (dnames a)) as [_|n]; [|apply n; eapply labels_of_In; eauto].
      destruct (memb d excl); auto. apply J_labels. eauto.
  Qed.
  Lemma al_NoDup z : In z zs -> NoDup (dnames (al z)) /\ (forall d, NoDup (labels_of (dims (al z)) d)).
  Proof.
    intros Hz. split; [rewrite al_names; now apply Hwf|]. intros d. rewrite al_labels. destruct (in_dec _ _ _); [|constructor].
    destruct (memb d excl); [now apply wf_labels_NoDup, Hwf|apply J_labels_NoDup].
  Qed.
  Lemma D_NoDup : NoDup (map fst D).
  Proof.
    unfold D, combine_by_coords. cbn [dims]. apply NoDup_joint; [constructor|]. intros ds H. rewrite map_map in H. apply in_map_iff in H.
    destruct H as [a [<- Ha]]. apply (al_NoDup a Ha).
  Qed.
  Lemma D_J e : point_of D e <-> point_of J e.
  Proof.
    rewrite !point_of_labels by (apply D_NoDup || apply J_NoDup). split; intros H d Hd.
    - apply J_labels, D_labels, H, D_names, J_names, Hd.
    - apply D_labels, J_labels, H, J_names, D_names, Hd.
  Qed.
  Lemma al_box z e : In z zs -> point_of J e -> in_box (dims (al z)) e = tbox z e.
  Proof.
    intros Hz HJ. pose proof J_NoDup as JN. rewrite point_of_labels in HJ by auto.
    assert (NoDup (dnames z)) as Hn by now apply Hwf.
    unfold tbox. destruct (in_box (keep (fun d => memb d excl) (dims z)) e) eqn:E.
    - apply in_box_iff in E. apply in_box_iff. rewrite point_of_labels in * by (try apply (al_NoDup z Hz); now apply keep_NoDup).
      intros d Hd. fold (dnames (al z)) in Hd. rewrite al_names in Hd. rewrite al_labels. destruct (in_dec _ _ _); [|contradiction].
      specialize (E d). rewrite keep_names, labels_keep in E. destruct (memb d excl); [now apply E|]. apply HJ, J_names. eauto.
    - apply not_true_iff_false. intros H. apply not_true_iff_false in E. apply E. clear E. apply in_box_iff in H. apply in_box_iff.
      rewrite point_of_labels in * by (try apply (al_NoDup z Hz); now apply keep_NoDup).
      intros d Hd. rewrite keep_names in Hd. destruct Hd as [Hd HE]. rewrite labels_keep, HE. specialize (H d). fold (dnames (al z)) in H. rewrite al_names in H.
      specialize (H Hd). rewrite al_labels in H. destruct (in_dec _ _ _); [|contradiction]. now rewrite HE in H.
  Qed.
  Lemma box_split z e : in_box (dims z) e = tbox z e && in_box (keep (fun d => negb (memb d excl)) (dims z)) e.
  Proof.
    unfold tbox, in_box, keep. generalize (dims z). intros ds. induction ds as [|[d ls] ds IH]; cbn [forallb filter fst snd]; [reflexivity|].
    rewrite IH. destruct (memb d excl); cbn [negb forallb fst snd]; [now rewrite andb_assoc|]. rewrite !andb_assoc. f_equal. apply andb_comm.
  Qed.

  Theorem concat_sums : sums_to (combine_data_arrays_by_coords zs) zs.
  Proof.
    rewrite combine_eq. split; [split; [|split]|].
    - exact D_NoDup.
    - intros d ls Hin. fold D in Hin. assert (NoDup (labels_of D d)) as H.
      { apply NoDup_labels_joint; [intros; constructor|]. intros ds d' H. rewrite map_map in H. apply in_map_iff in H. destruct H as [a [<- Ha]]. apply (al_NoDup a Ha). }
      unfold labels_of in H. now rewrite (In_dget D d ls D_NoDup Hin) in H.
    - intros e e' He. cbn [combine_by_coords get].
      assert (forall z d, In z zs -> In d (dnames z) -> e d = e' d) as Hz by (intros z d Hz Hd; apply He, D_names; eauto). clear He.
      assert (forall l, incl l zs -> match find (fun a => in_box (dims a) e) (map al l) with Some a => get a e | None => NaN end =
                     match find (fun a => in_box (dims a) e') (map al l) with Some a => get a e' | None => NaN end) as G.
      { induction l as [|z l IH]; intros Hi; [reflexivity|]. cbn [map find]. assert (In z zs) as Hzz by (apply Hi; now left).
        rewrite (in_box_local (dims (al z)) e e') by (fold (dnames (al z)); rewrite al_names; intros; eapply Hz; eauto).
        destruct (in_box (dims (al z)) e') eqn:E; [|apply IH; intros w Hw; apply Hi; now right].
        cbn [al get]. rewrite (in_box_local (keep _ (dims z)) e e'); [|intros d Hd; rewrite keep_names in Hd; now apply (Hz z)].
        replace (get z e) with (get z e'); [reflexivity|]. symmetry. apply Hwf; eauto. }
      apply G. now intros z Hz'.
    - split; [exact D_names|]. split; [exact D_labels|]. intros e. unfold zx at 1. fold D.
      destruct (in_box D e) eqn:EB.
      + apply in_box_iff in EB. pose proof (proj1 (D_J e) EB) as HJ. destruct (Hone e HJ) as (l1 & z & l2 & Ez & Ht & Ho).
        assert (In z zs) as Hz by (rewrite Ez, in_app_iff; simpl; auto).
        assert (forall w, In w (l1 ++ l2) -> In w zs) as Hw.
        { intros w Hw. rewrite Ez. rewrite in_app_iff in *. simpl. tauto. }
        cbn [combine_by_coords get]. rewrite Ez at 1. rewrite map_app. cbn [map].
        rewrite find_one.
        * rewrite Ez. rewrite map_app, vsum_app. cbn [map vsum fold_right].
          rewrite !vsum_zero.
          -- rewrite vadd_0_r, vadd_0_l. unfold zx. rewrite box_split, Ht. cbn [andb al get]. reflexivity.
          -- intros v Hv. apply in_map_iff in Hv. destruct Hv as [w [<- Hw']]. unfold zx. rewrite box_split, Ho; [reflexivity|]. apply in_app_iff; auto.
          -- intros v Hv. apply in_map_iff in Hv. destruct Hv as [w [<- Hw']]. unfold zx. rewrite box_split, Ho; [reflexivity|]. apply in_app_iff; auto.
        * rewrite al_box; auto.
        * intros a Ha. rewrite <- map_app in Ha. apply in_map_iff in Ha. destruct Ha as [w [<- Hw']]. rewrite al_box; auto.
      + symmetry. apply vsum_zero. intros v Hv. apply in_map_iff in Hv. destruct Hv as [z [<- Hz]]. unfold zx.
        destruct (in_box (dims z) e) eqn:E; [|reflexivity]. exfalso. apply not_true_iff_false in EB. apply EB. apply in_box_iff. apply D_J.
        rewrite point_of_labels by apply J_NoDup. intros d Hd. apply J_names in Hd. destruct Hd as [z' [Hz' Hd]]. apply J_labels. exists z. split; auto.
        apply in_box_iff in E. rewrite point_of_labels in E by now apply Hwf. apply E. now apply (Hsame z' z).
  Qed.
End Concat.
