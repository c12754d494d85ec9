(** Reductions of an array: da_sum, mean_skipna. *)
From Coq Require Import String List Bool Reals Lra Permutation FunctionalExtensionality.
Import ListNotations.
From Verif Require Import Prelude Values Model_XArray Spec_XArray Proofs_XArray Spec_Aggregator Proofs_Aggregator Model_Deterministic Proofs_Deterministic Model_Categorical Spec_Reduce.
Local Open Scope R_scope.
Local Open Scope string_scope.
Local Open Scope list_scope.

Definition sum_points (D : list string) (a : da) (e : env) : list env := envs (keep (fun d => memb d D) (dims a)) e.

Lemma names_keep p (ds : dimlist) d : In d (map fst (keep p ds)) <-> In d (map fst ds) /\ p d = true.
Proof.
  unfold keep. rewrite !in_map_iff. split.
  - intros (q & <- & H). apply filter_In in H. destruct H as [H1 H2]. split; [exists q; auto|exact H2].
  - intros ((q & <- & H) & Hp). exists q. split; auto. apply filter_In. auto.
Qed.
Lemma sum_points_spec D a e : wf a -> reduced_points [a] D e (sum_points D a e).
Proof.
  intros W. assert (NoDup (map fst (keep (fun d => memb d D) (dims a)))) as HN by (apply keep_NoDup, W).
  unfold sum_points. split.
  - apply envs_NoDup; [exact HN|]. intros d ls H. unfold keep in H. apply filter_In in H. destruct H as [H _]. now apply (proj1 (proj2 W) d).
  - intros e'. rewrite (envs_spec _ HN). split.
    + intros [Hp Ho]. split.
      * intros d Hd. apply Ho. rewrite names_keep. intros [H1 H2]. apply Hd. split; [now apply memb_In|]. exists a. split; [now left|exact H1].
      * intros b d [<-|[]] HD Hd. unfold labels_of. unfold dnames in Hd. apply in_map_iff in Hd. destruct Hd as ([d' ls] & E & Hd). cbn [fst] in E. subst d'.
        rewrite (In_dget _ _ _ (proj1 W) Hd). apply (Hp d ls). unfold keep. apply filter_In. split; auto. cbn [fst]. now apply memb_In.
    + intros [Ho Hl]. split.
      * intros d ls H. unfold keep in H. apply filter_In in H. destruct H as [H1 H2]. cbn [fst] in H2. apply memb_In in H2.
        specialize (Hl a d (or_introl eq_refl) H2). unfold labels_of in Hl. rewrite (In_dget _ _ _ (proj1 W) H1) in Hl. apply Hl. unfold dnames. apply in_map_iff. exists (d, ls). auto.
      * intros d Hd. apply Ho. intros [HD (b & [<-|[]] & Hb)]. apply Hd. rewrite names_keep. split; [exact Hb|]. now apply memb_In.
Qed.

Lemma da_sum_Ok D a s : da_sum D a = Ok s ->
  dims s = keep (fun d => negb (memb d D)) (dims a) /\ (forall e, get s e = vsum (map (get a) (sum_points D a e))) /\ (forall d, In d D -> In d (dnames a)).
Proof.
  unfold da_sum. destruct (subsetb D (dnames a)) eqn:E; [|discriminate]. intros [= <-]. split; [reflexivity|]. split; [reflexivity|].
  unfold subsetb in E. rewrite forallb_forall in E. intros d Hd. apply E in Hd. now apply memb_In.
Qed.
Lemma wf_sum D a s : wf a -> da_sum D a = Ok s -> wf s.
Proof.
  intros W H. apply da_sum_Ok in H. destruct H as (Hd & Hg & _). split; [|split].
  - unfold dnames. rewrite Hd. apply keep_NoDup, W.
  - intros d ls Hin. rewrite Hd in Hin. unfold keep in Hin. apply filter_In in Hin. now apply (proj1 (proj2 W) d).
  - intros e e' He. rewrite !Hg. unfold sum_points.
    assert (NoDup (map fst (keep (fun d => memb d D) (dims a)))) as HN by (apply keep_NoDup, W).
    assert (forall ds e e', (forall d, In d (dnames a) -> ~ In d (map fst ds) -> e d = e' d) -> map (get a) (envs ds e) = map (get a) (envs ds e')) as K.
    { clear - W. induction ds as [|[d ls] ds IH]; intros e e' H; simpl.
      - f_equal. apply W. intros n Hn. apply H; auto.
      - induction ls as [|l ls IHl]; simpl; [reflexivity|]. rewrite !map_app. f_equal; [|apply IHl; exact H]. apply IH. intros n Hn Hi. unfold upd.
        destruct (string_dec n d) as [->|]; [reflexivity|]. apply H; auto. simpl. intros [E|E]; [congruence|contradiction]. }
    f_equal. apply K. intros d Hda Hni. apply He. unfold dnames. rewrite Hd. rewrite names_keep. split; [exact Hda|].
    rewrite names_keep in Hni. destruct (memb d D) eqn:E; [|reflexivity]. exfalso. apply Hni. auto.
Qed.

Lemma sum_points_one d a e : NoDup (dnames a) -> In d (dnames a) -> sum_points [d] a e = map (upd e d) (labels_of (dims a) d).
Proof.
  intros HN Hin. unfold sum_points, labels_of. assert (keep (fun n => memb n [d]) (dims a) = [(d, match dget (dims a) d with Some ls => ls | None => [] end)]) as ->.
  { assert (forall n, memb n [d] = true <-> n = d) as M by (intros n; rewrite memb_In; simpl; intuition congruence).
    unfold dnames in *. induction (dims a) as [|[n ls] ds IH]; [destruct Hin|]. simpl in HN. apply NoDup_cons_iff in HN. destruct HN as [Hn HN].
    unfold keep. cbn [filter fst]. cbn [dget]. destruct (memb n [d]) eqn:E.
    - apply M in E. subst n. destruct (eq_dec d d); [|contradiction]. f_equal.
      clear - Hn M. induction ds as [|[n ls'] ds IH]; [reflexivity|]. cbn [filter fst]. simpl in Hn. destruct (memb n [d]) eqn:E; [|apply IH; tauto].
      apply M in E. subst. tauto.
    - assert (n <> d) as N by (intros ->; assert (memb d [d] = true) by (now apply M); congruence). destruct Hin as [E'|Hin]; [simpl in E'; congruence|].
      destruct (eq_dec d n); [congruence|]. now apply IH. }
  simpl. induction (match dget (dims a) d with Some ls => ls | None => [] end); simpl; [reflexivity|]. now f_equal.
Qed.
Lemma da_sum_along d a s e : NoDup (dnames a) -> da_sum [d] a = Ok s -> get s e = vsum (along a d e).
Proof.
  intros HN H. apply da_sum_Ok in H. destruct H as (_ & Hg & Hin). rewrite Hg, sum_points_one; [|exact HN|apply Hin; now left].
  rewrite map_map. reflexivity.
Qed.

Lemma mean_skipna_Ok D a m : wf a -> mean_skipna D a = Ok m ->
  wf m /\ (forall n, In n (dnames m) <-> In n (dnames a) /\ ~ In n D) /\
  (forall e, point_of (dims m) e <-> point_of (keep (fun d => negb (memb d D)) (dims a)) e) /\
  forall e, get m e = vdiv (vsum (map (fun q => if isnan (get a q) then Fin 0 else get a q) (sum_points D a e)))
                           (vsum (map (fun q => b2v (negb (isnan (get a q)))) (sum_points D a e))).
Proof.
  intros W H. unfold mean_skipna in H. destruct (da_sum D (da_map _ a)) as [s|] eqn:Es; [|discriminate]. cbn [bind] in H.
  destruct (da_sum D (notnull a)) as [n|] eqn:En; [|discriminate]. cbn [bind] in H. injection H as <-.
  assert (wf s) as Ws by (eapply wf_sum; [|exact Es]; now apply wf_map). assert (wf n) as Wn by (eapply wf_sum; [|exact En]; now apply wf_map).
  apply da_sum_Ok in Es. destruct Es as (D1 & G1 & _). apply da_sum_Ok in En. destruct En as (D2 & G2 & _). cbn [da_map dims notnull] in D1, D2.
  split; [now apply wf_binop|]. split; [|split].
  - intros k. unfold dnames. cbn [binop dims]. rewrite names_merge, D1, D2, !names_keep. rewrite negb_true_iff, memb_false. tauto.
  - intros e. cbn [binop dims]. rewrite D1, D2. rewrite merge_self; [reflexivity|]. apply keep_NoDup, W.
  - intros e. cbn [binop get]. rewrite G1, G2. reflexivity.
Qed.

Lemma valid_sums (vs : list val) q : average_of_valid vs q ->
  vdiv (vsum (map (fun v => if isnan v then Fin 0 else v) vs)) (vsum (map (fun v => b2v (negb (isnan v))) vs)) = Fin q.
Proof.
  intros (xs & Hf & Hne & ->).
  assert (vsum (map (fun v => if isnan v then Fin 0 else v) vs) = Fin (rsum xs) /\ vsum (map (fun v => b2v (negb (isnan v))) vs) = Fin (INR (length xs))) as [-> ->].
  { clear Hne. revert xs Hf. induction vs as [|v vs IH]; intros xs Hf; simpl in *.
    - destruct xs; [|discriminate]. split; reflexivity.
    - destruct v; simpl in *; try (destruct xs as [|x xs]; simpl in Hf; [discriminate|]; discriminate).
      + destruct xs as [|x xs]; [discriminate|]. injection Hf as <- Hf. destruct (IH xs Hf) as [-> ->]. split; [reflexivity|]. unfold b2v. cbn [vadd]. f_equal. cbn [length]. rewrite S_INR. lra.
      + destruct (IH xs Hf) as [-> ->]. unfold b2v. cbn [vadd]. split; f_equal; lra. }
  apply vdiv_Fin. destruct xs; [contradiction|]. cbn [length]. rewrite S_INR. pose proof (pos_INR (length xs)). lra.
Qed.
