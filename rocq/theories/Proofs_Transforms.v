From Coq Require Import String ZArith List Bool Reals Lra Lia.
Import ListNotations.
From Verif Require Import Prelude Values Model_XArray Spec_XArray Proofs_XArray Model_MetricsBase Model_Deterministic Model_Categorical Model_Ensemble
  Proofs_Deterministic Spec_Reduce Proofs_Reduce Proofs_Ensemble2 Model_Wrappers Spec_Wrappers.
Local Open Scope R_scope.
Local Open Scope string_scope.
Local Open Scope list_scope.

Lemma vtruthy_b2v' b : vtruthy (b2v b) = b.
Proof. unfold vtruthy, b2v, veqb, Reqb. destruct b; destruct (Req_EM_T _ _); auto; lra. Qed.
Lemma vltb_sub a b : vltb (Fin 0) (vsub b a) = vltb a b.
Proof.
  destruct a as [x| | |], b as [y| | |]; cbn; try reflexivity.
  destruct (Rltb x y) eqn:E; [apply Rltb_true in E; apply Rltb_true; lra|apply Rltb_false in E; apply Rltb_false; lra].
Qed.

(** Consecutive labels *)
Lemma consecutive_cons {A} (x : A) ls a b : consecutive (x :: ls) a b <-> (x = a /\ exists l, ls = b :: l) \/ consecutive ls a b.
Proof.
  split.
  - intros ([|y l1] & l2 & H); injection H as -> H; [left; split; auto; now exists l2|right; now exists l1, l2].
  - intros [[-> [l ->]]|(l1 & l2 & ->)]; [now exists [], l|now exists (x :: l1), l2].
Qed.
Lemma consecutive_neighbours {A} (ls : list A) a b : consecutive ls a b <-> In (a, b) (neighbours ls).
Proof.
  induction ls as [|x ls IH]; [split; [intros ([|] & ? & H); discriminate|intros []]|].
  rewrite consecutive_cons, IH. destruct ls as [|y ls].
  - cbn. split; [intros [[_ [l H]]|[]]; discriminate|intros []].
  - cbn [neighbours In]. split.
    + intros [[-> [l H]]|H]; [injection H as -> ->; now left|now right].
    + intros [[= -> ->]|H]; [left; split; auto; now exists ls|now right].
Qed.
Lemma label_before_spec ls a b : NoDup ls -> consecutive ls a b -> label_before ls b = a.
Proof.
  intros HN (l1 & l2 & ->). induction l1 as [|x l1 IH]; cbn [app].
  - cbn [label_before]. unfold eqb. destruct (eq_dec b b); congruence.
  - inversion HN as [|? ? Hn HN']; subst. specialize (IH HN'). destruct (l1 ++ a :: b :: l2) as [|y l] eqn:E; [destruct l1; discriminate|].
    cbn [label_before]. unfold eqb. destruct (eq_dec y b) as [->|]; [|exact IH].
    exfalso. destruct l1 as [|z l1]; injection E as E1 E2.
    + subst. inversion HN' as [|? ? K _]; subst. apply K. now left.
    + subst. inversion HN' as [|? ? K _]; subst. apply K. rewrite <- E2. apply in_app_iff. right. right. now left.
Qed.
Lemma tl_consecutive {A} (ls : list A) b : In b (tl ls) -> exists a, consecutive ls a b.
Proof.
  destruct ls as [|x ls]; [intros []|]. cbn [tl]. revert x. induction ls as [|y ls IH]; intros x; [intros []|].
  intros [->|H]; [exists x; now exists [], ls|]. destruct (IH y H) as [a Ha]. exists a. apply consecutive_cons. now right.
Qed.
Lemma consecutive_In {A} (ls : list A) a b : consecutive ls a b -> In a ls /\ In b ls.
Proof. intros (l1 & l2 & ->). rewrite !in_app_iff. simpl. tauto. Qed.
Lemma consecutive_tl {A} (ls : list A) a b : consecutive ls a b -> In b (tl ls).
Proof. intros ([|x l1] & l2 & ->); cbn [app tl]; [now left|]. apply in_app_iff. right. right. now left. Qed.

(** diff *)
Lemma da_diff_Ok d a r : da_diff d a = Ok r -> In d (dnames a) /\
  dims r = map (fun p => if eqb (fst p) d then (fst p, tl (snd p)) else p) (dims a) /\ aux r = aux a /\
  forall e, get r e = vsub (get a e) (get a (upd e d (label_before (labels_of (dims a) d) (e d)))).
Proof. unfold da_diff. destruct (memb d (dnames a)) eqn:E; [|discriminate]. intros [= <-]. apply memb_In in E. auto. Qed.
Lemma dget_map_at (f : list label -> list label) (ds : dimlist) d n :
  dget (map (fun p => if eqb (fst p) d then (fst p, f (snd p)) else p) ds) n = match dget ds n with Some l => Some (if eqb n d then f l else l) | None => None end.
Proof.
  induction ds as [|[k l] ds IH]; [reflexivity|]. cbn [map fst snd dget]. unfold eqb at 1. destruct (eq_dec k d) as [->|Hk]; cbn [dget fst snd].
  - destruct (eq_dec n d) as [->|]; [unfold eqb; destruct (eq_dec d d); congruence|exact IH].
  - destruct (eq_dec n k) as [->|]; [unfold eqb; destruct (eq_dec k d); congruence|exact IH].
Qed.
Lemma names_map_at (f : list label -> list label) (ds : dimlist) d : map fst (map (fun p => if eqb (fst p) d then (fst p, f (snd p)) else p) ds) = map fst ds.
Proof. rewrite map_map. apply map_ext. intros [k l]. cbn [fst snd]. now destruct (eqb k d). Qed.
Lemma point_map_at (f : list label -> list label) (ds : dimlist) d e : NoDup (map fst ds) -> In d (map fst ds) ->
  (point_of (map (fun p => if eqb (fst p) d then (fst p, f (snd p)) else p) ds) e <->
   In (e d) (f (labels_of ds d)) /\ forall n, n <> d -> In n (map fst ds) -> In (e n) (labels_of ds n)).
Proof.
  intros HN Hd. rewrite point_of_labels by (now rewrite names_map_at). rewrite names_map_at. unfold labels_of.
  assert (dget ds d <> None) as Hd' by (rewrite names_dget in Hd; exact Hd).
  split.
  - intros H. split.
    + specialize (H d Hd). rewrite dget_map_at in H. destruct (dget ds d); [|contradiction]. unfold eqb in H. destruct (eq_dec d d); [exact H|contradiction].
    + intros n Hn Hin. specialize (H n Hin). rewrite dget_map_at in H. destruct (dget ds n); [|exact H]. unfold eqb in H. destruct (eq_dec n d); [contradiction|exact H].
  - intros [H1 H2] n Hin. rewrite dget_map_at. destruct (dget ds n) as [l|] eqn:E.
    + unfold eqb. destruct (eq_dec n d) as [->|Hn]; [now rewrite E in H1|]. specialize (H2 n Hn Hin). now rewrite E in H2.
    + apply dget_None in E. contradiction.
Qed.
Lemma diff_positive d th df : wf th -> da_diff d th = Ok df -> (all_positive df = true <-> increasing th d).
Proof.
  intros W H. apply da_diff_Ok in H. destruct H as (Hd & Hdims & _ & Hg). pose proof (wf_labels_NoDup th W d) as HL.
  unfold all_positive. rewrite forallb_forall. assert (NoDup (map fst (dims df))) as HN by (rewrite Hdims, names_map_at; apply W).
  split.
  - intros H e a b Hp Hc. set (e1 := fun n => if memb n (dnames th) then upd e d b n else env0 n).
    assert (In e1 (envs (dims df) env0)) as Hin.
    { apply envs_spec; [exact HN|]. split.
      - rewrite Hdims. apply point_map_at; [apply W|exact Hd|]. split.
        + unfold e1. assert (memb d (dnames th) = true) as -> by now apply memb_In. rewrite upd_same. eapply consecutive_tl; eauto.
        + intros n Hn Hin. unfold e1. assert (memb n (dnames th) = true) as -> by now apply memb_In. rewrite upd_other by congruence.
          rewrite point_of_labels in Hp by apply W. specialize (Hp n Hin). now rewrite upd_other in Hp by congruence.
      - intros n Hn. rewrite Hdims, names_map_at in Hn. unfold e1. destruct (memb n (dnames th)) eqn:E; [apply memb_In in E; contradiction|reflexivity]. }
    specialize (H _ Hin). rewrite Hg, vltb_sub in H.
    assert (e1 d = b) as E1 by (unfold e1; assert (memb d (dnames th) = true) as -> by (now apply memb_In); apply upd_same).
    rewrite E1, (label_before_spec _ a b HL Hc) in H.
    rewrite (proj2 (proj2 W) (upd e d a) (upd e1 d a)), (proj2 (proj2 W) (upd e d b) e1); [exact H| |].
    + intros n Hn. unfold e1. assert (memb n (dnames th) = true) as -> by (now apply memb_In). reflexivity.
    + intros n Hn. destruct (string_dec n d) as [->|Hnd]; [now rewrite !upd_same|]. rewrite !upd_other by congruence. unfold e1.
      assert (memb n (dnames th) = true) as -> by (now apply memb_In). now rewrite upd_other by congruence.
  - intros H e1 Hin. apply envs_spec in Hin; [|exact HN]. destruct Hin as [Hp _]. rewrite Hdims in Hp. rewrite point_map_at in Hp; [|apply W|exact Hd].
    destruct Hp as [Hb Ho]. destruct (tl_consecutive _ _ Hb) as [a Hc]. rewrite Hg, vltb_sub, (label_before_spec _ a _ HL Hc).
    specialize (H e1 a (e1 d)). rewrite upd_id in H. apply H; [|exact Hc].
    apply point_of_labels; [apply W|]. intros n Hn. destruct (string_dec n d) as [->|Hnd]; [rewrite upd_same; now apply (consecutive_In _ _ _ Hc)|].
    rewrite upd_other by congruence. now apply Ho.
Qed.

(** Thresholds *)
Lemma wf_threshold_array d vs : NoDup (map fst vs) -> wf (threshold_array d vs).
Proof.
  intros H. split; [|split].
  - unfold dnames. cbn. constructor; [intros []|constructor].
  - intros n ls [[= <- <-]|[]]. exact H.
  - intros e e' He. cbn [threshold_array get]. rewrite (He d); [reflexivity|]. now left.
Qed.
Lemma threshold_array_for name d vs : thresholds_for name (TList vs) d (threshold_array d vs).
Proof. split; [reflexivity|]. split; [reflexivity|]. intros e l v He Hl. cbn [threshold_array get]. now rewrite He, Hl. Qed.

(** CDF *)
Lemma cdf_Ok name ts a d enf ri c : compute_cdf name ts a d enf ri = Ok c ->
  exists th, chosen_thresholds name ts a d = Ok th /\ 
    (enf = true -> exists df, da_diff d th = Ok df /\ all_positive df = true) /\
    dims c = merge_dims inter_labels (merge_dims inter_labels (merge_dims inter_labels (dims a) (dims th)) (dims a)) (dims th) /\
    forall e, get c e = if isnan (get a e) || isnan (get th e) then NaN
                        else b2v (if ri then vleb (get a e) (get th e) else vltb (get a e) (get th e)).
Proof.
  unfold compute_cdf. intros H. destruct (chosen_thresholds name ts a d) as [th|] eqn:E; [|discriminate]. cbn [bind] in H.
  match type of H with bind ?m _ = _ => destruct m as [ok|] eqn:Eo; [|discriminate] end. cbn [bind] in H. destruct ok; [|discriminate].
  injection H as <-. exists th. split; [reflexivity|]. split; [|split].
  - intros ->. destruct (da_diff d th) as [df|] eqn:Ed; [|discriminate]. cbn [bind] in Eo. injection Eo as Eo. eauto.
  - reflexivity.
  - intros e. cbn [da_where_nan binop get notnull da_map]. rewrite !vtruthy_b2v'. destruct (isnan (get a e)); cbn [orb negb]; destruct (isnan (get th e)); reflexivity.
Qed.
Lemma cdf_fails name ts a d ri th : chosen_thresholds name ts a d = Ok th -> wf th -> In d (dnames th) -> ~ increasing th d ->
  compute_cdf name ts a d true ri = Err ValueError.
Proof.
  intros H W Hd Hn. unfold compute_cdf. rewrite H. cbn [bind]. destruct (da_diff d th) as [df|er] eqn:E.
  - cbn [bind]. destruct (all_positive df) eqn:Ea; [|reflexivity]. exfalso. apply Hn. eapply diff_positive; eauto.
  - unfold da_diff in E. destruct (memb d (dnames th)) eqn:M; [discriminate|]. apply memb_false in M. contradiction.
Qed.
Lemma dget_cdf (a th : da) d ls : ~ In d (dnames a) -> dget (dims th) d = Some ls ->
  dget (merge_dims inter_labels (merge_dims inter_labels (merge_dims inter_labels (dims a) (dims th)) (dims a)) (dims th)) d = Some ls.
Proof.
  intros Ha Ht. rewrite !dget_merge. destruct (dget (dims a) d) eqn:E; [apply dget_Some_keys in E; contradiction|]. rewrite Ht. now rewrite inter_self.
Qed.

(** Bins *)
Lemma neighbours_nth {A} (ls : list A) k x y : nth_error (neighbours ls) k = Some (x, y) -> nth_error (tl ls) k = Some y.
Proof.
  revert k. induction ls as [|z ls IH]; intros k H; [destruct k; discriminate|]. destruct ls as [|z' ls]; [destruct k; discriminate|].
  cbn [neighbours] in H. cbn [tl]. destruct k as [|k]; cbn [nth_error] in *; [congruence|]. apply IH in H. exact H.
Qed.
Lemma index_of_nth {A} `{EqDec A} (l : list A) k x : NoDup l -> nth_error l k = Some x -> index_of x l = k.
Proof.
  revert k. induction l as [|y l IH]; intros k HN Hk; [destruct k; discriminate|]. inversion HN as [|? ? Hn HN']; subst. cbn [index_of]. destruct k as [|k]; cbn [nth_error] in Hk.
  - injection Hk as ->. destruct (eq_dec x x); congruence.
  - destruct (eq_dec x y) as [->|]; [apply nth_error_In in Hk; contradiction|]. f_equal. now apply IH.
Qed.
Lemma nth_of_error {A} (l : list A) k x dflt : nth_error l k = Some x -> nth k l dflt = x.
Proof. revert k. induction l as [|y l IH]; intros [|k] H; cbn in *; try discriminate; [congruence|auto]. Qed.
Section Bins.
  Variable str2f : label -> string.
  Lemma bins_Ok name a ts d enf r : to_bins str2f name a ts d enf = Ok r -> exists cdf labels,
    compute_cdf name ts a d enf true = Ok cdf /\ dget (dims cdf) d = Some labels /\
    let names := map (fun lr => bin_name str2f (fst lr) (snd lr)) (neighbours labels) in
    dims r = map (fun p => if eqb (fst p) d then (fst p, names) else p) (map (fun p => if eqb (fst p) d then (fst p, tl (snd p)) else p) (dims cdf)) /\
    dget (aux r) (d ++ "_right")%string = Some (mkCoord [d] (fun e => nth (index_of (e d) names) (map snd (neighbours labels)) (e d))) /\
    dget (aux r) (d ++ "_left")%string = Some (mkCoord [d] (fun e => nth (index_of (e d) names) (map fst (neighbours labels)) (e d))) /\
    (forall l l' e, NoDup labels -> NoDup names -> consecutive labels l l' -> e d = bin_name str2f l l' ->
       get r e = vsub (get cdf (upd e d l')) (get cdf (upd e d l)) /\
       nth (index_of (e d) names) (map snd (neighbours labels)) (e d) = l' /\ nth (index_of (e d) names) (map fst (neighbours labels)) (e d) = l).
  Proof.
    unfold to_bins. intros H. destruct (compute_cdf name ts a d enf true) as [cdf|] eqn:E; [|discriminate]. cbn [bind] in H.
    unfold dgetE in H. destruct (@dget string (list label) _ (dims cdf) d) as [labels|] eqn:El; [|discriminate]. cbn [bind] in H.
    destruct (da_diff d cdf) as [df|] eqn:Ed; [|discriminate]. cbn [bind] in H. injection H as <-.
    apply da_diff_Ok in Ed. destruct Ed as (Hd & Hdims & Haux & Hg). exists cdf, labels. split; [reflexivity|]. split; [exact El|]. cbv zeta.
    set (names := map _ (neighbours labels)). split; [cbn [dims relabel]; now rewrite Hdims|]. cbn [aux]. split; [|split].
    - rewrite dget_dset. destruct (eq_dec _ _); [reflexivity|congruence].
    - rewrite !dget_dset. destruct (eq_dec (d ++ "_left")%string (d ++ "_right")%string) as [K|]; [|destruct (eq_dec _ _); [reflexivity|congruence]].
      exfalso. clear - K. induction d as [|x d' IH]; [discriminate|]. cbn [append] in K. injection K as K. auto.
    - intros l l' e HL HN Hc He. apply consecutive_neighbours in Hc. pose proof Hc as Hc0. apply In_nth_error in Hc. destruct Hc as [k Hk].
      assert (nth_error names k = Some (e d)) as Hk'.
      { unfold names. rewrite nth_error_map, Hk. cbn [option_map fst snd]. now rewrite He. }
      assert (index_of (e d) names = k) as Ei by (apply index_of_nth; auto).
      rewrite Ei. split; [|split].
      + cbn [get relabel]. rewrite Ei. rewrite Hg.
        assert (nth k (labels_of (dims df) d) (e d) = l') as ->.
        { unfold labels_of. rewrite Hdims, dget_map_at, El. unfold eqb. destruct (eq_dec d d); [|congruence]. apply nth_of_error. eapply neighbours_nth; eauto. }
        rewrite upd_same. unfold labels_of. rewrite El, upd_upd. rewrite (label_before_spec labels l l' HL); [reflexivity|]. now apply consecutive_neighbours.
      + apply nth_of_error. now rewrite nth_error_map, Hk.
      + apply nth_of_error. now rewrite nth_error_map, Hk.
  Qed.
End Bins.
