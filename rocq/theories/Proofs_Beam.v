(** Proofs about the Beam combiner and the pipeline (C07-C09). *)
From Coq Require Import String ZArith Bool List Permutation Lia Arith.
Import ListNotations.
From Verif Require Import Prelude Values Model_XArray Spec_XArray Proofs_XArray Model_Tree Spec_Tree Proofs_Tree
  Model_Aggregation Spec_Aggregation Spec_Aggregator Proofs_AggState Proofs_Aggregator Model_Beam Spec_Beam.
From Coq Require Import Reals.
Local Open Scope string_scope.
Local Open Scope list_scope.

(** ** The combiner *)
Section ScheduleInd.
  Variable P : schedule -> Prop.
  Hypothesis H0 : P NewAccumulator.
  Hypothesis H1 : forall s x, P s -> P (AddInput s x).
  Hypothesis H2 : forall ss, Forall P ss -> P (MergeAccumulators ss).
  Fixpoint schedule_ind' (s : schedule) : P s :=
    match s with
    | NewAccumulator => H0
    | AddInput s x => H1 s x (schedule_ind' s)
    | MergeAccumulators ss =>
        H2 ss ((fix go l : Forall P l := match l with [] => Forall_nil _ | s' :: l' => Forall_cons _ (schedule_ind' s') (go l') end) ss)
    end.
End ScheduleInd.

Lemma run_Merge ss : run_schedule (MergeAccumulators ss) = merge_accumulators (map run_schedule ss).
Proof. cbn [run_schedule]. f_equal; induction ss; simpl; congruence. Qed.
Lemma inputs_Merge ss : inputs_of (MergeAccumulators ss) = flat_map inputs_of ss.
Proof. cbn [inputs_of]. induction ss; simpl; congruence. Qed.

Definition osums (o : option da) (l : list da) : Prop :=
  match o with None => l = [] | Some a => l <> [] /\ sums_to a l end.

Lemma somes_osums os ls : Forall2 osums os ls ->
  exists bs ms, somes os = bs /\ Forall2 sums_to bs ms /\ Forall (fun m => m <> []) ms /\ concat ms = concat ls /\ incl ms ls.
Proof.
  induction 1 as [|o l os ls Ho HF (bs & ms & E & H1 & H2 & H3 & H4)].
  { exists [], []. split; [reflexivity|]. split; [constructor|]. split; [constructor|]. split; [reflexivity|]. intros ? []. }
  cbn [somes flat_map concat]. fold (somes os).
  destruct o as [a|]; simpl in *.
  - destruct Ho as [Hn Ha]. exists (a :: bs), (l :: ms). rewrite E. repeat split; auto; simpl; [congruence|].
    intros m [<-|Hm]; simpl; auto.
  - subst l. exists bs, ms. repeat split; auto. intros m Hm. right. auto.
Qed.

Lemma run_sums s : (forall a, In a (inputs_of s) -> wf a) ->
  (forall a b, In a (inputs_of s) -> In b (inputs_of s) -> same_dims a b) ->
  osums (run_schedule s) (inputs_of s).
Proof.
  induction s as [|s x IH|ss IH] using schedule_ind'; intros Hw Hs.
  - reflexivity.
  - cbn [run_schedule inputs_of] in *. specialize (IH (fun a Ha => Hw a (in_or_app _ _ _ (or_introl Ha)))
      (fun a b Ha Hb => Hs a b (in_or_app _ _ _ (or_introl Ha)) (in_or_app _ _ _ (or_introl Hb)))).
    assert (In x (inputs_of s ++ [x])) as Hx by (apply in_app_iff; simpl; auto).
    destruct (run_schedule s) as [a|]; simpl in *.
    + destruct IH as [Hn Ha]. split; [now destruct (inputs_of s)|].
      destruct (inputs_of s) as [|b l] eqn:El; [congruence|].
      assert (same_dims a b) as Hab.
      { eapply sums_to_same_dims; [exact Ha|now left|]. intros c Hc. apply Hs; [now left|]. apply (in_or_app (b :: l)). now left. }
      assert (same_dims b x) as Hbx by (apply Hs; [now left|exact Hx]).
      assert (sums_to (combining_sum [a; x]) [a; x]) as Hc.
      { apply sums_to_comb.
        - intros c [<-|[<-|[]]]; [apply Ha|auto].
        - intros c c' [<-|[<-|[]]] [<-|[<-|[]]] d; try tauto; rewrite (Hab d), (Hbx d); tauto. }
      pose proof (sums_to_nested (combining_sum [a; x]) [a; x] [b :: l; [x]]) as HN.
      replace ((b :: l) ++ [x]) with (concat [b :: l; [x]]) by reflexivity.
      apply HN; auto. constructor; auto. constructor; auto. apply sums_to_single. auto.
    + rewrite IH. split; [discriminate|]. apply sums_to_single. auto.
  - rewrite run_Merge, inputs_Merge in *.
    assert (Forall2 osums (map run_schedule ss) (map inputs_of ss)) as HF.
    { clear - IH Hw Hs. induction IH as [|s ss H IH IHH]; simpl; constructor.
      - apply H; intros; [apply Hw|apply Hs]; simpl; apply in_app_iff; auto.
      - apply IHH; intros; [apply Hw|apply Hs]; simpl; apply in_app_iff; auto. }
    destruct (somes_osums _ _ HF) as (bs & ms & E & H1 & H2 & H3 & H4). unfold merge_accumulators. rewrite E.
    rewrite flat_map_concat_map in *. rewrite <- H3 in *.
    destruct bs as [|b bs]; [inversion H1; reflexivity|].
    assert (concat ms <> []) as Hne.
    { inversion H1; subst. inversion H2; subst. simpl. destruct y; simpl; congruence. }
    assert (exists z, In z (concat ms)) as [z Hz] by (destruct (concat ms) as [|z ?]; [congruence|exists z; now left]).
    assert (forall c, In c (b :: bs) -> wf c /\ same_dims c z) as Hc.
    { intros c Hc. apply (In_nth _ _ da_empty) in Hc. 
      assert (exists m, In m ms /\ sums_to c m) as [m [Hm Hsm]].
      { destruct Hc as (n & Hn & <-). clear - H1 Hn. revert n Hn. induction H1; intros n Hn; simpl in *; [lia|].
        destruct n; [eexists; split; [now left|assumption]|]. destruct (IHForall2 n) as [m [? ?]]; [lia|]. exists m. auto. }
      split; [apply Hsm|]. rewrite Forall_forall in H2. specialize (H2 m Hm). destruct m as [|w m]; [congruence|].
      assert (forall v, In v (w :: m) -> In v (concat ms)) as Hv by (intros v Hv; apply in_concat; eauto).
      assert (same_dims c w) as Hcw by (eapply sums_to_same_dims; [exact Hsm|now left|]; intros v Hvv; apply Hs; apply Hv; auto; now left).
      intros d. rewrite (Hcw d). apply (Hs w z); auto. apply Hv. now left. }
    split; auto. eapply sums_to_nested; [exact H1|]. apply sums_to_comb.
    + intros c Hcc. now apply Hc.
    + intros c c' Hcc Hcc' d. destruct (Hc c Hcc) as [_ E1], (Hc c' Hcc') as [_ E2]. rewrite (E1 d), (E2 d). tauto.
Qed.

Theorem schedule_independent s arrs :
  Permutation (inputs_of s) arrs -> (forall a, In a arrs -> wf a) -> (forall a b, In a arrs -> In b arrs -> same_dims a b) ->
  (arrs = [] -> extract_output (run_schedule s) = None) /\
  (arrs <> [] -> exists r, extract_output (run_schedule s) = Some r /\ wf r /\ da_equiv r (combining_sum arrs)).
Proof.
  intros Hp Hw Hs.
  assert (osums (run_schedule s) (inputs_of s)) as H.
  { apply run_sums; intros; [apply Hw|apply Hs]; eapply Permutation_in; eauto. }
  unfold extract_output. destruct (run_schedule s) as [r|]; simpl in H.
  - destruct H as [Hn H]. split; [intros ->; exfalso; apply Hn; now apply Permutation_nil, Permutation_sym|].
    intros _. exists r. split; [reflexivity|]. split; [apply H|]. eapply sums_to_unique; [eapply sums_to_perm; eauto|]. now apply sums_to_comb.
  - split; [reflexivity|]. intros Hn. exfalso. apply Hn. rewrite H in Hp. now apply Permutation_nil.
Qed.

(** ** Partitions of sums *)
Lemma vsum_filter {X} (f : X -> val) q l : vsum (map f (filter q l)) = vsum (map (fun x => if q x then f x else Fin 0) l).
Proof. induction l as [|x l IH]; simpl; [reflexivity|]. destruct (q x); simpl; rewrite IH; [reflexivity|now rewrite vadd_0_l]. Qed.

(** exactly one position of the list satisfies [q] *)
Definition exactly_one {Y} (q : Y -> bool) (l : list Y) : Prop := exists l1 y l2, l = l1 ++ y :: l2 /\ q y = true /\ (forall z, In z (l1 ++ l2) -> q z = false).

Lemma vsum_one {Y} (q : Y -> bool) (v : val) l : exactly_one q l -> vsum (map (fun y => if q y then v else Fin 0) l) = v.
Proof.
  intros (l1 & y & l2 & -> & Hq & Ho). rewrite map_app, vsum_app. simpl. rewrite Hq.
  rewrite !vsum_zero.
  - now rewrite vadd_0_r, vadd_0_l.
  - intros x Hx. apply in_map_iff in Hx. destruct Hx as [z [<- Hz]]. rewrite Ho; auto. apply in_app_iff. auto.
  - intros x Hx. apply in_map_iff in Hx. destruct Hx as [z [<- Hz]]. rewrite Ho; auto. apply in_app_iff. auto.
Qed.

Lemma vsum_partition {X Y} (f : X -> val) (q : Y -> X -> bool) P Q :
  (forall x, In x P -> exactly_one (fun y => q y x) Q) ->
  vsum (map f P) = vsum (map (fun y => vsum (map f (filter (q y) P))) Q).
Proof.
  intros H. erewrite (map_ext (fun y => vsum (map f (filter (q y) P)))); [|intros y; apply vsum_filter].
  rewrite vsum_swap. f_equal. apply map_ext_in. intros x Hx. symmetry. apply (vsum_one (fun y => q y x)). auto.
Qed.
Lemma vsum_drop_zero {X} (f : X -> val) q P : (forall x, In x P -> q x = false -> f x = Fin 0) -> vsum (map f P) = vsum (map f (filter q P)).
Proof.
  intros H. rewrite vsum_filter. f_equal. apply map_ext_in. intros x Hx. destruct (q x) eqn:E; auto.
Qed.

(** ** Wellformedness of dot products *)

Lemma dot_wf R arrs : (forall a, In a arrs -> wf a) -> wf (da_dot R arrs).
Proof.
  intros Hw. assert (NoDup (map fst (ijoint arrs))) as HJ by (apply ij_NoDup; intros; now apply Hw).
  split; [|split].
  - unfold dnames. rewrite dims_dot. now apply keep_NoDup.
  - intros d ls Hin. rewrite dims_dot in Hin. unfold keep in Hin. apply filter_In in Hin. destruct Hin as [Hin _].
    apply In_dget in Hin; auto. pose proof (ij_labels_NoDup arrs Hw d) as H. unfold labels_of in H. now rewrite Hin in H.
  - intros e e' He. rewrite !dot_get. unfold dot_points. unfold dnames in He. rewrite dims_dot in He.
    assert (Forall2 (fun u v => forall d, In d (map fst (ijoint arrs)) -> u d = v d)
              (envs (keep (fun d => memb d R) (ijoint arrs)) e) (envs (keep (fun d => memb d R) (ijoint arrs)) e')) as HF.
    { assert (forall ds J e e', (forall d, In d J -> ~ In d (map fst ds) -> e d = e' d) ->
        Forall2 (fun u v => forall d, In d J -> u d = v d) (envs ds e) (envs ds e')) as G.
      { clear. induction ds as [|[d ls] ds IH]; intros J e e' H; simpl; [constructor; auto|].
        induction ls as [|l ls IHl]; simpl; [constructor|]. apply Forall2_app; auto. apply IH.
        intros x Hx Hn. unfold upd. destruct (string_dec x d); auto. apply H; auto. simpl. intros [?|?]; congruence. }
      apply G. intros d Hd Hn. apply He. rewrite keep_names in *. split; auto. destruct (memb d R); auto. }
    assert (forall u v, (forall d, In d (map fst (ijoint arrs)) -> u d = v d) ->
        vprod (map (fun a => get a u) arrs) = vprod (map (fun a => get a v) arrs)) as Hv.
    { intros u v H. f_equal. apply map_ext_in. intros a Ha. apply Hw; auto. intros d Hd. apply H. apply ij_names. eauto. }
    clear - HF Hv. induction HF; simpl; [reflexivity|]. rewrite IHHF. f_equal. auto.
Qed.

(** ** One-go aggregation is the sum of the chunks *)
Section Chunks.
  Variable R : list string.
  Variable arrs : list da.
  Hypothesis Hwf : forall a, In a arrs -> wf a.
  (** each chunk: an index, its arrays *)
  Variable C : Type.
  Variable chunks : list C.
  Variable carrs : C -> list da.
  Variable inch : C -> env -> bool.
  Hypothesis Hne : chunks <> [].
  Hypothesis Hcwf : forall c a, In c chunks -> In a (carrs c) -> wf a.
  Hypothesis Hrel : forall c, In c chunks ->
    Forall2 (fun a b => same_dims a b /\ (forall d l, In l (labels_of (dims b) d) -> In l (labels_of (dims a) d)) /\
                        (forall e, point_of (dims b) e -> get b e = get a e)) arrs (carrs c).
  Hypothesis Hone : forall e, point_of (ijoint arrs) e -> exactly_one (fun c => inch c e) chunks.
  Hypothesis Hin : forall c e, In c chunks -> point_of (ijoint (carrs c)) e -> inch c e = true.
  Hypothesis Hmissing : forall c e, In c chunks -> point_of (ijoint arrs) e -> inch c e = true -> ~ point_of (ijoint (carrs c)) e ->
    vprod (map (fun a => get a e) arrs) = Fin 0.
  Hypothesis Hcover : forall d l, In l (labels_of (ijoint arrs) d) -> exists c, In c chunks /\ In l (labels_of (ijoint (carrs c)) d).

  Lemma cj_names c d : In c chunks -> In d (map fst (ijoint (carrs c))) <-> In d (map fst (ijoint arrs)).
  Proof.
    intros Hc. rewrite !ij_names. pose proof (Hrel c Hc) as HRc. clear - HRc. split; intros [a [Ha Hd]].
    - induction HRc as [|x y l l' (H & _) HF IH]; [destruct Ha|]. destruct Ha as [<-|Ha]; [exists x; split; [now left|now apply H]|].
      destruct (IH Ha) as [z [? ?]]. exists z. split; auto. now right.
    - induction HRc as [|x y l l' (H & _) HF IH]; [destruct Ha|]. destruct Ha as [<-|Ha]; [exists y; split; [now left|now apply H]|].
      destruct (IH Ha) as [z [? ?]]. exists z. split; auto. now right.
  Qed.
  Lemma cj_labels c d l : In c chunks -> In l (labels_of (ijoint (carrs c)) d) -> In l (labels_of (ijoint arrs) d).
  Proof.
    intros Hc H. pose proof (labels_of_In _ _ _ H) as Hd. apply cj_names in Hd; auto. apply ij_labels in H. apply ij_labels.
    split; [now apply ij_names|]. destruct H as [_ H]. pose proof (Hrel c Hc) as HRc. clear - HRc H.
    intros a Ha Hda. induction HRc as [|x y la lb (H1 & H2 & _) HF IH]; [destruct Ha|].
    destruct Ha as [<-|Ha]; [apply H2, H; [now left|now apply H1]|]. apply IH; auto. intros. apply H; auto. now right.
  Qed.
  Lemma cj_prod c e : In c chunks -> point_of (ijoint (carrs c)) e ->
    vprod (map (fun a => get a e) (carrs c)) = vprod (map (fun a => get a e) arrs).
  Proof.
    intros Hc Hp. assert (forall b, In b (carrs c) -> point_of (dims b) e) as Hb.
    { intros b Hbb. eapply ij_point; eauto. intros a Ha. now apply (Hcwf c). }
    pose proof (Hrel c Hc) as HRc. clear - HRc Hb. f_equal. induction HRc as [|x y la lb (_ & _ & H) HF IH]; [reflexivity|]. simpl.
    rewrite H by (apply Hb; now left). f_equal. apply IH. intros. apply Hb. now right.
  Qed.

  Theorem one_go_sums : sums_to (da_dot R arrs) (map (fun c => da_dot R (carrs c)) chunks).
  Proof.
    assert (NoDup (map fst (ijoint arrs))) as HJ by (apply ij_NoDup; intros; now apply Hwf).
    assert (forall c, In c chunks -> NoDup (map fst (ijoint (carrs c)))) as HJc by (intros c Hc; apply ij_NoDup; intros; now apply (Hcwf c)).
    split; [now apply dot_wf|]. split; [|split].
    - intros d. unfold dnames. rewrite dims_dot, keep_names. split.
      + intros [Hd HR]. assert (exists c, In c chunks) as [c Hc] by (clear - Hne; destruct chunks as [|c cs]; [congruence|exists c; now left]). exists (da_dot R (carrs c)).
        split; [now apply (in_map (fun c => da_dot R (carrs c)))|]. rewrite dims_dot, keep_names. split; auto. apply cj_names; auto.
      + intros [b [Hb Hd]]. apply in_map_iff in Hb. destruct Hb as [c [<- Hc]]. rewrite dims_dot, keep_names in Hd.
        destruct Hd. split; auto. eapply cj_names; eauto.
    - intros d l. rewrite dims_dot, labels_keep. split.
      + destruct (negb (memb d R)) eqn:HR; [|intros []]. intros Hl. destruct (Hcover d l Hl) as [c [Hc Hl']].
        exists (da_dot R (carrs c)). split; [now apply (in_map (fun c => da_dot R (carrs c)))|]. rewrite dims_dot, labels_keep, HR. auto.
      + intros [b [Hb Hl]]. apply in_map_iff in Hb. destruct Hb as [c [<- Hc]]. rewrite dims_dot, labels_keep in Hl.
        destruct (negb (memb d R)); [|destruct Hl]. eapply cj_labels; eauto.
    - intros e. rewrite map_map. 
      assert (forall c, In c chunks -> point_of (dims (da_dot R (carrs c))) e -> point_of (dims (da_dot R arrs)) e) as Hsub.
      { intros c Hc. rewrite !dims_dot, !point_of_labels by (apply keep_NoDup; auto). intros H d Hd. rewrite keep_names in Hd. destruct Hd as [Hd HR].
        specialize (H d). rewrite keep_names, labels_keep, HR, cj_names in H by auto. rewrite labels_keep, HR. eapply cj_labels; eauto. }
      unfold zx at 1. destruct (in_box (dims (da_dot R arrs)) e) eqn:EB.
      + apply in_box_iff in EB. rewrite dot_get.
        assert (forall e', In e' (dot_points R arrs e) -> point_of (ijoint arrs) e') as HP.
        { intros e' He'. unfold dot_points in He'. apply envs_spec in He'; [|now apply keep_NoDup]. destruct He' as [P1 P2].
          intros d ls Hd. destruct (memb d R) eqn:E.
          - apply (P1 d ls). unfold keep. apply filter_In. auto.
          - rewrite P2; [|rewrite keep_names; intros [_ ?]; congruence]. apply (EB d ls). rewrite dims_dot. unfold keep. apply filter_In. simpl. rewrite E. auto. }
        rewrite (vsum_partition _ (fun c e' => inch c e') _ chunks) by (intros; apply Hone; auto).
        f_equal. apply map_ext_in. intros c Hc.
        rewrite (vsum_drop_zero _ (in_box (ijoint (carrs c)))).
        2:{ intros e' He' Hb. apply filter_In in He'. destruct He' as [He' Hi]. apply (Hmissing c); auto. rewrite <- in_box_iff. congruence. }
        set (P' := filter (in_box (ijoint (carrs c))) (filter (inch c) (dot_points R arrs e))).
        assert (forall e', In e' P' <-> In e' (dot_points R arrs e) /\ point_of (ijoint (carrs c)) e') as HP'.
        { intros e'. unfold P'. rewrite !filter_In, in_box_iff. split; [tauto|]. intros [H1 H2]. repeat split; auto. }
        unfold zx. destruct (in_box (dims (da_dot R (carrs c))) e) eqn:EC.
        * apply in_box_iff in EC. rewrite dot_get.
          rewrite (map_ext_in (fun e' => vprod (map (fun a => get a e') (carrs c))) (fun e' => vprod (map (fun a => get a e') arrs))).
          2:{ intros e' He'. apply cj_prod; auto. unfold dot_points in He'. apply envs_spec in He'; [|apply keep_NoDup; auto].
              destruct He' as [P1 P2]. intros d ls Hd. destruct (memb d R) eqn:E.
              - apply (P1 d ls). unfold keep. apply filter_In. auto.
              - rewrite P2; [|rewrite keep_names; intros [_ ?]; congruence]. apply (EC d ls). rewrite dims_dot. unfold keep. apply filter_In. simpl. rewrite E. auto. }
          apply vsum_perm, Permutation_map, NoDup_Permutation.
          -- unfold P'. do 2 apply NoDup_filter. apply (dot_points_spec R arrs e Hwf).
          -- apply (dot_points_spec R (carrs c) e). intros; now apply (Hcwf c).
          -- intros e'. rewrite HP'. unfold dot_points. rewrite !envs_spec by (apply keep_NoDup; auto).
             rewrite !point_of_labels by (try apply keep_NoDup; auto). split.
             ++ intros [[Q1 Q2] Q3]. split.
                ** intros d Hd. rewrite keep_names in Hd. destruct Hd as [Hd HR]. rewrite labels_keep, HR. now apply Q3.
                ** intros d Hd. apply Q2. rewrite keep_names in *. now rewrite <- (cj_names c) by auto.
             ++ intros [Q1 Q2]. split; [split|].
                ** intros d Hd. rewrite keep_names in Hd. destruct Hd as [Hd HR]. rewrite labels_keep, HR. apply (cj_labels c); auto.
                   specialize (Q1 d). rewrite keep_names, labels_keep, HR, cj_names in Q1 by auto. auto.
                ** intros d Hd. apply Q2. rewrite keep_names in *. now rewrite (cj_names c) by auto.
                ** intros d Hd. destruct (memb d R) eqn:HR.
                   --- specialize (Q1 d). rewrite keep_names, labels_keep, HR in Q1. auto.
                   --- rewrite Q2 by (rewrite keep_names; intros [_ ?]; congruence).
                       rewrite dims_dot, point_of_labels in EC by (apply keep_NoDup; auto). specialize (EC d). rewrite keep_names, labels_keep, HR in EC. auto.
        * rewrite vsum_zero; [reflexivity|]. intros v Hv. exfalso. apply in_map_iff in Hv. destruct Hv as [e' [_ He']]. apply HP' in He'.
          destruct He' as [H1 H2]. assert (point_of (dims (da_dot R (carrs c))) e); [|rewrite <- in_box_iff in H; congruence].
          unfold dot_points in H1. apply envs_spec in H1; [|now apply keep_NoDup]. destruct H1 as [_ H1].
          rewrite dims_dot, point_of_labels by (apply keep_NoDup; auto). intros d Hd. rewrite keep_names in Hd. destruct Hd as [Hd HR].
          rewrite labels_keep, HR. rewrite <- H1; [rewrite point_of_labels in H2 by auto; auto|].
          rewrite keep_names. intros [_ ?]. apply negb_true_iff in HR. congruence.
      + symmetry. apply vsum_zero. intros v Hv. apply in_map_iff in Hv. destruct Hv as [c [<- Hc]]. unfold zx.
        destruct (in_box (dims (da_dot R (carrs c))) e) eqn:EC; [|reflexivity]. exfalso. apply in_box_iff in EC. apply Hsub in EC; auto.
        rewrite <- in_box_iff in EC. congruence.
  Qed.
End Chunks.
