(** C55: the flattening of metric values into one Dataset (aggregation.py 136-141). *)
From Coq Require Import String Ascii List Bool Arith Lia.
Import ListNotations.
From Verif Require Import Prelude Values Model_XArray Spec_XArray Proofs_XArray Model_Tree
  Model_MetricsBase Model_Aggregation Spec_Metrics Proofs_Metrics.
Local Open Scope list_scope.

Definition flat (mv : dict string (vars da)) : list (string * da) :=
  flat_map (fun nm => map (fun va => ((fst nm ++ "." ++ fst va)%string, snd va)) (snd nm)) mv.

Lemma values_flat mv : values_dataset mv = fold_left (fun acc ka => ds_assign acc (fst ka) (snd ka)) (flat mv) [].
Proof.
  unfold values_dataset, flat. generalize (@nil (string * da)).
  induction mv as [|[n vs] mv IH]; intros d; simpl; [reflexivity|].
  rewrite fold_left_app, <- IH. f_equal. clear. revert d. induction vs as [|[v a] vs IH]; intros d; simpl; auto.
Qed.

Definition assign_all (l : list (string * da)) : dict string da := fold_left (fun acc ka => ds_assign acc (fst ka) (snd ka)) l [].
Lemma assign_app l k a : assign_all (l ++ [(k, a)]) = ds_assign (assign_all l) k a.
Proof. unfold assign_all. rewrite fold_left_app. reflexivity. Qed.

Lemma keys_assign_all l : keys (assign_all l) = first_occurrences (map fst l).
Proof.
  induction l as [|[k a] l IH] using rev_ind; [reflexivity|]. rewrite assign_app, map_app. simpl map.
  rewrite first_occ_app. unfold ds_assign. rewrite keys_dset, IH.
  destruct (memb k (map fst l)) eqn:E.
  - apply memb_In in E. apply In_first_occ in E. apply memb_In in E. now rewrite E.
  - destruct (memb k (first_occurrences (map fst l))) eqn:E2; [|reflexivity]. apply memb_In in E2. apply (proj1 (In_first_occ _ _)) in E2. apply memb_In in E2. rewrite E2 in E. discriminate.
Qed.

Definition boxed (a : da) : da := mkDa (dims a) (fun e => if in_box (dims a) e then get a e else NaN) (aux a).

Lemma find_In' {X} (f : X -> bool) l x : find f l = Some x -> In x l /\ f x = true.
Proof. apply find_some. Qed.

Lemma assign_values l : (forall k a, In (k, a) l -> NoDup (dnames a)) ->
  (forall k a k' b, In (k, a) l -> In (k', b) l -> same_labels a b) ->
  forall k a', dget (assign_all l) k = Some a' ->
    exists l1 a l2, l = l1 ++ (k, a) :: l2 /\ ~ In k (map fst l2) /\ a' = boxed a.
Proof.
  induction l as [|[k0 a0] l IH] using rev_ind; intros Hn Hs k a' H; [discriminate|].
  rewrite assign_app in H. unfold ds_assign in H. rewrite dget_dset in H.
  assert (forall k a', dget (assign_all l) k = Some a' -> exists l1 a l2, l = l1 ++ (k, a) :: l2 /\ ~ In k (map fst l2) /\ a' = boxed a) as IH'.
  { apply IH; intros; [eapply Hn|eapply Hs]; try (apply in_app_iff; left; eauto). }
  destruct (eq_dec k k0) as [->|Hne].
  - exists l, a0, []. split; [reflexivity|]. split; [intros []|]. injection H as <-. unfold boxed. f_equal.
    transitivity (map (fun q : string * list label => q) (dims a0)); [|apply map_id].
    apply map_ext_in. intros [d ls] Hd. simpl. unfold ds_labels.
    destruct (find _ (assign_all l)) as [[k1 b']|] eqn:Ef; [|reflexivity]. simpl.
    apply find_some in Ef. destruct Ef as [Hin _].
    assert (NoDup (keys (assign_all l))) as Hnd.
    { rewrite keys_assign_all. clear. induction (map fst l) as [|x m IHm]; simpl; [constructor|]. constructor.
      - rewrite filter_In. rewrite String.eqb_refl. simpl. intros [_ ?]; discriminate.
      - now apply NoDup_filter. }
    destruct (IH' k1 b' (In_dget _ _ _ Hnd Hin)) as (l1 & b & l2 & El & _ & ->). simpl.
    destruct (dget (dims b) d) as [ls'|] eqn:Eb; [|reflexivity]. f_equal.
    assert (same_labels a0 b) as Hab.
    { eapply Hs; [apply in_app_iff; right; now left|]. apply in_app_iff. left. rewrite El. apply in_app_iff. right. now left. }
    symmetry. eapply Hab; [|exact Eb]. apply In_dget; auto. eapply (Hn k0). apply in_app_iff. right. now left.
  - destruct (IH' k a' H) as (l1 & a & l2 & -> & H2 & H3). exists l1, a, (l2 ++ [(k0, a0)]).
    split; [rewrite <- app_assoc; reflexivity|]. split; auto. rewrite map_app, in_app_iff. simpl. intuition congruence.
Qed.

Lemma boxed_equiv a : da_equiv (boxed a) a.
Proof.
  split; [reflexivity|]. split; [reflexivity|]. intros e He. simpl. assert (in_box (dims a) e = true) as -> by (now apply in_box_iff). reflexivity.
Qed.

Lemma In_flat mv k a : In (k, a) (flat mv) <-> exists n vs v, In (n, vs) mv /\ In (v, a) vs /\ k = (n ++ "." ++ v)%string.
Proof.
  unfold flat. rewrite in_flat_map. split.
  - intros ([n vs] & H1 & H2). simpl in H2. apply in_map_iff in H2. destruct H2 as ([v b] & [= <- <-] & H2). exists n, vs, v. auto.
  - intros (n & vs & v & H1 & H2 & ->). exists (n, vs). split; auto. simpl. apply in_map_iff. exists (v, a). auto.
Qed.

Theorem values_names mv k : In k (keys (values_dataset mv)) <->
  exists n vs v a, In (n, vs) mv /\ In (v, a) vs /\ k = (n ++ "." ++ v)%string.
Proof.
  rewrite values_flat. change (fold_left _ _ _) with (assign_all (flat mv)). rewrite keys_assign_all, In_first_occ, in_map_iff. split.
  - intros ([k' a] & <- & H). apply In_flat in H. destruct H as (n & vs & v & ? & ? & ->). exists n, vs, v, a. auto.
  - intros (n & vs & v & a & ? & ? & ->). exists ((n ++ "." ++ v)%string, a). split; auto. apply In_flat. exists n, vs, v. auto.
Qed.

Theorem values_value mv n vs v a :
  (forall n vs v a, In (n, vs) mv -> In (v, a) vs -> NoDup (dnames a)) ->
  (forall n vs v a n' vs' v' b, In (n, vs) mv -> In (v, a) vs -> In (n', vs') mv -> In (v', b) vs' -> same_labels a b) ->
  In (n, vs) mv -> In (v, a) vs ->
  (forall n' vs' v' b, In (n', vs') mv -> In (v', b) vs' -> (n' ++ "." ++ v')%string = (n ++ "." ++ v)%string -> b = a) ->
  exists a', dget (values_dataset mv) (n ++ "." ++ v)%string = Some a' /\ da_equiv a' a.
Proof.
  intros Hn Hs Hin Hv Hu.
  destruct (keys_dget (values_dataset mv) (n ++ "." ++ v)%string) as [a' Ha']; [apply values_names; exists n, vs, v, a; auto|].
  exists a'. split; auto. rewrite values_flat in Ha'. change (fold_left _ _ _) with (assign_all (flat mv)) in Ha'.
  apply assign_values in Ha'.
  - destruct Ha' as (l1 & b & l2 & El & _ & ->).
    assert (In ((n ++ "." ++ v)%string, b) (flat mv)) as Hb by (rewrite El; apply in_app_iff; right; now left).
    apply In_flat in Hb. destruct Hb as (n' & vs' & v' & H1 & H2 & H3). rewrite (Hu n' vs' v' b H1 H2 (eq_sym H3)). apply boxed_equiv.
  - intros k b Hb. apply In_flat in Hb. destruct Hb as (n' & vs' & v' & H1 & H2 & H3). eauto.
  - intros k b k' c Hb Hc. apply In_flat in Hb, Hc. destruct Hb as (n1 & vs1 & v1 & H1 & H2 & H3), Hc as (n2 & vs2 & v2 & H4 & H5 & H6). eauto.
Qed.

Lemma dot_left m1 v1 m2 v2 : ~ occurs "."%char m1 -> ~ occurs "."%char m2 ->
  (m1 ++ "." ++ v1)%string = (m2 ++ "." ++ v2)%string -> m1 = m2 /\ v1 = v2.
Proof.
  revert m2. induction m1 as [|c m1 IH]; intros [|c2 m2] H1 H2 E; simpl in *.
  - injection E as ->. auto.
  - injection E as <- _. tauto.
  - injection E as -> _. tauto.
  - injection E as -> E. destruct (IH m2) as [-> ->]; tauto.
Qed.
Lemma dot_occurs m v : occurs "."%char (m ++ "." ++ v)%string.
Proof. induction m; simpl; auto. Qed.
Lemma dot_right m1 v1 m2 v2 : ~ occurs "."%char v1 -> ~ occurs "."%char v2 ->
  (m1 ++ "." ++ v1)%string = (m2 ++ "." ++ v2)%string -> m1 = m2 /\ v1 = v2.
Proof.
  revert m2. induction m1 as [|c m1 IH]; intros [|c2 m2] H1 H2 E; simpl in *.
  - injection E as ->. auto.
  - injection E as _ E. exfalso. apply H1. rewrite E. apply dot_occurs.
  - injection E as _ E. exfalso. apply H2. rewrite <- E. apply dot_occurs.
  - injection E as -> E. destruct (IH m2) as [-> ->]; tauto.
Qed.
