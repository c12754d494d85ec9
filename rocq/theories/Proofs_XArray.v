From Coq Require Import String ZArith Bool List Lia Permutation FunctionalExtensionality.
From Coq Require Import Reals Lra.
Import ListNotations.
From Verif Require Import Prelude Values Model_XArray Spec_XArray.
Local Open Scope list_scope.

(** ** Boxes *)
Lemma upd_same e d l : upd e d l d = l.
Proof. unfold upd. destruct (string_dec d d); congruence. Qed.
Lemma upd_other e d l d' : d' <> d -> upd e d l d' = e d'.
Proof. unfold upd. destruct (string_dec d' d); congruence. Qed.
Lemma upd_comm e d1 d2 l1 l2 : d1 <> d2 -> upd (upd e d1 l1) d2 l2 = upd (upd e d2 l2) d1 l1.
Proof.
  intros H. extensionality d. unfold upd.
  destruct (string_dec d d2), (string_dec d d1); congruence.
Qed.
Lemma upd_upd e d l1 l2 : upd (upd e d l1) d l2 = upd e d l2.
Proof. extensionality x. unfold upd. destruct (string_dec x d); reflexivity. Qed.
Lemma upd_id e d : upd e d (e d) = e.
Proof. extensionality x. unfold upd. destruct (string_dec x d); congruence. Qed.

Lemma in_box_iff ds e : in_box ds e = true <-> point_of ds e.
Proof.
  unfold in_box, point_of. rewrite forallb_forall. split.
  - intros H d ls Hin. apply H in Hin. simpl in Hin. now apply memb_In in Hin.
  - intros H [d ls] Hin. simpl. apply memb_In. eauto.
Qed.

Lemma point_of_labels ds e : NoDup (map fst ds) ->
  (point_of ds e <-> forall d, In d (map fst ds) -> In (e d) (labels_of ds d)).
Proof.
  intros Hnd. unfold point_of, labels_of. split.
  - intros H d Hd. apply in_map_iff in Hd. destruct Hd as [[d' ls] [E Hin]]. simpl in E. subst d'.
    rewrite (In_dget _ _ _ Hnd Hin). eauto.
  - intros H d ls Hin. specialize (H d). rewrite (In_dget _ _ _ Hnd Hin) in H. apply H.
    now apply (in_map fst) in Hin.
Qed.

Lemma labels_of_In ds d x : In x (labels_of ds d) -> In d (map fst ds).
Proof.
  unfold labels_of. destruct (dget ds d) eqn:E; [|simpl; tauto]. intros _.
  apply dget_Some_keys in E. exact E.
Qed.

Lemma in_box_equiv ds1 ds2 e :
  NoDup (map fst ds1) -> NoDup (map fst ds2) ->
  (forall d, In d (map fst ds1) <-> In d (map fst ds2)) ->
  (forall d x, In x (labels_of ds1 d) <-> In x (labels_of ds2 d)) ->
  in_box ds1 e = in_box ds2 e.
Proof.
  intros N1 N2 Hn Hl. apply eq_true_iff_eq. rewrite !in_box_iff.
  rewrite !point_of_labels by auto. split; intros H d Hd; apply Hl, H, Hn, Hd.
Qed.

(** ** Merging dimension lists *)
Lemma dget_merge j ds1 ds2 d :
  dget (merge_dims j ds1 ds2) d =
  match dget ds1 d with
  | Some l1 => match dget ds2 d with Some l2 => Some (j l1 l2) | None => Some l1 end
  | None => dget ds2 d
  end.
Proof.
  unfold merge_dims.
  assert (forall (x y : dimlist), dget (x ++ y) d = match dget x d with Some v => Some v | None => dget y d end) as Happ.
  { induction x as [|[a b] x IH]; intros y; simpl; [reflexivity|].
    destruct (eq_dec d a); [reflexivity|apply IH]. }
  rewrite Happ.
  assert (dget (map (fun p => match dget ds2 (fst p) with Some l2 => (fst p, j (snd p) l2) | None => p end) ds1) d =
    match dget ds1 d with Some l1 => match dget ds2 d with Some l2 => Some (j l1 l2) | None => Some l1 end | None => None end) as ->.
  { induction ds1 as [|[a b] ds1 IH]; simpl; [reflexivity|].
    destruct (dget ds2 a) eqn:E; simpl; destruct (eq_dec d a) as [->|]; rewrite ?E; auto. }
  destruct (dget ds1 d) as [l1|] eqn:E1; [destruct (dget ds2 d); reflexivity|].
  apply dget_None in E1. unfold keys in E1.
  induction ds2 as [|[a b] ds2 IH]; simpl; [reflexivity|].
  destruct (memb a (map fst ds1)) eqn:Em; simpl.
  - rewrite IH. destruct (eq_dec d a) as [->|]; [apply memb_In in Em; tauto|reflexivity].
  - destruct (eq_dec d a); [reflexivity|apply IH].
Qed.

Lemma names_dget (ds : dimlist) d : In d (map fst ds) <-> dget ds d <> None.
Proof.
  rewrite dget_None. unfold keys. split; [tauto|].
  intros H. destruct (in_dec string_dec d (map fst ds)); tauto.
Qed.

Lemma names_merge j ds1 ds2 d :
  In d (map fst (merge_dims j ds1 ds2)) <-> In d (map fst ds1) \/ In d (map fst ds2).
Proof.
  rewrite !names_dget, dget_merge.
  destruct (dget ds1 d), (dget ds2 d); split; try tauto; try (intros _; left; discriminate); try discriminate;
  try (intros _; right; discriminate); intros [H|H]; try discriminate; try tauto.
Qed.

Lemma NoDup_app_intro {A} (l1 l2 : list A) :
  NoDup l1 -> NoDup l2 -> (forall x, In x l1 -> ~ In x l2) -> NoDup (l1 ++ l2).
Proof.
  induction l1 as [|a l1 IH]; simpl; intros H1 H2 Hd; [auto|].
  inversion H1; subst. constructor.
  - rewrite in_app_iff. intros [H|H]; [tauto|]. apply (Hd a); auto.
  - apply IH; auto.
Qed.

Lemma NoDup_map_filter {A B} (f : A -> B) p (l : list A) : NoDup (map f l) -> NoDup (map f (filter p l)).
Proof.
  induction l as [|a l IH]; simpl; intros H; [constructor|].
  inversion H; subst. destruct (p a); simpl; [|auto]. constructor; auto.
  intros Hin. apply in_map_iff in Hin. destruct Hin as [x [Hx Hf]]. apply filter_In in Hf.
  apply H2. rewrite <- Hx. now apply in_map.
Qed.

Lemma NoDup_merge j ds1 ds2 :
  NoDup (map fst ds1) -> NoDup (map fst ds2) -> NoDup (map fst (merge_dims j ds1 ds2)).
Proof.
  intros H1 H2. unfold merge_dims. rewrite map_app, map_map.
  assert (map (fun x : string * list label => fst match dget ds2 (fst x) with Some l2 => (fst x, j (snd x) l2) | None => x end) ds1 = map fst ds1) as ->.
  { apply map_ext. intros p. destruct (dget ds2 (fst p)); reflexivity. }
  apply NoDup_app_intro; auto.
  - now apply NoDup_map_filter.
  - intros x Hx Hin. apply in_map_iff in Hin. destruct Hin as [p [<- Hp]]. apply filter_In in Hp.
    destruct Hp as [_ Hp]. apply negb_true_iff in Hp. apply memb_false in Hp. tauto.
Qed.

Lemma In_union l1 l2 x : In x (union_labels l1 l2) <-> In x l1 \/ In x l2.
Proof.
  unfold union_labels. rewrite in_app_iff, filter_In, negb_true_iff, memb_false.
  destruct (in_dec eq_dec x l1); tauto.
Qed.
Lemma NoDup_union l1 l2 : NoDup l1 -> NoDup l2 -> NoDup (union_labels l1 l2).
Proof.
  intros H1 H2. unfold union_labels. apply NoDup_app_intro; auto.
  - now apply NoDup_filter.
  - intros x Hx Hf. apply filter_In in Hf. destruct Hf as [_ Hf]. apply negb_true_iff, memb_false in Hf. tauto.
Qed.
Lemma filter_true {A} (p : A -> bool) l : (forall x, In x l -> p x = true) -> filter p l = l.
Proof.
  induction l as [|a l IH]; simpl; intros H; [reflexivity|]. rewrite H by auto. now rewrite IH by auto.
Qed.
Lemma inter_self l : inter_labels l l = l.
Proof. apply filter_true. intros x Hx. now apply memb_In. Qed.

Lemma labels_merge_union ds1 ds2 d x :
  In x (labels_of (merge_dims union_labels ds1 ds2) d) <-> In x (labels_of ds1 d) \/ In x (labels_of ds2 d).
Proof.
  unfold labels_of. rewrite dget_merge.
  destruct (dget ds1 d), (dget ds2 d); simpl; rewrite ?In_union; tauto.
Qed.

Definition joint (dss : list dimlist) (acc : dimlist) := fold_left (merge_dims union_labels) dss acc.

Lemma labels_joint dss : forall acc d x,
  In x (labels_of (joint dss acc) d) <-> In x (labels_of acc d) \/ exists ds, In ds dss /\ In x (labels_of ds d).
Proof.
  induction dss as [|ds dss IH]; intros acc d x; simpl.
  - split; [tauto|]. intros [H|[ds [[] _]]]. auto.
  - unfold joint in *. simpl. rewrite IH, labels_merge_union. split.
    + intros [[H|H]|[ds' [H1 H2]]]; [auto|right; eauto|right; eauto].
    + intros [H|[ds' [[->|H1] H2]]]; [auto|auto|right; eauto].
Qed.

Lemma names_joint dss : forall acc d,
  In d (map fst (joint dss acc)) <-> In d (map fst acc) \/ exists ds, In ds dss /\ In d (map fst ds).
Proof.
  induction dss as [|ds dss IH]; intros acc d; simpl.
  - split; [tauto|]. intros [H|[ds [[] _]]]. auto.
  - unfold joint in *. simpl. rewrite IH, names_merge. split.
    + intros [[H|H]|[ds' [H1 H2]]]; [auto|right; eauto|right; eauto].
    + intros [H|[ds' [[->|H1] H2]]]; [auto|auto|right; eauto].
Qed.

Lemma NoDup_joint dss : forall acc,
  NoDup (map fst acc) -> (forall ds, In ds dss -> NoDup (map fst ds)) -> NoDup (map fst (joint dss acc)).
Proof.
  induction dss as [|ds dss IH]; intros acc Ha Hd; simpl; [auto|].
  unfold joint in *. simpl. apply IH; [apply NoDup_merge; auto; apply Hd; now left|].
  intros; apply Hd; now right.
Qed.

Lemma NoDup_labels_merge ds1 ds2 :
  (forall d, NoDup (labels_of ds1 d)) -> (forall d, NoDup (labels_of ds2 d)) ->
  forall d, NoDup (labels_of (merge_dims union_labels ds1 ds2) d).
Proof.
  intros H1 H2 d. specialize (H1 d). specialize (H2 d). unfold labels_of in *. rewrite dget_merge.
  destruct (dget ds1 d), (dget ds2 d); auto. now apply NoDup_union.
Qed.
Lemma NoDup_labels_joint dss : forall acc,
  (forall d, NoDup (labels_of acc d)) -> (forall ds d, In ds dss -> NoDup (labels_of ds d)) ->
  forall d, NoDup (labels_of (joint dss acc) d).
Proof.
  induction dss as [|ds dss IH]; intros acc Ha Hd d; simpl; [auto|].
  unfold joint in *. simpl. apply IH; [|intros; apply Hd; now right].
  apply NoDup_labels_merge; auto. intros. apply Hd. now left.
Qed.

Lemma wf_labels_NoDup a : wf a -> forall d, NoDup (labels_of (dims a) d).
Proof.
  intros (_ & H & _) d. unfold labels_of. destruct (dget (dims a) d) eqn:E; [|constructor].
  apply dget_In in E. eauto.
Qed.

(** ** Combining sum *)
Definition comb_sum (arrs : list da) : da := py_sum (align_outer [] (Fin 0) arrs).
Definition zx (a : da) (e : env) : val := if in_box (dims a) e then get a e else Fin 0.

Lemma get_fold_binop arrs : forall acc e,
  get (fold_left (binop vadd) arrs acc) e = vadd (get acc e) (vsum (map (fun a => get a e) arrs)).
Proof.
  induction arrs as [|a arrs IH]; intros acc e; simpl; [now rewrite vadd_0_r|].
  rewrite IH. simpl. now rewrite vadd_assoc.
Qed.

Lemma dget_fold_binop f (J : dimlist) arrs : forall acc,
  (forall d l, dget (dims acc) d = Some l -> l = labels_of J d) ->
  (forall a d l, In a arrs -> dget (dims a) d = Some l -> l = labels_of J d) ->
  (forall d l, dget (dims (fold_left (binop f) arrs acc)) d = Some l -> l = labels_of J d) /\
  (forall d, In d (dnames (fold_left (binop f) arrs acc)) <-> In d (dnames acc) \/ exists a, In a arrs /\ In d (dnames a)).
Proof.
  induction arrs as [|a arrs IH]; intros acc Ha Hr; simpl.
  - split; [auto|]. intros d. split; [tauto|]. intros [H|[a [[] _]]]. auto.
  - destruct (IH (binop f acc a)) as [I1 I2].
    + intros d l. simpl. rewrite dget_merge.
      destruct (dget (dims acc) d) eqn:E1.
      * destruct (dget (dims a) d) eqn:E2; [|intros [= <-]; auto].
        intros [= <-]. apply Ha in E1. apply Hr in E2; [|now left]. subst. now rewrite inter_self.
      * intros H. eapply Hr; [|exact H]. now left.
    + intros a' d l Hin. apply Hr. now right.
    + split; [auto|]. intros d. rewrite I2. unfold dnames at 1. simpl. rewrite names_merge.
      fold (dnames acc) (dnames a). split.
      * intros [[H|H]|[a' [H1 H2]]]; [auto|right; eauto|right; eauto].
      * intros [H|[a' [[->|H1] H2]]]; [auto|auto|right; eauto].
Qed.

Lemma NoDup_fold_binop f arrs : forall acc,
  NoDup (dnames acc) -> (forall a, In a arrs -> NoDup (dnames a)) ->
  NoDup (dnames (fold_left (binop f) arrs acc)).
Proof.
  induction arrs as [|a arrs IH]; intros acc H1 H2; simpl; [auto|].
  apply IH; [|intros; apply H2; now right]. unfold dnames. simpl. apply NoDup_merge; auto.
  apply H2. now left.
Qed.

Lemma keep_all (ds : dimlist) : keep (fun d => negb (memb d [])) ds = ds.
Proof. unfold keep. apply filter_true. reflexivity. Qed.

Lemma dget_map_snd (g : string -> list label -> list label) (ds : dimlist) d :
  dget (map (fun p => (fst p, g (fst p) (snd p))) ds) d =
  match dget ds d with Some l => Some (g d l) | None => None end.
Proof.
  induction ds as [|[a b] ds IH]; simpl; [reflexivity|].
  destruct (eq_dec d a) as [->|]; [reflexivity|apply IH].
Qed.

Lemma comb_sum_get arrs e : get (comb_sum arrs) e = vsum (map (fun a => zx a e) arrs).
Proof.
  unfold comb_sum, py_sum. rewrite get_fold_binop. simpl. rewrite vadd_0_l. f_equal.
  unfold align_outer. rewrite map_map. apply map_ext. intros a. simpl. now rewrite keep_all.
Qed.

Lemma comb_sum_names_labels arrs :
  (forall d, In d (dnames (comb_sum arrs)) <-> exists a, In a arrs /\ In d (dnames a)) /\
  (forall d x, In x (labels_of (dims (comb_sum arrs)) d) <-> exists a, In a arrs /\ In x (labels_of (dims a) d)).
Proof.
  unfold comb_sum, py_sum.
  set (J := joint (map dims arrs) []).
  destruct (dget_fold_binop vadd J (align_outer [] (Fin 0) arrs) (scalar (Fin 0))) as [H1 H2].
  { simpl. discriminate. }
  { intros a d l Hin. unfold align_outer in Hin. apply in_map_iff in Hin. destruct Hin as [a' [<- Hin]]. cbn [dims].
    change (map (fun p : string * list label => (fst p, if memb (fst p) [] then snd p else labels_of (fold_left (merge_dims union_labels) (map dims arrs) []) (fst p))) (dims a')) with
      (map (fun p : string * list label => (fst p, (fun d _ => labels_of J d) (fst p) (snd p))) (dims a')).
    rewrite dget_map_snd. destruct (dget (dims a') d); [|discriminate]. now intros [= <-]. }
  assert (forall d, In d (dnames (fold_left (binop vadd) (align_outer [] (Fin 0) arrs) (scalar (Fin 0)))) <-> exists a, In a arrs /\ In d (dnames a)) as Hn.
  { intros d. rewrite H2. unfold align_outer. split.
    - intros [[]|[a [Ha Hd]]]. apply in_map_iff in Ha. destruct Ha as [a' [<- Ha]]. exists a'. split; auto.
      unfold dnames in Hd. cbn [dims] in Hd. rewrite map_map in Hd. exact Hd.
    - intros [a [Ha Hd]]. right. eexists. split; [apply in_map; exact Ha|].
      unfold dnames. cbn [dims]. rewrite map_map. exact Hd. }
  split; [exact Hn|].
  intros d x.
  assert (In x (labels_of J d) <-> exists a, In a arrs /\ In x (labels_of (dims a) d)) as HJ.
  { unfold J. rewrite labels_joint. split.
    - intros [[]|[ds [Hds Hx]]]. apply in_map_iff in Hds. destruct Hds as [a [<- Ha]]. eauto.
    - intros [a [Ha Hx]]. right. exists (dims a). split; auto. now apply in_map. }
  rewrite <- HJ. unfold labels_of at 1.
  destruct (dget (dims (fold_left _ _ _)) d) as [l|] eqn:E.
  - apply H1 in E. now subst.
  - simpl. split; [tauto|]. intros Hx. apply HJ in Hx. destruct Hx as [a [Ha Hx]].
    apply labels_of_In in Hx.
    apply dget_None in E. apply E. unfold keys. change (map fst (dims ?x)) with (dnames x). apply Hn. eauto.
Qed.

Lemma comb_sum_NoDup arrs : (forall a, In a arrs -> NoDup (dnames a)) -> NoDup (dnames (comb_sum arrs)).
Proof.
  intros H. unfold comb_sum, py_sum. apply NoDup_fold_binop; [constructor|].
  intros a Ha. unfold align_outer in Ha. apply in_map_iff in Ha. destruct Ha as [a' [<- Ha]].
  unfold dnames. cbn [dims]. rewrite map_map. now apply H.
Qed.

Lemma comb_sum_labels_NoDup arrs : (forall a, In a arrs -> wf a) -> forall d, NoDup (labels_of (dims (comb_sum arrs)) d).
Proof.
  intros Hwf d. unfold comb_sum, py_sum.
  set (J := joint (map dims arrs) []).
  destruct (dget_fold_binop vadd J (align_outer [] (Fin 0) arrs) (scalar (Fin 0))) as [H1 H2].
  { simpl. discriminate. }
  { intros a d' l Hin. unfold align_outer in Hin. apply in_map_iff in Hin. destruct Hin as [a' [<- Hin]]. cbn [dims].
    change (map (fun p : string * list label => (fst p, if memb (fst p) [] then snd p else labels_of (fold_left (merge_dims union_labels) (map dims arrs) []) (fst p))) (dims a')) with
      (map (fun p : string * list label => (fst p, (fun d _ => labels_of J d) (fst p) (snd p))) (dims a')).
    rewrite dget_map_snd. destruct (dget (dims a') d'); [|discriminate]. now intros [= <-]. }
  unfold labels_of at 1. destruct (dget (dims (fold_left _ _ _)) d) as [l|] eqn:E; [|constructor].
  apply H1 in E. subst l. unfold J. apply NoDup_labels_joint; [intros; constructor|].
  intros ds d' Hds. apply in_map_iff in Hds. destruct Hds as [a [<- Ha]]. apply wf_labels_NoDup. auto.
Qed.

Lemma in_box_local (ds : dimlist) e e' :
  (forall d, In d (map fst ds) -> e d = e' d) -> in_box ds e = in_box ds e'.
Proof.
  intros H. unfold in_box. induction ds as [|[d ls] ds IH]; simpl; [reflexivity|].
  rewrite H by (simpl; auto). rewrite IH; [reflexivity|]. intros. apply H. simpl. auto.
Qed.

Lemma zx_local a e e' : wf a -> (forall d, In d (dnames a) -> e d = e' d) -> zx a e = zx a e'.
Proof.
  intros (_ & _ & H) He. unfold zx. rewrite (in_box_local (dims a) e e') by exact He.
  now rewrite (H e e' He).
Qed.

Lemma wf_comb_sum arrs : (forall a, In a arrs -> wf a) -> wf (comb_sum arrs).
Proof.
  intros H. split; [|split].
  - apply comb_sum_NoDup. intros. now apply H.
  - intros d ls Hin. pose proof (comb_sum_labels_NoDup arrs H d) as Hl. unfold labels_of in Hl.
    erewrite In_dget in Hl; [exact Hl| |exact Hin]. apply comb_sum_NoDup. intros. now apply H.
  - intros e e' He. rewrite !comb_sum_get. f_equal. apply map_ext_in. intros a Ha. apply zx_local; auto.
    intros d Hd. apply He. apply comb_sum_names_labels. eauto.
Qed.

(** Equivalence *)
Lemma da_equiv_refl a : da_equiv a a.
Proof. repeat split; auto. Qed.
Lemma point_of_equiv a b e : wf a -> wf b -> da_equiv a b -> (point_of (dims a) e <-> point_of (dims b) e).
Proof.
  intros Ha Hb (H1 & H2 & _). rewrite <- !in_box_iff.
  erewrite in_box_equiv; [reflexivity| | | |]; try apply Ha; try apply Hb; auto.
Qed.
Lemma da_equiv_sym a b : wf a -> wf b -> da_equiv a b -> da_equiv b a.
Proof.
  intros Ha Hb H. pose proof H as (H1 & H2 & H3). repeat split; try (intros; now apply H1); try (intros; now apply H2).
  intros e He. symmetry. apply H3. now apply (point_of_equiv a b).
Qed.
Lemma da_equiv_trans a b c : wf a -> wf b -> da_equiv a b -> da_equiv b c -> da_equiv a c.
Proof.
  intros Ha Hb Hab Hbc. pose proof Hab as (H1 & H2 & H3). pose proof Hbc as (G1 & G2 & G3).
  repeat split.
  - intros Hd. now apply G1, H1. - intros Hd. now apply H1, G1.
  - intros Hd. now apply G2, H2. - intros Hd. now apply H2, G2.
  - intros e He. rewrite H3 by auto. apply G3. now apply (point_of_equiv a b).
Qed.
Lemma zx_equiv a b e : wf a -> wf b -> da_equiv a b -> zx a e = zx b e.
Proof.
  intros Ha Hb H. unfold zx. pose proof (point_of_equiv a b e Ha Hb H) as Hp. rewrite <- !in_box_iff in Hp.
  destruct (in_box (dims a) e) eqn:E1, (in_box (dims b) e) eqn:E2; try reflexivity; try (exfalso; intuition congruence).
  apply H. now apply in_box_iff.
Qed.

Lemma comb_sum_box_sub arrs e a :
  (forall a, In a arrs -> wf a) -> (forall a b, In a arrs -> In b arrs -> same_dims a b) ->
  In a arrs -> point_of (dims a) e -> point_of (dims (comb_sum arrs)) e.
Proof.
  intros Hwf Hs Ha Hp. apply point_of_labels; [apply comb_sum_NoDup; intros; now apply Hwf|].
  intros d Hd. apply comb_sum_names_labels in Hd. destruct Hd as [b [Hb Hd]].
  apply comb_sum_names_labels. exists a. split; auto.
  rewrite point_of_labels in Hp by (apply Hwf; auto). apply Hp. apply (Hs b a); auto.
Qed.

(** The zero extension of the combined sum is the sum of zero extensions. *)
Lemma zx_comb_sum arrs e :
  (forall a, In a arrs -> wf a) -> (forall a b, In a arrs -> In b arrs -> same_dims a b) ->
  zx (comb_sum arrs) e = vsum (map (fun a => zx a e) arrs).
Proof.
  intros Hwf Hs. unfold zx at 1. destruct (in_box (dims (comb_sum arrs)) e) eqn:E; [apply comb_sum_get|].
  symmetry. apply vsum_zero. intros x Hx. apply in_map_iff in Hx. destruct Hx as [a [<- Ha]].
  unfold zx. destruct (in_box (dims a) e) eqn:E2; [|reflexivity].
  exfalso. apply in_box_iff in E2. apply (comb_sum_box_sub arrs e a Hwf Hs Ha) in E2.
  apply in_box_iff in E2. congruence.
Qed.

(** Criterion for equivalence via zero extension. *)
Lemma da_equiv_zx a b :
  wf a -> wf b ->
  (forall d, In d (dnames a) <-> In d (dnames b)) ->
  (forall d x, In x (labels_of (dims a) d) <-> In x (labels_of (dims b) d)) ->
  (forall e, point_of (dims a) e -> zx a e = zx b e) -> da_equiv a b.
Proof.
  intros Ha Hb H1 H2 H3. repeat split; try apply H1; try apply H2.
  intros e He. specialize (H3 e He). unfold zx in H3.
  assert (in_box (dims a) e = true) as E1 by now apply in_box_iff.
  assert (in_box (dims b) e = true) as E2.
  { rewrite <- E1. symmetry. apply in_box_equiv; auto; [apply Ha|apply Hb]. }
  now rewrite E1, E2 in H3.
Qed.

(** ** Enumerating boxes *)
Lemma envs_app ds1 : forall ds2 e, envs (ds1 ++ ds2) e = flat_map (envs ds2) (envs ds1 e).
Proof.
  induction ds1 as [|[d ls] ds1 IH]; intros ds2 e; simpl; [now rewrite app_nil_r|].
  induction ls as [|l ls IHl]; simpl; [reflexivity|]. rewrite flat_map_app, IH. now f_equal.
Qed.

Definition sum_over (ds : dimlist) (f : env -> val) (e : env) : val := vsum (map f (envs ds e)).

Lemma sum_over_nil f e : sum_over [] f e = f e.
Proof. unfold sum_over. simpl. apply vadd_0_r. Qed.
Lemma vsum_flat_map {A B} (f : B -> val) (g : A -> list B) l :
  vsum (map f (flat_map g l)) = vsum (map (fun a => vsum (map f (g a))) l).
Proof.
  induction l as [|a l IH]; simpl; [reflexivity|]. now rewrite map_app, vsum_app, IH.
Qed.
Lemma sum_over_cons d ls ds f e :
  sum_over ((d, ls) :: ds) f e = vsum (map (fun l => sum_over ds f (upd e d l)) ls).
Proof. unfold sum_over. simpl. apply vsum_flat_map. Qed.
Lemma sum_over_app ds1 ds2 f e :
  sum_over (ds1 ++ ds2) f e = sum_over ds1 (sum_over ds2 f) e.
Proof. unfold sum_over. rewrite envs_app. apply vsum_flat_map. Qed.

Lemma sum_over_perm ds1 ds2 : Permutation ds1 ds2 -> NoDup (map fst ds1) ->
  forall f e, sum_over ds1 f e = sum_over ds2 f e.
Proof.
  induction 1 as [|[d ls] l l' HP IH|[d1 l1] [d2 l2] l|l l' l'' H1 IH1 H2 IH2]; intros Hnd f e.
  - reflexivity.
  - simpl in Hnd. inversion Hnd; subst. rewrite !sum_over_cons. f_equal. apply map_ext.
    intros x. now apply IH.
  - simpl in Hnd. inversion Hnd as [|? ? Hni Hnd']; subst.
    assert (d1 <> d2) as Hne by (simpl in Hni; intros ->; tauto).
    rewrite !sum_over_cons.
    transitivity (vsum (map (fun x2 => vsum (map (fun x1 => sum_over l f (upd (upd e d1 x1) d2 x2)) l1)) l2)).
    + f_equal. apply map_ext. intros x2. rewrite sum_over_cons. f_equal. apply map_ext. intros x1.
      rewrite (upd_comm e d2 d1) by congruence. reflexivity.
    + rewrite vsum_swap. f_equal. apply map_ext. intros x1. now rewrite sum_over_cons.
  - rewrite IH1 by auto. apply IH2.
    eapply Permutation_NoDup; [|exact Hnd]. now apply Permutation_map.
Qed.

Lemma sum_over_label_perm d l1 l2 ds f e :
  Permutation l1 l2 -> sum_over ((d, l1) :: ds) f e = sum_over ((d, l2) :: ds) f e.
Proof. intros H. rewrite !sum_over_cons. apply vsum_perm. now apply Permutation_map. Qed.

(** Points enumerated by [envs]. *)
Lemma envs_spec ds : NoDup (map fst ds) -> forall e e',
  In e' (envs ds e) <-> (point_of ds e' /\ forall d, ~ In d (map fst ds) -> e' d = e d).
Proof.
  induction ds as [|[d ls] ds IH]; intros Hnd e e'; simpl.
  - split.
    + intros [->|[]]. split; [intros ? ? []|auto].
    + intros [_ H]. left. extensionality x. symmetry. apply H. tauto.
  - inversion Hnd as [|? ? Hni Hnd']; subst. rewrite in_flat_map. split.
    + intros [l [Hl He]]. apply IH in He; auto. destruct He as [Hp Ho]. split.
      * intros d' ls' [[= <- <-]|Hin]; [|eauto]. rewrite Ho by auto. now rewrite upd_same.
      * intros d' Hd'. rewrite Ho by tauto. apply upd_other. intros ->. tauto.
    + intros [Hp Ho]. exists (e' d). split; [apply (Hp d ls); now left|].
      apply IH; auto. split.
      * intros d' ls' Hin. apply (Hp d' ls'). now right.
      * intros d' Hd'. destruct (string_dec d' d) as [->|Hne]; [now rewrite upd_same|].
        rewrite upd_other by auto. apply Ho. intros [E|E]; [congruence|tauto].
Qed.

Lemma sum_over_ext ds f g e : (forall e', In e' (envs ds e) -> f e' = g e') -> sum_over ds f e = sum_over ds g e.
Proof. intros H. unfold sum_over. f_equal. now apply map_ext_in. Qed.

(** Enumerations agree on the reduced dimensions only. *)
Lemma sum_over_local ds f e e' :
  (forall d, ~ In d (map fst ds) -> e d = e' d) -> sum_over ds f e = sum_over ds f e'.
Proof.
  revert e e'. induction ds as [|[d ls] ds IH]; intros e e' H.
  - rewrite !sum_over_nil. f_equal. extensionality x. apply H. simpl. tauto.
  - rewrite !sum_over_cons. f_equal. apply map_ext. intros l. apply IH. intros d' Hd'.
    destruct (string_dec d' d) as [->|Hne]; [now rewrite !upd_same|].
    rewrite !upd_other by auto. apply H. simpl. intros [E|E]; [congruence|tauto].
Qed.

Lemma keep_names p (ds : dimlist) d : In d (map fst (keep p ds)) <-> In d (map fst ds) /\ p d = true.
Proof.
  unfold keep. split.
  - intros H. apply in_map_iff in H. destruct H as [q [<- Hq]]. apply filter_In in Hq. destruct Hq as [H1 H2].
    split; auto. now apply in_map.
  - intros [H Hp]. apply in_map_iff in H. destruct H as [q [<- Hq]]. apply in_map. apply filter_In. auto.
Qed.
Lemma keep_NoDup p (ds : dimlist) : NoDup (map fst ds) -> NoDup (map fst (keep p ds)).
Proof. apply NoDup_map_filter. Qed.
Lemma dget_keep p (ds : dimlist) d : dget (keep p ds) d = if p d then dget ds d else None.
Proof.
  unfold keep. induction ds as [|[a b] ds IH]; simpl; [now destruct (p d)|].
  destruct (p a) eqn:E; simpl.
  - destruct (eq_dec d a) as [->|]; [now rewrite E|apply IH].
  - rewrite IH. destruct (eq_dec d a) as [->|]; [now rewrite E|reflexivity].
Qed.
Lemma labels_keep p (ds : dimlist) d : labels_of (keep p ds) d = if p d then labels_of ds d else [].
Proof. unfold labels_of. rewrite dget_keep. destruct (p d); reflexivity. Qed.

Lemma keep_keep p q (ds : dimlist) : keep p (keep q ds) = keep (fun d => q d && p d) ds.
Proof.
  unfold keep. induction ds as [|[a b] ds IH]; simpl; [reflexivity|].
  destruct (q a); simpl; [destruct (p a); simpl; now rewrite IH|exact IH].
Qed.

Lemma keep_split p q (ds : dimlist) :
  (forall d, In d (map fst ds) -> p d && q d = false) ->
  Permutation (keep (fun d => p d || q d) ds) (keep p ds ++ keep q ds).
Proof.
  unfold keep. induction ds as [|[a b] ds IH]; intros H; simpl; [reflexivity|].
  assert (IH' := IH (fun d Hd => H d (or_intror Hd))). pose proof (H a (or_introl eq_refl)) as Ha.
  destruct (p a), (q a); simpl in *; try discriminate.
  - now apply perm_skip.
  - apply Permutation_cons_app. exact IH'.
  - exact IH'.
Qed.
