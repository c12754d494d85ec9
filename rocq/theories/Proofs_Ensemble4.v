(** Shapes of the ensemble statistics. *)
From Coq Require Import String ZArith List Bool Reals Permutation Lra Lia FunctionalExtensionality.
Import ListNotations.
From Verif Require Import Prelude Values Model_XArray Spec_XArray Proofs_XArray Model_Tree Model_MetricsBase Model_Aggregation
  Spec_Aggregator Proofs_Aggregator Spec_Metrics Proofs_Metrics Spec_Means Proofs_Means Model_Deterministic Proofs_Deterministic Model_Categorical
  Spec_Reduce Proofs_Reduce Spec_Statistic Spec_Ensemble Model_Ensemble Proofs_Ensemble Proofs_Ensemble2 Proofs_Ensemble3 Proofs_Seeps2.
Local Open Scope R_scope.
Local Open Scope string_scope.
Local Open Scope list_scope.

Lemma inter_self l : inter_labels l l = l.
Proof.
  unfold inter_labels. assert (forall l', incl l' l -> filter (fun x => memb x l) l' = l') as K; [|apply K, incl_refl].
  induction l' as [|x l' IH]; intros H; [reflexivity|]. cbn [filter]. rewrite (proj2 (memb_In x l)) by (apply H; now left). f_equal. apply IH. intros y Hy. apply H. now right.
Qed.
Lemma keep_merge P (A B : dimlist) : NoDup (map fst A) -> keep P A = keep P B -> keep P (merge_dims inter_labels A B) = keep P A.
Proof.
  intros N E. unfold merge_dims. unfold keep at 1. rewrite filter_app.
  assert (forall n, In n (map fst B) -> P n = true -> In n (map fst A)) as K.
  { intros n H1 H2. assert (In n (map fst (keep P B))) as H by (apply names_keep; auto). rewrite <- E in H. apply names_keep in H. tauto. }
  assert (forall C, incl C B -> filter (fun q : string * list label => P (fst q)) (filter (fun p => negb (memb (fst p) (map fst A))) C) = []) as ->; [| |apply incl_refl].
  { induction C as [|[n l] C IH]; intros HC; [reflexivity|]. assert (incl C B) as HC' by (intros y Hy; apply HC; now right). cbn [filter fst].
    destruct (memb n (map fst A)) eqn:M; cbn [negb]; [now apply IH|]. cbn [filter fst]. destruct (P n) eqn:EP; [|now apply IH].
    assert (In n (map fst A)) as Q; [|apply memb_In in Q; congruence]. apply K; auto. apply (in_map fst B (n, l)). apply HC. now left. }
  rewrite app_nil_r.
  assert (forall n l, In (n, l) A -> P n = true -> dget B n = Some l) as G.
  { intros n l H1 H2. apply (In_dget A n l N) in H1. pose proof (dget_keep P A n) as Q. pose proof (dget_keep P B n) as Q'. rewrite H2 in *. congruence. }
  assert (forall C, incl C A -> filter (fun q : string * list label => P (fst q)) (map (fun p => match dget B (fst p) with Some l2 => (fst p, inter_labels (snd p) l2) | None => p end) C) = keep P C) as ->; [|reflexivity|apply incl_refl].
  induction C as [|[n l] C IH]; intros HC; [reflexivity|]. assert (incl C A) as HC' by (intros y Hy; apply HC; now right). cbn [map fst snd].
  unfold keep. cbn [filter fst]. destruct (P n) eqn:EP.
  - rewrite (G n l) by (auto; apply HC; now left). cbn [filter fst]. rewrite EP, inter_self. f_equal. now apply IH.
  - destruct (dget B n); cbn [filter fst]; rewrite EP; now apply IH.
Qed.
Lemma merge_dims_nil A : merge_dims inter_labels A [] = A.
Proof. unfold merge_dims. cbn [filter]. rewrite app_nil_r. cbn [dget]. apply map_id. Qed.
Lemma merge_aux_nil ds x : merge_aux ds x [] = x.
Proof. unfold merge_aux. cbn [filter]. rewrite app_nil_r. cbn [dget]. induction x as [|q x IH]; [reflexivity|]. cbn [filter]. now f_equal. Qed.
Lemma keep_ext P Q (ds : dimlist) : (forall n, In n (map fst ds) -> P n = Q n) -> keep P ds = keep Q ds.
Proof. unfold keep. induction ds as [|[n l] ds IH]; intros H; [reflexivity|]. cbn [filter fst]. rewrite (H n) by (now left). rewrite IH; [reflexivity|]. intros m Hm. apply H. now right. Qed.

Definition not_varying (d : string) (x : dict string coord) : Prop :=
  NoDup (keys x) /\ forall n c, In (n, c) x -> ~ In d (c_dims c) /\ forall e l, c_get c (upd e d l) = c_get c e.
Lemma aux_without_static D x : (forall n c, In (n, c) x -> forall d, In d D -> ~ In d (c_dims c)) -> aux_without D x = x.
Proof.
  intros H. unfold aux_without. induction x as [|[n c] x IH]; [reflexivity|]. cbn [filter snd].
  assert (existsb (fun d => memb d D) (c_dims c) = false) as ->.
  { apply Bool.not_true_is_false. intros E. apply existsb_exists in E. destruct E as (d & H1 & H2). apply memb_In in H2. apply (H n c (or_introl eq_refl) d H2 H1). }
  cbn [negb]. f_equal. apply IH. intros m c' Hm. apply (H m c'). now right.
Qed.
Lemma keep_two d d2 ds : ~ In d2 (map fst ds) -> keep (fun n => negb (memb n [d; d2])) ds = keep (fun n => negb (eqb n d)) ds.
Proof.
  intros H. apply keep_ext. intros n Hn. f_equal. unfold memb. cbn [existsb]. unfold eqb. destruct (eq_dec n d2) as [->|_]; [contradiction|]. now rewrite !orb_false_r.
Qed.
Lemma keep_one d ds : keep (fun n => negb (memb n [d])) ds = keep (fun n => negb (eqb n d)) ds.
Proof. apply keep_ext. intros n _. f_equal. unfold memb. cbn [existsb]. now rewrite orb_false_r. Qed.
(** Merging with a renamed copy keeps the coordinates that do not vary along the dimension. *)
Lemma rename_static d d2 x : not_varying d x ->
  map (fun c => (fst c, mkCoord (map (fun n => if eqb n d then d2 else n) (c_dims (snd c))) (fun e => c_get (snd c) (upd e d (e d2))))) x = x.
Proof.
  intros [_ S]. induction x as [|[n [cd cg]] x IH]; [reflexivity|]. cbn [map]. rewrite IH by (intros m c Hm; apply (S m c); now right). f_equal.
  cbn [fst snd c_dims c_get]. f_equal. destruct (S n _ (or_introl eq_refl)) as [S1 S2]. cbn [c_dims c_get] in *. f_equal.
  - clear - S1. induction cd as [|m cd IH]; [reflexivity|]. cbn [map]. simpl in S1. rewrite IH by tauto. unfold eqb. destruct (eq_dec m d) as [->|]; [tauto|reflexivity].
  - apply functional_extensionality. intros e. apply S2.
Qed.
Lemma merge_aux_rename ds d d2 x : not_varying d x ->
  merge_aux ds x (map (fun c => (fst c, mkCoord (map (fun n => if eqb n d then d2 else n) (c_dims (snd c))) (fun e => c_get (snd c) (upd e d (e d2))))) x) = x.
Proof. intros H. rewrite rename_static by exact H. apply merge_aux_self, H. Qed.
Lemma rename_shape d d2 a r : rename_dim d d2 a = Ok r -> not_varying d (aux a) -> 
  keep (fun n => negb (memb n [d; d2])) (dims r) = keep (fun n => negb (memb n [d; d2])) (dims a) /\
  (forall ds, merge_aux ds (aux a) (aux r) = aux a) /\ aux r = aux a.
Proof.
  unfold rename_dim. destruct (_ || _ || _) eqn:E; [discriminate|]. intros [= <-] S. cbn [dims aux]. split; [|split].
  - assert (forall n, memb n [d; d2] = true <-> n = d \/ n = d2) as K by (intros n; rewrite memb_In; simpl; intuition).
    unfold keep. induction (dims a) as [|[n l] ds IH]; [reflexivity|]. cbn [map filter fst snd]. destruct (string_dec n d) as [->|Hn].
    + assert (eqb d d = true) as -> by (unfold eqb; destruct (eq_dec d d); congruence). rewrite (proj2 (K d2)), (proj2 (K d)) by auto. cbn [negb]. exact IH.
    + assert (eqb n d = false) as -> by (unfold eqb; destruct (eq_dec n d); congruence). destruct (memb n [d; d2]); cbn [negb]; [exact IH|]. f_equal. exact IH.
  - intros ds. now apply merge_aux_rename.
  - now apply rename_static.
Qed.

Lemma wf_rank argsort d a : wf a -> In d (dnames a) -> wf (rank_da argsort d a).
Proof.
  intros W Hd. split; [exact (proj1 W)|]. split; [exact (proj1 (proj2 W))|]. intros e1 e2 He. unfold rank_da. cbn [get]. do 2 f_equal. f_equal.
  - apply map_ext. intros l. apply (proj2 (proj2 W)). intros n Hn. destruct (string_dec n d) as [->|Hnd]; [now rewrite !upd_same|]. rewrite !upd_other by exact Hnd. now apply He.
  - now rewrite (He d Hd).
Qed.
Lemma wf_scalar v : wf (scalar v).
Proof. split; [constructor|]. split; [intros d ls []|reflexivity]. Qed.

Definition fixed (d : string) (a : da) : Prop := not_varying d (aux a) /\ forall n c, In (n, c) (aux a) -> incl (c_dims c) (dnames a).

Lemma spread_shape argsort d us fair which pv tv r : crps_spread_var argsort d us fair which false pv tv = Ok r ->
  let a := if string_dec which "predictions" then pv else tv in
  wf a -> fixed d a -> dims r = keep (fun n => negb (eqb n d)) (dims a) /\ aux r = aux a /\ wf r.
Proof.
  intros H a W [NV HI]. assert (exists M, (if us then spread_sorted argsort d fair a M else spread_pairs d fair false a (scalar (Fin (INR M)))) = Ok r) as (M & Hr).
  { unfold crps_spread_var in H. unfold a, eqb in *. destruct (string_dec which "predictions"), (eq_dec which "predictions"); try contradiction; [|destruct (eq_dec which "targets"); [|discriminate]]; cbn [bind] in H;
    (destruct (size_of d _) as [M|]; [|discriminate]); cbn [bind] in H; (destruct (Nat.ltb M 2); [discriminate|]); exists M; destruct us; exact H. }
  clear H. clearbody a. clear pv tv.
  assert (forall D, (forall m, In m D -> m = d \/ ~ In m (dnames a)) -> aux_without D (aux a) = aux a) as AW.
  { intros D HD. apply aux_without_static. intros m c Hm d' Hd' Hc. destruct (HD d' Hd') as [->|Hn]; [now apply (proj1 (proj2 NV m c Hm))|]. apply Hn. now apply (HI m c Hm). }
  destruct us.
  - unfold spread_sorted in Hr. destruct (reduce _ _ _) as [q|] eqn:E; [|discriminate]. cbn [bind] in Hr. apply Ok_inj in Hr. subst r.
    pose proof E as E'. apply reduce_Ok in E. destruct E as (E1 & E2 & _ & E4).
    assert (In d (dnames a)) as Hd. { specialize (E4 d (or_introl eq_refl)). apply names_merge in E4. destruct E4; auto. }
    cbn [da_map dims aux]. rewrite E1, E2. cbn [binop da_map rank_da dims aux]. rewrite merge_self by apply W. rewrite merge_aux_self by apply NV.
    split; [apply keep_one|]. split; [apply AW; intros m [<-|[]]; auto|]. apply wf_map. eapply wf_reduce; [|exact E']. apply wf_binop; auto. now apply wf_map, wf_rank.
  - unfold spread_pairs in Hr. destruct (eqb d "ensemble_dim_2"); [discriminate|]. destruct (rename_dim d "ensemble_dim_2" a) as [a2|] eqn:ER; [|discriminate]. cbn [bind] in Hr.
    destruct (reduce _ _ _) as [q|] eqn:E; [|discriminate]. cbn [bind] in Hr. apply Ok_inj in Hr. subst r. pose proof E as E'. apply reduce_Ok in E. destruct E as (E1 & E2 & _ & _).
    destruct (rename_shape _ _ _ _ ER NV) as (S1 & S2 & _). apply rename_Ok in ER; [|exact W]. destruct ER as (R1 & R2 & R3 & _).
    cbn [binop da_map dims aux scalar]. rewrite !merge_dims_nil. rewrite ?merge_dims_nil, ?merge_aux_nil. rewrite E1, E2. cbn [binop da_map dims aux].
    rewrite keep_merge by (auto; apply W). rewrite S2, keep_two by exact R2. split; [reflexivity|]. split; [apply AW; intros m [<-|[<-|[]]]; auto|].
    apply (wf_binop vdiv q (binop vmul (scalar (Fin (INR M))) (da_map (fun x => vsub x (Fin (fair1 fair))) (scalar (Fin (INR M)))))).
    + eapply wf_reduce; [|exact E']. apply wf_map, wf_binop; assumption.
    + apply wf_binop; [apply wf_scalar|]. apply wf_map, wf_scalar.
Qed.
Lemma skill_shape d s pv tv r : crps_skill_var d s pv tv = Ok r -> wf pv -> wf tv -> ensemble_pair d pv tv ->
  (In d (dnames tv) -> ~ In (d ++ "_PSEUDO_FOR_TARGETS")%string (dnames pv)) -> dims r = keep (fun n => negb (eqb n d)) (dims pv) /\ aux r = aux pv /\ wf r.
Proof.
  intros H Wp Wt [E1 E2 E3 E4] Hps. unfold crps_skill_var in H.
  assert (forall D, (forall m, In m D -> m = d \/ ~ In m (dnames pv)) -> aux_without D (aux pv) = aux pv) as AW.
  { intros D HD. apply aux_without_static. intros m c Hm d' Hd' Hc. destruct (E4 m c Hm) as (K1 & K2 & _). destruct (HD d' Hd') as [->|Hn]; [contradiction|]. apply Hn. now apply K2. }
  destruct (memb d (dnames tv)) eqn:M.
  - apply memb_In in M. specialize (Hps M). destruct (rename_dim _ _ tv) as [t2|] eqn:ER; [|discriminate]. cbn [bind] in H. pose proof H as H'. apply reduce_Ok in H. destruct H as (D1 & D2 & _ & _).
    assert (not_varying d (aux tv)) as NV. { split; rewrite E2; auto. intros n c Hn. destruct (E4 n c Hn) as (? & _ & ?). auto. }
    destruct (rename_shape _ _ _ _ ER NV) as (S1 & S2 & S3). apply rename_Ok in ER; [|exact Wt]. destruct ER as (R1 & R2 & R3 & _).
    rewrite D1, D2. cbn [binop da_map dims aux]. set (d2 := (d ++ _)%string) in *.
    assert (forall ds, keep (fun n => negb (memb n [d; d2])) (keep (fun n => negb (eqb n d)) ds) = keep (fun n => negb (memb n [d; d2])) ds) as KK.
    { intros ds. rewrite keep_keep. apply keep_ext. intros n _. unfold memb. cbn [existsb]. unfold eqb. destruct (eq_dec n d), (eq_dec n d2); reflexivity. }
    rewrite keep_merge; [|apply Wp|rewrite S1, <- (KK (dims tv)), E1, KK; reflexivity]. rewrite keep_two by exact Hps.
    split; [reflexivity|]. rewrite S3, E2, merge_aux_self by exact E3. split; [apply AW; intros m [<-|[<-|[]]]; auto|].
    eapply wf_reduce; [|exact H']. apply wf_map, wf_binop; assumption.
  - pose proof H as H'. apply reduce_Ok in H. destruct H as (D1 & D2 & _ & _). rewrite D1, D2. cbn [binop da_map dims aux]. rewrite !keep_one, keep_merge by (auto; apply Wp).
    split; [reflexivity|]. rewrite E2, merge_aux_self by exact E3. split; [apply AW; intros m [<-|[]]; auto|]. eapply wf_reduce; [|exact H']. apply wf_map, wf_binop; assumption.
Qed.
