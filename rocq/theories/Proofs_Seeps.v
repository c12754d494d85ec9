(** Proofs about SEEPS (C26). *)
From Coq Require Import String List Bool Reals Lra Permutation ZArith FunctionalExtensionality.
Import ListNotations.
From Verif Require Import Prelude Values Model_XArray Spec_XArray Proofs_XArray Model_MetricsBase Model_Aggregation
  Spec_Aggregator Proofs_Aggregator Model_Calendar Model_Deterministic Proofs_Deterministic Model_Categorical Spec_Categorical Proofs_Categorical.
Local Open Scope R_scope.
Local Open Scope string_scope.
Local Open Scope list_scope.

Lemma point_merge d1 d2 e : point_of d1 e -> point_of d2 e -> point_of (merge_dims inter_labels d1 d2) e.
Proof.
  intros H1 H2 d ls H. unfold merge_dims in H. apply in_app_iff in H. destruct H as [H|H].
  - apply in_map_iff in H. destruct H as ([k l] & E & H). cbn [fst snd] in E. destruct (dget d2 k) as [l2|] eqn:Ek; injection E as <- <-; [|now apply H1].
    unfold inter_labels. apply filter_In. split; [now apply H1|]. apply memb_In. apply dget_In in Ek. eapply H2; eauto.
  - apply filter_In in H. now apply H2.
Qed.
Lemma align_names fill arrs a : In a (align_outer [] fill arrs) -> exists a0, In a0 arrs /\ dnames a = dnames a0.
Proof.
  intros H. unfold align_outer in H. apply in_map_iff in H. destruct H as (a0 & <- & H). exists a0. split; auto.
  unfold dnames. cbn [dims]. now rewrite map_map.
Qed.
Lemma align_wf fill arrs : (forall a, In a arrs -> wf a) -> forall a, In a (align_outer [] fill arrs) -> wf a.
Proof.
  intros Hwf a H. unfold align_outer in H. apply in_map_iff in H. destruct H as (a0 & <- & H). destruct (Hwf a0 H) as (W1 & W2 & W3).
  split; [|split].
  - unfold dnames. cbn [dims]. now rewrite map_map.
  - intros d ls Hd. cbn [dims] in Hd. apply in_map_iff in Hd. destruct Hd as ([k l] & [= <- <-] & Hd). apply NoDup_labels_joint; [constructor|].
    intros ds d' Hds. apply in_map_iff in Hds. destruct Hds as (b & <- & Hb). apply wf_labels_NoDup. auto.
  - intros e e' He. cbn [get]. unfold dnames in He. cbn [dims] in He. rewrite map_map in He. cbn [fst] in He. rewrite !keep_all.
    rewrite (in_box_local (dims a0) e e') by exact He. now rewrite (W3 e e' He).
Qed.
Lemma wf_concat_new d parts : NoDup (map fst parts) -> (forall q, In q parts -> wf (snd q)) -> (forall q, In q parts -> ~ In d (dnames (snd q))) ->
  wf (concat_new d parts) /\
  (forall n, In n (dnames (concat_new d parts)) <-> n = d \/ exists q, In q parts /\ In n (dnames (snd q))).
Proof.
  intros Hl Hw Hd.
  assert (forall a, In a (map snd parts) -> wf a) as Hw' by (intros a Ha; apply in_map_iff in Ha; destruct Ha as (q & <- & Hq); auto).
  set (al := align_outer [] NaN (map snd parts)).
  assert (forall a, In a al -> wf a) as Wal by now apply align_wf.
  assert (forall a, In a al -> exists q, In q parts /\ dnames a = dnames (snd q)) as Nal.
  { intros a Ha. apply align_names in Ha. destruct Ha as (a0 & Ha0 & E). apply in_map_iff in Ha0. destruct Ha0 as (q & <- & Hq). eauto. }
  assert (forall n, In n (map fst (joint (map dims al) [])) <-> exists q, In q parts /\ In n (dnames (snd q))) as Hnames.
  { intros n. rewrite names_joint. split.
    - intros [[]|(ds & Hds & Hn)]. apply in_map_iff in Hds. destruct Hds as (a & <- & Ha). destruct (Nal a Ha) as (q & Hq & E). exists q. split; auto. rewrite <- E. exact Hn.
    - intros (q & Hq & Hn). right.
      assert (exists a, In a al /\ dnames a = dnames (snd q)) as (a & Ha & E).
      { eexists. split; [unfold al, align_outer; apply in_map; apply in_map; exact Hq|]. unfold dnames. cbn [dims]. now rewrite map_map. }
      exists (dims a). split; [now apply in_map|]. change (In n (dnames a)). now rewrite E. }
  assert (forall n, In n (dnames (concat_new d parts)) <-> n = d \/ exists q, In q parts /\ In n (dnames (snd q))) as HN.
  { intros n. unfold concat_new, dnames. cbn [dims map fst]. fold al. change (fold_left (merge_dims union_labels) (map dims al) []) with (joint (map dims al) []).
    cbn [In]. rewrite Hnames. split; intros [H|H]; auto. }
  split; [|exact HN]. split; [|split].
  - unfold concat_new, dnames. cbn [dims map fst]. fold al. change (fold_left (merge_dims union_labels) (map dims al) []) with (joint (map dims al) []).
    constructor.
    + rewrite Hnames. intros (q & Hq & Hn). now apply (Hd q).
    + apply NoDup_joint; [constructor|]. intros ds Hds. apply in_map_iff in Hds. destruct Hds as (a & <- & Ha). apply (Wal a Ha).
  - intros n ls Hin. unfold concat_new in Hin. cbn [dims] in Hin. fold al in Hin. change (fold_left (merge_dims union_labels) (map dims al) []) with (joint (map dims al) []) in Hin.
    destruct Hin as [[= <- <-]|Hin]; [exact Hl|].
    assert (NoDup (map fst (joint (map dims al) []))) as HJ.
    { apply NoDup_joint; [constructor|]. intros ds Hds. apply in_map_iff in Hds. destruct Hds as (a & <- & Ha). apply (Wal a Ha). }
    pose proof (NoDup_labels_joint (map dims al) [] (fun _ => NoDup_nil _)) as K.
    specialize (K ltac:(intros ds d' Hds; apply in_map_iff in Hds; destruct Hds as (a & <- & Ha); now apply wf_labels_NoDup, Wal) n).
    unfold labels_of in K. rewrite (In_dget _ _ _ HJ Hin) in K. exact K.
  - intros e e' He. unfold concat_new. cbn [get]. fold al. assert (e d = e' d) as -> by (apply He; apply HN; auto).
    destruct (dget (combine (map fst parts) al) (e' d)) as [a|] eqn:E; [|reflexivity].
    apply dget_In in E. apply in_combine_r in E. destruct (Wal a E) as (_ & _ & W3). apply W3. intros n Hn. apply He. apply HN. right.
    destruct (Nal a E) as (q & Hq & Eq). exists q. split; auto. now rewrite <- Eq.
Qed.

Lemma concat_new_get3 d l1 l2 l3 (a b c : da) e :
  l1 <> l2 -> l1 <> l3 -> l2 <> l3 -> point_of (dims a) e -> point_of (dims b) e -> point_of (dims c) e ->
  get (concat_new d [(l1, a); (l2, b); (l3, c)]) e =
    if eq_dec (e d) l1 then get a e else if eq_dec (e d) l2 then get b e else if eq_dec (e d) l3 then get c e else NaN.
Proof.
  intros N1 N2 N3 Ha Hb Hc. unfold concat_new. cbn [get map fst snd align_outer combine dget].
  repeat match goal with |- context [match (if ?q then _ else _) with _ => _ end] => destruct q end;
  cbn [get]; rewrite ?keep_all; rewrite ?(proj2 (in_box_iff (dims a) e) Ha), ?(proj2 (in_box_iff (dims b) e) Hb), ?(proj2 (in_box_iff (dims c) e) Hc); reflexivity.
Qed.

Lemma seeps_cat_wf d wet thr a : wf a -> wf wet -> ~ In d (dnames a) -> ~ In d (dnames wet) ->
  wf (seeps_cat d wet thr a) /\ (forall n, In n (dnames (seeps_cat d wet thr a)) <-> n = d \/ In n (dnames a) \/ In n (dnames wet)).
Proof.
  intros Wa Ww Da Dw. unfold seeps_cat, cats. cbn [combine].
  set (light := binop (fun x y => b2v (vtruthy x && vtruthy y)) (da_map (fun x => b2v (vltb (Fin (thr / 1000)) x)) a) (binop (fun x w => b2v (vltb x w)) a wet)).
  set (heavy := binop (fun x w => b2v (vleb w x)) a wet).
  set (dry := da_map (fun x => b2v (vleb x (Fin (thr / 1000)))) a).
  assert (wf dry) as W1 by now apply wf_map. assert (wf light) as W2 by (apply wf_binop; [now apply wf_map|now apply wf_binop]). assert (wf heavy) as W3 by now apply wf_binop.
  assert (forall n, In n (dnames heavy) <-> In n (dnames a) \/ In n (dnames wet)) as N3.
  { intros n. unfold heavy, dnames. cbn [binop dims]. apply names_merge. }
  assert (forall n, In n (dnames light) <-> In n (dnames a) \/ In n (dnames wet)) as N2.
  { intros n. unfold light. unfold dnames at 1. cbn [binop dims da_map]. rewrite names_merge. fold (dnames a). rewrite names_merge. fold (dnames a) (dnames wet). tauto. }
  destruct (wf_concat_new d [(LS "dry", dry); (LS "light", light); (LS "heavy", heavy)]) as [W4 N4].
  - repeat constructor; simpl; intuition discriminate.
  - intros q [<-|[<-|[<-|[]]]]; assumption.
  - intros q [<-|[<-|[<-|[]]]]; cbn [snd]; [exact Da|rewrite N2; tauto|rewrite N3; tauto].
  - split.
    + apply wf_binop; [exact W4|]. now apply wf_map.
    + intros n. unfold da_where_nan. unfold dnames at 1. cbn [binop dims]. rewrite names_merge. fold (dnames (concat_new d [(LS "dry", dry); (LS "light", light); (LS "heavy", heavy)])).
      change (map fst (dims (notnull a))) with (dnames a). rewrite N4. split.
      * intros [[H|(q & [<-|[<-|[<-|[]]]] & H)]|H]; cbn [snd] in *; [now left|right; left; exact H|apply N2 in H; tauto|apply N3 in H; tauto|tauto].
      * intros [H|[H|H]]; auto. left. right. exists (LS "heavy", heavy). split; [simpl; auto|]. apply N3. auto.
Qed.

Definition cat_flag (thr : R) (v w : val) (l : label) : val :=
  if eq_dec l (LS "dry") then b2v (vleb v (Fin (thr / 1000)))
  else if eq_dec l (LS "light") then b2v (vltb (Fin (thr / 1000)) v && vltb v w)
  else if eq_dec l (LS "heavy") then b2v (vleb w v) else NaN.
Lemma seeps_cat_get d wet thr a e : point_of (dims a) e -> point_of (dims wet) e ->
  get (seeps_cat d wet thr a) e = if isnan (get a e) then NaN else cat_flag thr (get a e) (get wet e) (e d).
Proof.
  intros Ha Hw. unfold seeps_cat, cats. cbn [combine]. unfold da_where_nan, notnull. cbn [binop get da_map]. rewrite vtruthy_b2v.
  destruct (isnan (get a e)); [reflexivity|]. cbn [negb].
  rewrite concat_new_get3; try discriminate.
  - cbn [binop get da_map]. rewrite !vtruthy_b2v. reflexivity.
  - exact Ha.
  - cbn [binop dims da_map]. apply point_merge; [exact Ha|now apply point_merge].
  - cbn [binop dims]. now apply point_merge.
Qed.

Lemma scoring_wf p1 : wf p1 -> ~ In "truth_cat" (dnames p1) -> ~ In "forecast_cat" (dnames p1) ->
  wf (scoring_matrix p1) /\ (forall n, In n (dnames (scoring_matrix p1)) <-> n = "forecast_cat" \/ n = "truth_cat" \/ In n (dnames p1)).
Proof.
  intros W T F. unfold scoring_matrix, cats, times. cbn [combine].
  assert (forall a b c : val -> val, wf (concat_new "truth_cat" [(LS "dry", da_map a p1); (LS "light", da_map b p1); (LS "heavy", da_map c p1)]) /\
    forall n, In n (dnames (concat_new "truth_cat" [(LS "dry", da_map a p1); (LS "light", da_map b p1); (LS "heavy", da_map c p1)])) <-> n = "truth_cat" \/ In n (dnames p1)) as K.
  { intros a b c. destruct (wf_concat_new "truth_cat" [(LS "dry", da_map a p1); (LS "light", da_map b p1); (LS "heavy", da_map c p1)]) as [W4 N4].
    - repeat constructor; simpl; intuition discriminate.
    - intros q [<-|[<-|[<-|[]]]]; now apply wf_map.
    - intros q [<-|[<-|[<-|[]]]]; exact T.
    - split; [exact W4|]. intros n. rewrite N4. split.
      + intros [H|(q & [<-|[<-|[<-|[]]]] & H)]; auto; right; exact H.
      + intros [H|H]; auto. right. exists (LS "dry", da_map a p1). split; [simpl; auto|exact H]. }
  match goal with |- context [concat_new "forecast_cat" [(_, ?r1); (_, ?r2); (_, ?r3)]] => set (R1 := r1); set (R2 := r2); set (R3 := r3) end.
  assert (wf R1 /\ forall n, In n (dnames R1) <-> n = "truth_cat" \/ In n (dnames p1)) as [W1 N1] by apply K.
  assert (wf R2 /\ forall n, In n (dnames R2) <-> n = "truth_cat" \/ In n (dnames p1)) as [W2 N2] by apply K.
  assert (wf R3 /\ forall n, In n (dnames R3) <-> n = "truth_cat" \/ In n (dnames p1)) as [W3 N3] by apply K.
  destruct (wf_concat_new "forecast_cat" [(LS "dry", R1); (LS "light", R2); (LS "heavy", R3)]) as [W4 N4].
  - repeat constructor; simpl; intuition discriminate.
  - intros q [<-|[<-|[<-|[]]]]; assumption.
  - intros q [<-|[<-|[<-|[]]]]; cbn [snd]; rewrite ?N1, ?N2, ?N3; intros [H|H]; try discriminate; contradiction.
  - split; [now apply wf_map|]. intros n. change (In n (dnames (concat_new "forecast_cat" [(LS "dry", R1); (LS "light", R2); (LS "heavy", R3)])) <-> n = "forecast_cat" \/ n = "truth_cat" \/ In n (dnames p1)).
    rewrite N4. split.
    + intros [H|(q & [<-|[<-|[<-|[]]]] & H)]; auto; cbn [snd] in H; [apply N1 in H|apply N2 in H|apply N3 in H]; tauto.
    + intros [H|H]; auto. right. exists (LS "dry", R1). split; [simpl; auto|]. now apply N1.
Qed.

Lemma point_concat3 d l1 l2 l3 (a b c : da) e : In (e d) [l1; l2; l3] -> point_of (dims a) e -> dims b = dims a -> dims c = dims a -> wf a ->
  point_of (dims (concat_new d [(l1, a); (l2, b); (l3, c)])) e.
Proof.
  intros Hd Ha Eb Ec W n ls Hin. unfold concat_new in Hin. cbn [dims] in Hin. destruct Hin as [[= <- <-]|Hin]; [exact Hd|].
  change (In (n, ls) (joint (map dims (align_outer [] NaN [a; b; c])) [])) in Hin.
  assert (forall x, In x (align_outer [] NaN [a; b; c]) -> exists x0, In x0 [a; b; c] /\ dims x = map (fun q => (fst q, labels_of (joint (map dims [a; b; c]) []) (fst q))) (dims x0)) as Hal.
  { intros x Hx. unfold align_outer in Hx. apply in_map_iff in Hx. destruct Hx as (x0 & <- & Hx). exists x0. split; auto. }
  assert (NoDup (map fst (joint (map dims (align_outer [] NaN [a; b; c])) []))) as HJ.
  { apply NoDup_joint; [constructor|]. intros ds Hds. apply in_map_iff in Hds. destruct Hds as (x & <- & Hx). destruct (Hal x Hx) as (x0 & Hx0 & ->). rewrite map_map. cbn [fst].
    destruct Hx0 as [<-|[<-|[<-|[]]]]; rewrite ?Eb, ?Ec; apply W. }
  assert (In n (map fst (dims a))) as Hna.
  { assert (In n (map fst (joint (map dims (align_outer [] NaN [a; b; c])) []))) as H by (apply in_map_iff; exists (n, ls); auto).
    apply names_joint in H. destruct H as [[]|(ds & Hds & H)]. apply in_map_iff in Hds. destruct Hds as (x & <- & Hx). destruct (Hal x Hx) as (x0 & Hx0 & E). rewrite E, map_map in H. cbn [fst] in H.
    destruct Hx0 as [<-|[<-|[<-|[]]]]; rewrite ?Eb, ?Ec in H; exact H. }
  assert (labels_of (joint (map dims (align_outer [] NaN [a; b; c])) []) n = ls) as <- by (unfold labels_of; now rewrite (In_dget _ _ _ HJ Hin)).
  apply labels_joint. right. eexists. split; [apply in_map; left; reflexivity|]. cbn [dims].
  unfold labels_of at 1. 
  change (map (fun p : string * list label => (fst p, if memb (fst p) [] then snd p else labels_of (fold_left (merge_dims union_labels) (map dims [a; b; c]) []) (fst p))) (dims a)) with
      (map (fun p : string * list label => (fst p, (fun d _ => labels_of (joint (map dims [a; b; c]) []) d) (fst p) (snd p))) (dims a)).
  rewrite dget_map_snd. apply in_map_iff in Hna. destruct Hna as ([n' l'] & E & Hna). cbn [fst] in E. subst n'.
  rewrite (In_dget (dims a) n l' (proj1 W) Hna). apply labels_joint. right. exists (dims a). split; [left; reflexivity|].
  unfold labels_of. rewrite (In_dget (dims a) n l' (proj1 W) Hna). now apply (Ha n l').
Qed.

Lemma concat_labels_new d parts x : labels_of (dims (concat_new d parts)) d = map fst parts -> In x (map fst parts) <-> In x (labels_of (dims (concat_new d parts)) d).
Proof. intros ->. tauto. Qed.
Lemma concat_labels_self d parts : labels_of (dims (concat_new d parts)) d = map fst parts.
Proof. unfold concat_new, labels_of. cbn [dims dget]. destruct (eq_dec d d); [reflexivity|contradiction]. Qed.
Lemma concat_labels_other d parts n x : n <> d ->
  In x (labels_of (dims (concat_new d parts)) n) <-> exists q, In q parts /\ In x (labels_of (dims (snd q)) n).
Proof.
  intros Hn. unfold concat_new, labels_of at 1. cbn [dims dget]. destruct (eq_dec n d); [contradiction|].
  change (In x (labels_of (joint (map dims (align_outer [] NaN (map snd parts))) []) n) <-> exists q, In q parts /\ In x (labels_of (dims (snd q)) n)).
  rewrite labels_joint. set (J := joint (map dims (map snd parts)) []).
  assert (In x (labels_of J n) <-> exists q, In q parts /\ In x (labels_of (dims (snd q)) n)) as HJ.
  { unfold J. rewrite labels_joint. split.
    - intros [[]|(ds & Hds & Hx)]. rewrite map_map in Hds. apply in_map_iff in Hds. destruct Hds as (q & <- & Hq). eauto.
    - intros (q & Hq & Hx). right. exists (dims (snd q)). split; auto. rewrite map_map. apply in_map_iff. eauto. }
  assert (forall q : label * da, dget (map (fun p : string * list label => (fst p, if memb (fst p) [] then snd p else labels_of (fold_left (merge_dims union_labels) (map dims (map snd parts)) []) (fst p))) (dims (snd q))) n =
    match dget (dims (snd q)) n with Some _ => Some (labels_of J n) | None => None end) as HD.
  { intros q. change (map (fun p : string * list label => (fst p, if memb (fst p) [] then snd p else labels_of (fold_left (merge_dims union_labels) (map dims (map snd parts)) []) (fst p))) (dims (snd q))) with
      (map (fun p : string * list label => (fst p, (fun d _ => labels_of J d) (fst p) (snd p))) (dims (snd q))). apply dget_map_snd. }
  split.
  - intros [[]|(ds & Hds & Hx)]. apply in_map_iff in Hds. destruct Hds as (a & <- & Ha). unfold align_outer in Ha. apply in_map_iff in Ha. destruct Ha as (a0 & <- & Ha0).
    apply in_map_iff in Ha0. destruct Ha0 as (q & <- & Hq). unfold labels_of at 1 in Hx. cbn [dims] in Hx. rewrite HD in Hx. destruct (@dget string (list label) _ (dims (snd q)) n); [now apply HJ|destruct Hx].
  - intros (q & Hq & Hx). right. eexists. split; [unfold align_outer; apply in_map, in_map, in_map, Hq|]. unfold labels_of at 1. cbn [dims]. rewrite HD.
    destruct (@dget string (list label) _ (dims (snd q)) n) as [l|] eqn:E; [|unfold labels_of in Hx; rewrite E in Hx; destruct Hx]. apply HJ. eauto.
Qed.
Lemma labels_of_absent (ds : dimlist) n : ~ In n (map fst ds) -> dget ds n = None.
Proof. intros H. now apply dget_None. Qed.

Definition cat_env (e : env) (f o : label) : env := upd (upd e "forecast_cat" f) "truth_cat" o.
Definition cat_pairs : list (label * label) := flat_map (fun f => map (fun o => (f, o)) cats) cats.

Lemma seeps_points out m e :
  wf out -> wf m ->
  In "forecast_cat" (dnames out) -> In "truth_cat" (dnames out) -> In "forecast_cat" (dnames m) -> In "truth_cat" (dnames m) ->
  (forall x, In x (labels_of (dims out) "forecast_cat") <-> In x cats) -> (forall x, In x (labels_of (dims out) "truth_cat") <-> In x cats) ->
  (forall x, In x (labels_of (dims m) "forecast_cat") <-> In x cats) -> (forall x, In x (labels_of (dims m) "truth_cat") <-> In x cats) ->
  Permutation (dot_points ["forecast_cat"; "truth_cat"] [out; m] e) (map (fun fo => cat_env e (fst fo) (snd fo)) cat_pairs).
Proof.
  intros Wo Wm I1 I2 I3 I4 L1 L2 L3 L4.
  destruct (dot_points_spec ["forecast_cat"; "truth_cat"] [out; m] e) as [ND HP]; [intros a [<-|[<-|[]]]; assumption|].
  apply NoDup_Permutation; [exact ND| |].
  - assert (forall l, NoDup l -> (forall fo, In fo l -> True) -> NoDup (map (fun fo => cat_env e (fst fo) (snd fo)) l)) as K.
    { intros l Hl _. apply FinFun.Injective_map_NoDup; [|exact Hl]. intros [f o] [f' o'] E.
      assert (cat_env e f o "forecast_cat" = cat_env e f' o' "forecast_cat") as E1 by (cbn [fst snd] in E; now rewrite E).
      assert (cat_env e f o "truth_cat" = cat_env e f' o' "truth_cat") as E2 by (cbn [fst snd] in E; now rewrite E).
      unfold cat_env, upd in E1, E2. simpl in E1, E2. congruence. }
    apply K; auto. unfold cat_pairs, cats. simpl. repeat constructor; simpl; intuition discriminate.
  - intros e'. rewrite HP. split.
    + intros [Ho Hl]. apply in_map_iff. exists (e' "forecast_cat", e' "truth_cat"). split.
      * apply functional_extensionality. intros n. unfold cat_env, upd. cbn [fst snd]. destruct (string_dec n "truth_cat") as [->|N1]; [reflexivity|].
        destruct (string_dec n "forecast_cat") as [->|N2]; [reflexivity|]. symmetry. apply Ho. intros [[H|[H|[]]] _]; congruence.
      * unfold cat_pairs. apply in_flat_map. exists (e' "forecast_cat"). split; [apply L1; apply (Hl out); simpl; auto|]. apply in_map. apply L2; apply (Hl out); simpl; auto.
    + intros H. apply in_map_iff in H. destruct H as ([f o] & <- & H). unfold cat_pairs in H. apply in_flat_map in H. destruct H as (f' & Hf & H).
      apply in_map_iff in H. destruct H as (o' & [= -> ->] & Hoo). cbn [fst snd]. split.
      * intros n Hn. unfold cat_env, upd. destruct (string_dec n "truth_cat") as [->|N1]; [exfalso; apply Hn; split; [simpl; auto|exists out; simpl; auto]|].
        destruct (string_dec n "forecast_cat") as [->|N2]; [exfalso; apply Hn; split; [simpl; auto|exists out; simpl; auto]|]. reflexivity.
      * intros a n [<-|[<-|[]]] [<-|[<-|[]]] _; unfold cat_env, upd; simpl; [now apply L1|now apply L2|now apply L3|now apply L4].
Qed.

Lemma vleb_Fin a b : vleb (Fin a) (Fin b) = Rleb a b.
Proof.
  unfold vleb. cbn [vltb veqb]. destruct (Rleb a b) eqn:E.
  - apply Rleb_true in E. destruct (Rltb a b) eqn:E1; [reflexivity|]. apply Rltb_false in E1. apply Reqb_true. lra.
  - apply Rleb_false in E. apply orb_false_iff. split; [apply Rltb_false; lra|]. destruct (Reqb a b) eqn:E1; [|reflexivity]. apply Reqb_true in E1. lra.
Qed.
Definition cat_eq (a b : category) : bool := match a, b with Dry, Dry | Light, Light | Heavy, Heavy => true | _, _ => false end.
Definition cat_names (c : category) : label := match c with Dry => LS "dry" | Light => LS "light" | Heavy => LS "heavy" end.

Section Seeps.
  Variables (p t wet p1 : da) (thr : R) (e : env).
  Hypothesis Wp : wf p. Hypothesis Wt : wf t. Hypothesis Ww : wf wet. Hypothesis W1 : wf p1.
  Hypothesis Nf : forall a, In a [p; t; wet; p1] -> ~ In "forecast_cat" (dnames a) /\ ~ In "truth_cat" (dnames a).
  Hypothesis He : forall a, In a [p; t; wet; p1] -> point_of (dims a) e.
  Let out := binop vmul (seeps_cat "forecast_cat" wet thr p) (seeps_cat "truth_cat" wet thr t).
  Let r := da_dot ["forecast_cat"; "truth_cat"] [out; scoring_matrix p1].

  Lemma cat_env_other a f o : In a [p; t; wet; p1] -> forall n, In n (dnames a) -> cat_env e f o n = e n.
  Proof.
    intros Ha n Hn. destruct (Nf a Ha) as [N1 N2]. unfold cat_env, upd. destruct (string_dec n "truth_cat"); [congruence|]. destruct (string_dec n "forecast_cat"); [congruence|reflexivity].
  Qed.
  Lemma cat_env_get a f o : In a [p; t; wet; p1] -> get a (cat_env e f o) = get a e.
  Proof.
    intros Ha. assert (wf a) as W by (destruct Ha as [<-|[<-|[<-|[<-|[]]]]]; assumption). apply W. intros n Hn. now apply (cat_env_other a).
  Qed.
  Lemma cat_env_point a f o : In a [p; t; wet; p1] -> point_of (dims a) (cat_env e f o).
  Proof.
    intros Ha n ls Hin. rewrite (cat_env_other a f o Ha); [now apply (He a Ha)|]. apply in_map_iff. exists (n, ls). auto.
  Qed.

  Lemma out_shape : wf out /\ In "forecast_cat" (dnames out) /\ In "truth_cat" (dnames out) /\
    (forall x, In x (labels_of (dims out) "forecast_cat") <-> In x cats) /\ (forall x, In x (labels_of (dims out) "truth_cat") <-> In x cats).
  Proof.
    destruct (seeps_cat_wf "forecast_cat" wet thr p Wp Ww) as [Wf' NfN]; [apply Nf; simpl; auto|apply Nf; simpl; auto|].
    destruct (seeps_cat_wf "truth_cat" wet thr t Wt Ww) as [Wt' NtN]; [apply Nf; simpl; auto|apply Nf; simpl; auto|].
    assert (forall d a, ~ In d (dnames a) -> dget (dims (seeps_cat d wet thr a)) d = Some cats) as HG.
    { intros d a Hd. unfold seeps_cat, da_where_nan. cbn [binop dims]. rewrite dget_merge.
      change (dget (dims (notnull a)) d) with (dget (dims a) d). rewrite (labels_of_absent (dims a) d Hd).
      unfold concat_new. cbn [dims dget]. destruct (eq_dec d d); [reflexivity|contradiction]. }
    split; [now apply wf_binop|].
    assert (forall n, In n (dnames out) <-> In n (dnames (seeps_cat "forecast_cat" wet thr p)) \/ In n (dnames (seeps_cat "truth_cat" wet thr t))) as N by (intros n; apply names_merge).
    split; [apply N; left; apply NfN; auto|]. split; [apply N; right; apply NtN; auto|].
    unfold labels_of, out. cbn [binop dims]. rewrite !dget_merge.
    rewrite (HG "forecast_cat" p) by (apply Nf; simpl; auto). rewrite (HG "truth_cat" t) by (apply Nf; simpl; auto).
    rewrite (labels_of_absent (dims (seeps_cat "truth_cat" wet thr t)) "forecast_cat").
    2:{ intros H. apply NtN in H. destruct H as [H|[H|H]]; [discriminate|exact (proj1 (Nf t ltac:(simpl; auto)) H)|exact (proj1 (Nf wet ltac:(simpl; auto)) H)]. }
    rewrite (labels_of_absent (dims (seeps_cat "forecast_cat" wet thr p)) "truth_cat").
    2:{ intros H. apply NfN in H. destruct H as [H|[H|H]]; [discriminate|exact (proj2 (Nf p ltac:(simpl; auto)) H)|exact (proj2 (Nf wet ltac:(simpl; auto)) H)]. }
    split; reflexivity.
  Qed.

  Lemma matrix_shape : wf (scoring_matrix p1) /\ In "forecast_cat" (dnames (scoring_matrix p1)) /\ In "truth_cat" (dnames (scoring_matrix p1)) /\
    (forall x, In x (labels_of (dims (scoring_matrix p1)) "forecast_cat") <-> In x cats) /\ (forall x, In x (labels_of (dims (scoring_matrix p1)) "truth_cat") <-> In x cats).
  Proof.
    destruct (scoring_wf p1 W1) as [Wm N]; [apply Nf; simpl; auto|apply Nf; simpl; auto|].
    split; [exact Wm|]. split; [apply N; auto|]. split; [apply N; auto|]. unfold scoring_matrix, times. cbn [da_map dims]. split.
    - intros x. rewrite concat_labels_self. reflexivity.
    - intros x. rewrite concat_labels_other by discriminate. cbn [combine]. split.
      + intros (q & [<-|[<-|[<-|[]]]] & H); cbn [snd] in H; rewrite concat_labels_self in H; exact H.
      + intros H. eexists. split; [left; reflexivity|]. cbn [snd]. rewrite concat_labels_self. exact H.
  Qed.

  Lemma out_get f o : get out (cat_env e f o) =
    vmul (if isnan (get p e) then NaN else cat_flag thr (get p e) (get wet e) f) (if isnan (get t e) then NaN else cat_flag thr (get t e) (get wet e) o).
  Proof.
    unfold out. cbn [binop get]. rewrite !seeps_cat_get by (apply cat_env_point; simpl; auto). rewrite !cat_env_get by (simpl; auto).
    reflexivity.
  Qed.

  Lemma matrix_get q f o : get p1 e = Fin q -> 0 < q < 1 ->
    get (scoring_matrix p1) (cat_env e (cat_names f) (cat_names o)) = Fin (seeps_error q f o).
  Proof.
    intros Hq Hb. unfold scoring_matrix, times, cats. cbn [da_map get combine].
    set (e' := cat_env e (cat_names f) (cat_names o)).
    assert (point_of (dims p1) e') as Hp by (apply cat_env_point; simpl; auto 6).
    assert (get p1 e' = Fin q) as Hg by (unfold e'; rewrite cat_env_get by (simpl; auto 6); exact Hq).
    assert (e' "truth_cat" = cat_names o) as E1 by reflexivity. assert (e' "forecast_cat" = cat_names f) as E2 by reflexivity.
    rewrite concat_new_get3; try discriminate.
    2,3,4: apply point_concat3; [rewrite E1; destruct o; simpl; auto|exact Hp|reflexivity|reflexivity|now apply wf_map].
    rewrite !concat_new_get3 by (try discriminate; exact Hp). cbn [da_map get zeros_like]. rewrite Hg, E1, E2.
    assert (forall a b, b <> 0 -> vdiv (Fin a) (Fin b) = Fin (a / b)) as HD by (intros a b Hne; simpl; destruct (Req_EM_T b 0); [contradiction|reflexivity]).
    unfold vsub. cbn [vneg vadd]. rewrite !HD by lra. cbn [vadd].
    destruct f, o; simpl; unfold cat_names; repeat (destruct (eq_dec _ _); try congruence); cbn [vmul]; f_equal; field; lra.
  Qed.

  (** The nine terms. *)
  Lemma seeps_terms q (fx fy : category -> R) : get p1 e = Fin q -> 0 < q < 1 -> isnan (get p e) = false -> isnan (get t e) = false ->
    (forall f, cat_flag thr (get p e) (get wet e) (cat_names f) = Fin (fx f)) ->
    (forall f, cat_flag thr (get t e) (get wet e) (cat_names f) = Fin (fy f)) ->
    get r e = Fin (rsum (map (fun fo => fx (fst fo) * fy (snd fo) * seeps_error q (fst fo) (snd fo))
      [(Dry, Dry); (Dry, Light); (Dry, Heavy); (Light, Dry); (Light, Light); (Light, Heavy); (Heavy, Dry); (Heavy, Light); (Heavy, Heavy)])).
  Proof.
    intros Hq Hb Np Nt Fx Fy. unfold r. rewrite dot_get.
    destruct out_shape as (Wo & O1 & O2 & O3 & O4). destruct matrix_shape as (Wm & M1 & M2 & M3 & M4).
    rewrite (vsum_perm _ _ (Permutation_map _ (seeps_points out (scoring_matrix p1) e Wo Wm O1 O2 M1 M2 O3 O4 M3 M4))).
    rewrite map_map. cbn [map fst snd cat_pairs cats flat_map app]. unfold vprod. cbn [fold_right].
    pose proof (matrix_get q) as MG.
    rewrite !out_get. rewrite Np, Nt.
    change (LS "dry") with (cat_names Dry). change (LS "light") with (cat_names Light). change (LS "heavy") with (cat_names Heavy).
    rewrite !MG by assumption. rewrite !Fx, !Fy. unfold vsum, rsum. cbn [fold_right vmul vadd]. f_equal. ring.
  Qed.
  Theorem seeps_get x y w q : get p e = Fin x -> get t e = Fin y -> get wet e = Fin w -> get p1 e = Fin q ->
    thr / 1000 < w -> 0 < q < 1 ->
    get r e = Fin (seeps_error q (cat_of (thr / 1000) w x) (cat_of (thr / 1000) w y)).
  Proof.
    intros Hx Hy Hw Hq Hlt Hb. unfold r. rewrite dot_get.
    destruct out_shape as (Wo & O1 & O2 & O3 & O4). destruct matrix_shape as (Wm & M1 & M2 & M3 & M4).
    rewrite (vsum_perm _ _ (Permutation_map _ (seeps_points out (scoring_matrix p1) e Wo Wm O1 O2 M1 M2 O3 O4 M3 M4))).
    rewrite map_map. cbn [map fst snd cat_pairs cats flat_map app]. unfold vprod. cbn [fold_right].
    pose proof (matrix_get q) as MG.
    rewrite !out_get. rewrite Hx, Hy, Hw. cbn [isnan].
    change (LS "dry") with (cat_names Dry). change (LS "light") with (cat_names Light). change (LS "heavy") with (cat_names Heavy).
    rewrite !MG by assumption.
    assert (forall z f, cat_flag thr (Fin z) (Fin w) (cat_names f) = Fin (if cat_eq f (cat_of (thr/1000) w z) then 1 else 0)) as CF.
    { intros z f. unfold cat_flag, cat_of.
      destruct f; cbn [cat_names]; repeat (destruct (eq_dec _ _); try congruence); rewrite ?vleb_Fin; cbn [vltb];
        destruct (Rle_dec z (thr / 1000)); [| destruct (Rlt_dec z w) | | destruct (Rlt_dec z w)| | destruct (Rlt_dec z w)]; cbn [cat_eq];
        unfold b2v;
        repeat match goal with |- context [Rleb ?a ?b] => first [rewrite (proj2 (Rleb_true a b)) by lra | rewrite (proj2 (Rleb_false a b)) by lra] | |- context [Rltb ?a ?b] => first [rewrite (proj2 (Rltb_true a b)) by lra | rewrite (proj2 (Rltb_false a b)) by lra] end; reflexivity. }
    rewrite !CF. cbn [vmul vadd vsum fold_right].
    destruct (cat_of (thr / 1000) w x), (cat_of (thr / 1000) w y); cbn [cat_eq]; unfold vsum; cbn [fold_right vmul vadd]; f_equal; ring.
  Qed.

  (** A missing forecast or truth makes the score missing. *)
  Theorem seeps_nan : get p e = NaN \/ get t e = NaN -> get r e = NaN.
  Proof.
    intros H. unfold r. rewrite dot_get.
    destruct out_shape as (Wo & O1 & O2 & O3 & O4). destruct matrix_shape as (Wm & M1 & M2 & M3 & M4).
    rewrite (vsum_perm _ _ (Permutation_map _ (seeps_points out (scoring_matrix p1) e Wo Wm O1 O2 M1 M2 O3 O4 M3 M4))).
    rewrite map_map. apply vsum_NaN. apply in_map_iff. exists (LS "dry", LS "dry"). split; [|simpl; auto].
    cbn [map fst snd]. unfold vprod. cbn [fold_right]. rewrite out_get.
    destruct H as [H|H]; rewrite H; cbn [isnan vmul]; [reflexivity|].
    match goal with |- vmul (vmul ?a NaN) _ = _ => destruct a; reflexivity end.
  Qed.
End Seeps.
