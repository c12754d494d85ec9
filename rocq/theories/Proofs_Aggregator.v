From Coq Require Import String List Bool Lia Arith Permutation FunctionalExtensionality.
Import ListNotations.
From Verif Require Import Prelude Values Model_XArray Spec_XArray Proofs_XArray Model_Tree Spec_Tree Proofs_Tree Model_Aggregation Spec_Aggregation Spec_Aggregator Proofs_AggState.
From Coq Require Import Reals Lra.
Local Open Scope R_scope.
Local Open Scope list_scope.

(** ** Inner joins *)
Definition ijoint (arrs : list da) : dimlist := fold_left (merge_dims inter_labels) (map dims arrs) [].

Lemma In_inter l1 l2 x : In x (inter_labels l1 l2) <-> In x l1 /\ In x l2.
Proof. unfold inter_labels. now rewrite filter_In, memb_In. Qed.

Lemma ij_names_gen j dss : forall acc d,
  In d (map fst (fold_left (merge_dims j) dss acc)) <-> In d (map fst acc) \/ exists ds, In ds dss /\ In d (map fst ds).
Proof.
  induction dss as [|ds dss IH]; intros acc d; simpl.
  - split; [auto|]. intros [H|[? [[] _]]]; auto.
  - rewrite IH, names_merge. split.
    + intros [[H|H]|[ds' [H1 H2]]]; eauto.
    + intros [H|[ds' [[->|H1] H2]]]; eauto.
Qed.
Lemma ij_NoDup_gen j dss : forall acc, NoDup (map fst acc) -> (forall ds, In ds dss -> NoDup (map fst ds)) ->
  NoDup (map fst (fold_left (merge_dims j) dss acc)).
Proof.
  induction dss as [|ds dss IH]; intros acc Ha Hd; simpl; auto.
  apply IH; [|intros; apply Hd; now right]. apply NoDup_merge; auto. apply Hd. now left.
Qed.
Lemma ij_labels_gen dss : forall acc d x,
  In x (labels_of (fold_left (merge_dims inter_labels) dss acc) d) <->
  (In d (map fst acc) \/ exists ds, In ds dss /\ In d (map fst ds)) /\
  (In d (map fst acc) -> In x (labels_of acc d)) /\
  (forall ds, In ds dss -> In d (map fst ds) -> In x (labels_of ds d)).
Proof.
  induction dss as [|ds dss IH]; intros acc d x; simpl.
  - split.
    + intros H. split; [left; eapply labels_of_In; eauto|]. split; [auto|]. intros ? [].
    + intros ([H|[? [[] _]]] & H2 & _). auto.
  - rewrite IH, names_merge. unfold labels_of at 1. rewrite dget_merge.
    pose proof (names_dget acc d) as Na. pose proof (names_dget ds d) as Nd.
    split.
    + intros (H1 & H2 & H3). split; [destruct H1 as [[H|H]|[ds' [H H']]]; eauto|].
      split.
      * intros Ha. unfold labels_of. specialize (H2 (or_introl Ha)). apply Na in Ha.
        destruct (dget acc d); [|congruence]. destruct (dget ds d); [apply In_inter in H2; tauto|auto].
      * intros ds' [<-|Hds'] Hd; [|now apply H3]. unfold labels_of. specialize (H2 (or_intror Hd)). apply Nd in Hd.
        destruct (dget ds d); [|congruence]. destruct (dget acc d); [apply In_inter in H2; tauto|auto].
    + intros (H1 & H2 & H3). split; [destruct H1 as [H|[ds' [[<-|H] H']]]; eauto|]. split.
      * intros H. specialize (H3 ds (or_introl eq_refl)). unfold labels_of in H2, H3.
        destruct (dget acc d) as [l1|] eqn:Ea, (dget ds d) as [l2|] eqn:Ed.
        -- apply In_inter. split; [apply H2, Na|apply H3, Nd]; congruence.
        -- apply H2, Na. congruence.
        -- apply H3, Nd. congruence.
        -- exfalso. destruct H as [H|H]; [apply Na in H|apply Nd in H]; congruence.
      * intros. apply H3; auto.
Qed.
Lemma NoDup_inter l1 l2 : NoDup l1 -> NoDup (inter_labels l1 l2).
Proof. intros. unfold inter_labels. now apply NoDup_filter. Qed.
Lemma ij_labels_NoDup_gen dss : forall acc,
  (forall d, NoDup (labels_of acc d)) -> (forall ds, In ds dss -> forall d, NoDup (labels_of ds d)) ->
  forall d, NoDup (labels_of (fold_left (merge_dims inter_labels) dss acc) d).
Proof.
  induction dss as [|ds dss IH]; intros acc Ha Hd d; simpl; auto.
  apply IH; [|intros; apply Hd; now right]. intros d'. unfold labels_of. rewrite dget_merge.
  specialize (Ha d'). specialize (Hd ds (or_introl eq_refl) d'). unfold labels_of in *.
  destruct (dget acc d'), (dget ds d'); auto. now apply NoDup_inter.
Qed.

Lemma ij_names arrs d : In d (map fst (ijoint arrs)) <-> exists a, In a arrs /\ In d (dnames a).
Proof.
  unfold ijoint. rewrite ij_names_gen. simpl. split.
  - intros [[]|[ds [H1 H2]]]. apply in_map_iff in H1. destruct H1 as [a [<- Ha]]. eauto.
  - intros [a [H1 H2]]. right. exists (dims a). split; auto. now apply in_map.
Qed.
Lemma ij_NoDup arrs : (forall a, In a arrs -> NoDup (dnames a)) -> NoDup (map fst (ijoint arrs)).
Proof.
  intros H. apply ij_NoDup_gen; [constructor|]. intros ds Hds. apply in_map_iff in Hds. destruct Hds as [a [<- Ha]]. now apply H.
Qed.
Lemma ij_labels arrs d x : In x (labels_of (ijoint arrs) d) <->
  (exists a, In a arrs /\ In d (dnames a)) /\ forall a, In a arrs -> In d (dnames a) -> In x (labels_of (dims a) d).
Proof.
  unfold ijoint. rewrite ij_labels_gen. simpl. split.
  - intros ([[]|[ds [H1 H2]]] & _ & H3). apply in_map_iff in H1. destruct H1 as [a [<- Ha]]. split; [eauto|].
    intros b Hb Hd. apply H3; auto. now apply in_map.
  - intros ([a [H1 H2]] & H3). split; [right; exists (dims a); split; auto; now apply in_map|]. split; [tauto|].
    intros ds Hds Hd. apply in_map_iff in Hds. destruct Hds as [b [<- Hb]]. auto.
Qed.
Lemma ij_labels_NoDup arrs : (forall a, In a arrs -> wf a) -> forall d, NoDup (labels_of (ijoint arrs) d).
Proof.
  intros H. apply ij_labels_NoDup_gen; [intros; constructor|]. intros ds Hds d.
  apply in_map_iff in Hds. destruct Hds as [a [<- Ha]]. now apply wf_labels_NoDup, H.
Qed.
Lemma ij_point arrs e : (forall a, In a arrs -> NoDup (dnames a)) ->
  point_of (ijoint arrs) e -> forall a, In a arrs -> point_of (dims a) e.
Proof.
  intros Hn Hp a Ha. apply point_of_labels; [now apply Hn|]. intros d Hd.
  assert (In d (map fst (ijoint arrs))) as HJ by (apply ij_names; eauto).
  rewrite point_of_labels in Hp by now apply ij_NoDup. specialize (Hp d HJ). apply ij_labels in Hp. now apply Hp.
Qed.

Lemma envs_NoDup ds : NoDup (map fst ds) -> (forall d ls, In (d, ls) ds -> NoDup ls) -> forall e, NoDup (envs ds e).
Proof.
  induction ds as [|[d ls] ds IH]; intros Hn Hl e; simpl; [repeat constructor; simpl; tauto|].
  inversion Hn as [|? ? Hni Hn']; subst.
  assert (NoDup ls) as Hls by (apply (Hl d); now left).
  assert (forall e, NoDup (envs ds e)) as IH' by (intros; apply IH; auto; intros; eapply Hl; right; eauto).
  assert (forall l e', In e' (envs ds (upd e d l)) -> e' d = l) as Hd.
  { intros l e' H. apply envs_spec in H; auto. destruct H as [_ H]. rewrite H by auto. apply upd_same. }
  clear - Hls IH' Hd. induction Hls as [|l ls Hni Hls IHl]; simpl; [constructor|].
  apply NoDup_app_intro; auto. intros x Hx Hx'. apply Hd in Hx. apply in_flat_map in Hx'.
  destruct Hx' as [l' [Hl' Hx']]. apply Hd in Hx'. congruence.
Qed.

Definition red (R : list string) (d : string) : bool := memb d R.
Definition dot_points (R : list string) (arrs : list da) (e : env) : list env :=
  envs (keep (fun d => memb d R) (ijoint arrs)) e.

Lemma dot_get R arrs e : get (da_dot R arrs) e = vsum (map (fun e' => vprod (map (fun a => get a e') arrs)) (dot_points R arrs e)).
Proof. reflexivity. Qed.

Lemma dot_points_spec R arrs e : (forall a, In a arrs -> wf a) -> reduced_points arrs R e (dot_points R arrs e).
Proof.
  intros Hwf.
  assert (NoDup (map fst (ijoint arrs))) as HJ by (apply ij_NoDup; intros; now apply Hwf).
  assert (NoDup (map fst (keep (fun d => memb d R) (ijoint arrs)))) as HK by now apply keep_NoDup.
  split.
  - apply envs_NoDup; auto. intros d ls Hin. apply In_dget in Hin; auto.
    rewrite dget_keep in Hin. destruct (memb d R); [|discriminate].
    pose proof (ij_labels_NoDup arrs Hwf d) as Hn. unfold labels_of in Hn. rewrite Hin in Hn. exact Hn.
  - intros e'. unfold dot_points. rewrite envs_spec by auto.
    split.
    + intros [Hp Ho]. split.
      * intros d Hd. apply Ho. rewrite keep_names. intros [H1 H2]. apply Hd. rewrite <- memb_In. split; auto. now apply ij_names.
      * intros a d Ha Hd Hda. rewrite point_of_labels in Hp by auto.
        assert (In d (map fst (keep (fun d => memb d R) (ijoint arrs)))) as Hin.
        { rewrite keep_names. split; [apply ij_names; eauto|now apply memb_In]. }
        specialize (Hp d Hin). rewrite labels_keep in Hp. replace (memb d R) with true in Hp by (symmetry; now apply memb_In).
        apply ij_labels in Hp. now apply Hp.
    + intros [Ho Hp]. split.
      * rewrite point_of_labels by auto. intros d Hd. rewrite keep_names in Hd. destruct Hd as [H1 H2].
        rewrite labels_keep, H2. apply ij_names in H1. apply ij_labels. split; auto.
        intros a Ha Hda. apply Hp; auto. now apply memb_In.
      * intros d Hd. apply Ho. intros [H1 H2]. apply Hd. rewrite keep_names, memb_In. split; auto. now apply ij_names.
Qed.

Lemma dims_dot R arrs : dims (da_dot R arrs) = keep (fun d => negb (memb d R)) (ijoint arrs).
Proof. reflexivity. Qed.

(** Visited points lie in the box of every array. *)
Lemma dot_points_in R arrs e e' : (forall a, In a arrs -> NoDup (dnames a)) ->
  point_of (dims (da_dot R arrs)) e -> In e' (dot_points R arrs e) -> forall a, In a arrs -> point_of (dims a) e'.
Proof.
  intros Hn Hp Hin. apply ij_point; auto.
  assert (NoDup (map fst (ijoint arrs))) as HJ by now apply ij_NoDup.
  unfold dot_points in Hin. apply envs_spec in Hin; [|now apply keep_NoDup]. destruct Hin as [H1 H2].
  intros d ls Hd. destruct (memb d R) eqn:E.
  - apply (H1 d ls). unfold keep. apply filter_In. auto.
  - rewrite H2; [|rewrite keep_names; intros [_ ?]; congruence].
    apply (Hp d ls). rewrite dims_dot. unfold keep. apply filter_In. simpl. rewrite E. auto.
Qed.

(** ** Two-stage reduction (C10), arrays *)
Lemma memb_app (d : string) R1 R2 : memb d (R1 ++ R2) = memb d R1 || memb d R2.
Proof. unfold memb. apply existsb_app. Qed.
Lemma keep_ext p q (ds : dimlist) : (forall d, p d = q d) -> keep p ds = keep q ds.
Proof. intros H. unfold keep. apply filter_ext. intros [a b]. apply H. Qed.

Lemma subsetb_In l1 l2 : subsetb l1 l2 = true <-> incl l1 l2.
Proof.
  unfold subsetb. rewrite forallb_forall. unfold incl. split; intros H x Hx; [apply memb_In, H; auto|apply memb_In, H; auto].
Qed.

Lemma two_stage R1 R2 arrs :
  (forall a, In a arrs -> NoDup (dnames a)) ->
  (forall d, In d R1 -> ~ In d R2) ->
  (forall d, In d R2 -> exists a, In a arrs /\ In d (dnames a)) ->
  exists x, da_sum R2 (da_dot R1 arrs) = Ok x /\ dims x = dims (da_dot (R1 ++ R2) arrs)
    /\ forall e, get x e = get (da_dot (R1 ++ R2) arrs) e.
Proof.
  intros Hn Hdis Hin. unfold da_sum.
  assert (subsetb R2 (dnames (da_dot R1 arrs)) = true) as ->.
  { apply subsetb_In. intros d Hd. unfold dnames. rewrite dims_dot, keep_names, ij_names. split; auto.
    apply negb_true_iff, memb_false. intros H. now apply (Hdis d). }
  eexists. split; [reflexivity|]. cbn [dims get]. split.
  - rewrite !dims_dot, keep_keep. apply keep_ext. intros d. rewrite memb_app, negb_orb. reflexivity.
  - intros e. rewrite dims_dot, keep_keep.
    change (sum_over (keep (fun d => negb (memb d R1) && memb d R2) (ijoint arrs))
              (sum_over (keep (fun d => memb d R1) (ijoint arrs)) (fun e' => vprod (map (fun a => get a e') arrs))) e =
            sum_over (keep (fun d => memb d (R1 ++ R2)) (ijoint arrs)) (fun e' => vprod (map (fun a => get a e') arrs)) e).
    rewrite <- sum_over_app. symmetry. apply sum_over_perm; [|apply keep_NoDup, ij_NoDup; auto].
    rewrite (keep_ext (fun d => memb d (R1 ++ R2)) (fun d => (negb (memb d R1) && memb d R2) || memb d R1)).
    + apply keep_split. intros d _. destruct (memb d R1); simpl; [reflexivity|now rewrite andb_false_r].
    + intros d. rewrite memb_app. destruct (memb d R1), (memb d R2); reflexivity.
Qed.

(** ** aggregation_fn *)
Lemma agg_fn_None g st : incl (reduce_dims g) (dnames st) \/ aggregation_fn g st = Ok None.
Proof.
  unfold aggregation_fn. destruct (subsetb (reduce_dims g) (dnames st)) eqn:E; [left; now apply subsetb_In|now right].
Qed.
Lemma bin_masks_Some bs st ms : bin_masks bs st = Ok (Some ms) <->
  mapM (fun b => create_bin_mask b st) bs = Ok ms /\
  Forall2 (fun b m => forall d, In d (dnames m) -> d <> bin_dim_name b -> In d (dnames st)) bs ms.
Proof.
  revert ms. induction bs as [|b bs IH]; intros ms; simpl.
  - split; [intros [= <-]; split; constructor|intros [[= <-] _]; reflexivity].
  - destruct (create_bin_mask b st) as [m|]; simpl; [|split; [discriminate|intros [? _]; discriminate]].
    set (cond := subsetb _ _).
    assert (cond = true <-> forall d, In d (dnames m) -> d <> bin_dim_name b -> In d (dnames st)) as Hc.
    { unfold cond. rewrite subsetb_In. split.
      - intros H d Hd Hne. apply H. apply filter_In. split; auto. apply negb_true_iff. now apply String.eqb_neq.
      - intros H d Hd. apply filter_In in Hd. destruct Hd as [Hd Hne]. apply negb_true_iff in Hne. apply String.eqb_neq in Hne. auto. }
    destruct cond.
    + destruct (bin_masks bs st) as [[ms'|]|] eqn:E; simpl.
      * destruct (proj1 (IH ms') eq_refl) as [Hm HF]. rewrite Hm. simpl. split.
        -- intros [= <-]. split; [reflexivity|]. constructor; auto. now apply Hc.
        -- intros [[= <-] _]. reflexivity.
      * split; [discriminate|]. destruct (mapM _ bs) eqn:Em; simpl; [|intros [? _]; discriminate].
        intros [[= <-] HF]. inversion HF; subst. pose proof (proj2 (IH a) (conj eq_refl H4)). discriminate.
      * split; [discriminate|]. destruct (mapM _ bs) eqn:Em; simpl; [|intros [? _]; discriminate].
        intros [[= <-] HF]. inversion HF; subst. pose proof (proj2 (IH a) (conj eq_refl H4)). discriminate.
    + split; [discriminate|]. destruct (mapM _ bs) eqn:Em; simpl; [|intros [? _]; discriminate].
      intros [[= <-] HF]. inversion HF; subst. apply Hc in H2. discriminate.
Qed.
Lemma agg_fn_Some g st x : aggregation_fn g st = Ok (Some x) <->
  incl (reduce_dims g) (dnames st) /\ nodupb (map bin_dim_name (bin_by g)) = true /\
  exists ws ms, mapM (fun w => w st) (weigh_by g) = Ok ws /\ bin_masks (bin_by g) st = Ok (Some ms) /\
    x = da_dot (reduce_dims g) (st :: ws ++ ms).
Proof.
  unfold aggregation_fn. destruct (subsetb (reduce_dims g) (dnames st)) eqn:E; simpl.
  - apply subsetb_In in E. destruct (mapM (fun w => w st) (weigh_by g)) as [ws|]; simpl.
    + destruct (nodupb _); simpl.
      * destruct (bin_masks (bin_by g) st) as [[ms|]|]; simpl.
        -- split; [intros [= <-]; eauto 10|]. intros (_ & _ & ws' & ms' & [= <-] & [= <-] & ->). reflexivity.
        -- split; [discriminate|]. intros (_ & _ & ws' & ms' & _ & ? & _). discriminate.
        -- split; [discriminate|]. intros (_ & _ & ws' & ms' & _ & ? & _). discriminate.
      * split; [discriminate|]. intros (_ & ? & _). discriminate.
    + split; [discriminate|]. intros (_ & _ & ws' & ms' & ? & _). discriminate.
  - split; [discriminate|]. intros (H & _). apply subsetb_In in H. congruence.
Qed.

(** ** prepare *)
Lemma prepare_dims g st : dims (fst (prepare g st)) = dims st /\ dims (snd (prepare g st)) = dims st.
Proof. unfold prepare. destruct (if masked g then _ else _); [|destruct (skipna g)]; simpl; auto. Qed.
Lemma prepare_get g st e : get (fst (prepare g st)) e = if counted g st e then get st e else Fin 0.
Proof.
  unfold prepare, counted. destruct (if masked g then _ else _) as [c|]; simpl.
  - destruct (skipna g); simpl; [reflexivity|now rewrite andb_true_r].
  - destruct (skipna g); simpl; reflexivity.
Qed.
Lemma prepare_mask g st e : get (snd (prepare g st)) e = b2v (counted g st e).
Proof.
  unfold prepare, counted. destruct (if masked g then _ else _) as [c|]; simpl.
  - destruct (skipna g); simpl; [reflexivity|now rewrite andb_true_r].
  - destruct (skipna g); simpl; reflexivity.
Qed.
Lemma filter_id {A} (p : A -> bool) l : (forall x, In x l -> p x = true) -> filter p l = l.
Proof.
  induction l as [|a l IH]; simpl; intros H; [reflexivity|]. rewrite H by now left. f_equal. apply IH. intros; apply H; now right.
Qed.
Lemma prepare_aux g st : mask_spans st -> aux (fst (prepare g st)) = aux st /\ aux (snd (prepare g st)) = aux st.
Proof.
  intros Hs. unfold prepare. destruct (masked g).
  - destruct (dget (aux st) "mask"%string) as [c|] eqn:E; [|destruct (skipna g); simpl; auto].
    destruct (skipna g); simpl; auto. split; auto. apply filter_id. intros [k c'] Hin. apply subsetb_In. now apply (Hs c E k).
  - destruct (skipna g); simpl; auto.
Qed.
Lemma prepare_wf g st : wf st -> (forall c, dget (aux st) "mask"%string = Some c -> forall e e', (forall d, In d (dnames st) -> e d = e' d) -> c_get c e = c_get c e') -> 
  wf (fst (prepare g st)) /\ wf (snd (prepare g st)).
Proof.
  intros (H1 & H2 & H3) Hm. destruct (prepare_dims g st) as [D1 D2].
  assert (forall e e', (forall d, In d (dnames st) -> e d = e' d) -> counted g st e = counted g st e') as Hc.
  { intros e e' He. unfold counted. rewrite (H3 e e' He). destruct (if masked g then _ else _) as [c|] eqn:E; [|reflexivity].
    destruct (masked g); [|discriminate]. now rewrite (Hm c E e e' He). }
  split; (split; [unfold dnames; rewrite ?D1, ?D2; auto|]; split; [rewrite ?D1, ?D2; auto|]); intros e e' He; unfold dnames in He; rewrite ?D1, ?D2 in He.
  - rewrite !prepare_get, (Hc e e' He), (H3 e e' He). reflexivity.
  - now rewrite !prepare_mask, (Hc e e' He).
Qed.

Lemma mapM_uses_coords {B} (fs : list (da -> result B)) a b :
  (forall f, In f fs -> uses_coords f) -> dims a = dims b -> aux a = aux b ->
  mapM (fun f => f a) fs = mapM (fun f => f b) fs.
Proof. intros H Hd Ha. apply mapM_ext. intros f Hf. now apply H. Qed.
Lemma bin_masks_uses_coords bs a b :
  (forall x, In x bs -> uses_coords (create_bin_mask x)) -> dims a = dims b -> aux a = aux b ->
  bin_masks bs a = bin_masks bs b.
Proof.
  intros H Hd Ha. induction bs as [|x bs IH]; simpl; [reflexivity|].
  rewrite (H x (or_introl eq_refl) a b Hd Ha). destruct (create_bin_mask x b); simpl; [|reflexivity].
  unfold dnames. rewrite Hd. rewrite IH; auto. intros; apply H; now right.
Qed.

(** Characterisation of a successful aggregation of one variable. *)
Lemma agg_var_Some g st x y :
  (forall w, In w (weigh_by g) -> uses_coords w) ->
  (forall b, In b (bin_by g) -> uses_coords (create_bin_mask b)) ->
  mask_spans st ->
  aggregate_stat_var g st = Ok (Some (x, y)) ->
  exists ws ms, mapM (fun w => w st) (weigh_by g) = Ok ws /\ bin_masks (bin_by g) st = Ok (Some ms) /\
    incl (reduce_dims g) (dnames st) /\ nodupb (map bin_dim_name (bin_by g)) = true /\
    x = da_dot (reduce_dims g) (fst (prepare g st) :: ws ++ ms) /\
    y = da_dot (reduce_dims g) (snd (prepare g st) :: ws ++ ms).
Proof.
  intros Hw Hb Hs H. unfold aggregate_stat_var in H.
  destruct (prepare_dims g st) as [D1 D2]. destruct (prepare_aux g st Hs) as [A1 A2].
  destruct (prepare g st) as [s m] eqn:Ep. simpl in *.
  destruct (aggregation_fn g s) as [[x'|]|] eqn:E1; simpl in H; try discriminate;
  destruct (aggregation_fn g m) as [[y'|]|] eqn:E2; simpl in H; try discriminate.
  injection H as -> ->.
  apply agg_fn_Some in E1. destruct E1 as (I1 & N1 & ws & ms & W1 & B1 & ->).
  apply agg_fn_Some in E2. destruct E2 as (I2 & N2 & ws' & ms' & W2 & B2 & ->).
  rewrite (mapM_uses_coords _ _ st Hw D1 A1) in W1. rewrite (mapM_uses_coords _ _ st Hw D2 A2) in W2.
  rewrite (bin_masks_uses_coords _ _ st Hb D1 A1) in B1. rewrite (bin_masks_uses_coords _ _ st Hb D2 A2) in B2.
  rewrite W1 in W2. injection W2 as <-. rewrite B1 in B2. injection B2 as <-.
  exists ws, ms. unfold dnames in *. rewrite D1 in I1. auto 10.
Qed.

(** Points visited do not depend on values. *)
Lemma ijoint_dims a b l : dims a = dims b -> ijoint (a :: l) = ijoint (b :: l).
Proof. intros H. unfold ijoint. simpl. now rewrite H. Qed.

(** ** Finite values: weighted sums *)
Lemma vprod_Fin (l : list R) : vprod (map Fin l) = Fin (rprod l).
Proof. induction l; simpl; [reflexivity|]. now rewrite IHl. Qed.
Lemma vprod_bools (l : list bool) : vprod (map b2v l) = b2v (forallb (fun b => b) l).
Proof.
  induction l as [|b l IH]; simpl; [reflexivity|]. rewrite IH. unfold b2v. simpl. f_equal.
  destruct b, (forallb _ l); simpl; lra.
Qed.

Lemma prod_at ws wrs ms bs e :
  Forall2 (fun a r => get a e = Fin (r e)) ws wrs -> Forall2 (fun a b => get a e = b2v (b e)) ms bs ->
  vprod (map (fun a => get a e) (ws ++ ms)) = Fin (if forallb (fun b : env -> bool => b e) bs then rprod (map (fun r => r e) wrs) else 0).
Proof.
  intros HW HM. rewrite map_app, vprod_app.
  assert (map (fun a => get a e) ws = map Fin (map (fun r => r e) wrs)) as ->.
  { induction HW; simpl; [reflexivity|]. now rewrite H, IHHW. }
  assert (map (fun a => get a e) ms = map b2v (map (fun b => b e) bs)) as ->.
  { induction HM; simpl; [reflexivity|]. now rewrite H, IHHM. }
  rewrite vprod_Fin, vprod_bools. simpl. f_equal.
  assert (forallb (fun b => b) (map (fun b => b e) bs) = forallb (fun b : env -> bool => b e) bs) as ->.
  { induction bs as [|b bs IH]; simpl; [reflexivity|]. f_equal. clear -HM. 
    generalize bs. induction bs0; simpl; congruence. }
  destruct (forallb _ bs); lra.
Qed.

Notation uweight := point_weight.

Lemma sums_formula g st s x y ws ms wrs bs :
  (forall w, In w (weigh_by g) -> uses_coords w) ->
  (forall b, In b (bin_by g) -> uses_coords (create_bin_mask b)) ->
  mask_spans st -> wf st ->
  mapM (fun w => w st) (weigh_by g) = Ok ws -> mapM (fun b => create_bin_mask b st) (bin_by g) = Ok ms ->
  (forall a, In a (ws ++ ms) -> wf a) ->
  Forall2 real_valued ws wrs -> Forall2 indicator ms bs ->
  (forall e, point_of (dims st) e -> counted g st e = true -> get st e = Fin (s e)) ->
  aggregate_stat_var g st = Ok (Some (x, y)) ->
  forall e, point_of (dims x) e ->
  exists P, reduced_points (st :: ws ++ ms) (reduce_dims g) e P /\
    get x e = Fin (rsum (map (fun e' => uweight g st wrs bs e' * s e') P)) /\
    get y e = Fin (rsum (map (uweight g st wrs bs) P)).
Proof.
  intros Hw Hb Hs Hst Ews Ems Hwf HW HM Hfin Hagg e He.
  destruct (agg_var_Some g st x y Hw Hb Hs Hagg) as (ws' & ms' & W & B & Hinc & Hnd & Hx & Hy).
  rewrite Ews in W. injection W as <-. apply bin_masks_Some in B. destruct B as [B _]. rewrite Ems in B. injection B as <-.
  destruct (prepare_dims g st) as [D1 D2].
  set (P := dot_points (reduce_dims g) (st :: ws ++ ms) e).
  exists P.
  assert (forall a, In a (st :: ws ++ ms) -> wf a) as Hall by (intros a [<-|Ha]; auto).
  split; [now apply dot_points_spec|].
  assert (forall e', In e' P -> forall a, In a (st :: ws ++ ms) -> point_of (dims a) e') as HP.
  { intros e' He'. eapply dot_points_in; [intros; now apply Hall| |exact He'].
    rewrite Hx in He. rewrite dims_dot in *. now rewrite <- (ijoint_dims _ _ _ D1). }
  assert (forall e', In e' P -> vprod (map (fun a => get a e') (ws ++ ms)) = Fin (if forallb (fun b : env -> bool => b e') bs then rprod (map (fun r => r e') wrs) else 0)) as Hprod.
  { intros e' He'. apply prod_at.
    - eapply Forall2_impl_in; [|exact HW]. intros a r Ha _ Hr. apply Hr. apply (HP e' He'). right. apply in_app_iff. auto.
    - eapply Forall2_impl_in; [|exact HM]. intros a r Ha _ Hr. apply Hr. apply (HP e' He'). right. apply in_app_iff. auto. }
  split.
  - rewrite Hx, dot_get. unfold dot_points. rewrite (ijoint_dims _ st _ D1). fold (dot_points (reduce_dims g) (st :: ws ++ ms) e). fold P.
    rewrite <- vsum_Fin. f_equal. apply map_ext_in. intros e' He'. cbn [map vprod fold_right].
    fold (vprod (map (fun a => get a e') (ws ++ ms))). rewrite (Hprod e' He'), prepare_get. unfold uweight.
    destruct (counted g st e') eqn:Ec; simpl.
    + rewrite (Hfin e'); auto; [|apply (HP e' He'); now left]. simpl. f_equal. lra.
    + f_equal. destruct (forallb _ bs); lra.
  - rewrite Hy, dot_get. unfold dot_points. rewrite (ijoint_dims _ st _ D2). fold (dot_points (reduce_dims g) (st :: ws ++ ms) e). fold P.
    rewrite <- vsum_Fin. f_equal. apply map_ext_in. intros e' He'. cbn [map vprod fold_right].
    fold (vprod (map (fun a => get a e') (ws ++ ms))). rewrite (Hprod e' He'), prepare_mask. unfold uweight.
    destruct (counted g st e') eqn:Ec; simpl; f_equal; [lra|destruct (forallb _ bs); lra].
Qed.

(** ** Weighted means over lists *)
Lemma wmean_bounds {A} (u s : A -> R) P lo hi :
  (forall p, In p P -> 0 <= u p) -> 0 < rsum (map u P) ->
  (forall p, In p P -> u p <> 0 -> lo <= s p <= hi) ->
  lo <= rsum (map (fun p => u p * s p) P) / rsum (map u P) <= hi.
Proof.
  intros Hu Hpos Hb.
  assert (lo * rsum (map u P) <= rsum (map (fun p => u p * s p) P)) as H1.
  { rewrite <- rsum_map_scale. apply rsum_map_le. intros p Hp.
    destruct (Req_dec (u p) 0) as [->|Hne]; [lra|]. specialize (Hu p Hp). destruct (Hb p Hp Hne). nra. }
  assert (rsum (map (fun p => u p * s p) P) <= hi * rsum (map u P)) as H2.
  { rewrite <- rsum_map_scale. apply rsum_map_le. intros p Hp.
    destruct (Req_dec (u p) 0) as [->|Hne]; [lra|]. specialize (Hu p Hp). destruct (Hb p Hp Hne). nra. }
  split.
  - apply (Rmult_le_reg_r (rsum (map u P))); auto. unfold Rdiv. rewrite Rmult_assoc, Rinv_l; lra.
  - apply (Rmult_le_reg_r (rsum (map u P))); auto. unfold Rdiv. rewrite Rmult_assoc, Rinv_l; lra.
Qed.

Lemma vdiv_Fin a b : b <> 0 -> vdiv (Fin a) (Fin b) = Fin (a / b).
Proof. intros H. simpl. destruct (Req_EM_T b 0); [tauto|]. reflexivity. Qed.
Lemma vdiv_0_0 : vdiv (Fin 0) (Fin 0) = NaN.
Proof. simpl. unfold rsign. repeat (destruct (Rlt_dec _ _) as [?|?]; try lra); try reflexivity. all: destruct (Req_EM_T 0 0); try lra; try reflexivity. Qed.
