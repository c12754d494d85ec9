(** Lemmas on datasets for the combination of result files (C70). *)
From Coq Require Import String Ascii ZArith List Bool Reals FunctionalExtensionality.
Import ListNotations.
From Verif Require Import Prelude Values Model_XArray Spec_XArray Proofs_XArray Model_MetricsBase Model_Aggregation Model_Categorical
  Model_Prepare Spec_Prepare Proofs_Prepare Proofs_Select Proofs_RoundTrip Proofs_Seeps Proofs_Deterministic Proofs_Loaders Model_Combine.
Local Open Scope string_scope.
Local Open Scope list_scope.

(** ** Dictionaries *)
Lemma keys_map_val {A B} (f : A -> B) (D : list (string * A)) : keys (map (fun kv => (fst kv, f (snd kv))) D) = keys D.
Proof. unfold keys. rewrite map_map. reflexivity. Qed.
Lemma dget_map_some {A B} (f : A -> B) (D : list (string * A)) w b : dget (map (fun kv => (fst kv, f (snd kv))) D) w = Some b <-> exists a, dget D w = Some a /\ b = f a.
Proof.
  induction D as [|[k a] D IH]; cbn [map fst snd dget]; [split; [discriminate|intros (a & [=] & _)]|].
  destruct (eq_dec w k); [|exact IH]. split; [intros [= <-]; eauto|intros (a' & [= <-] & ->); reflexivity].
Qed.
Lemma dget_rename {A} (f : string -> string) (D : list (string * A)) : NoDup (map f (keys D)) -> NoDup (keys D) -> forall n a,
  dget (map (fun kv => (f (fst kv), snd kv)) D) n = Some a <-> exists n0, dget D n0 = Some a /\ n = f n0.
Proof.
  intros N1 N2 n a. set (D' := map _ D). assert (NoDup (keys D')) as N3.
  { unfold D', keys. rewrite map_map. cbn [fst]. rewrite <- (map_map fst f). exact N1. }
  split.
  - intros H. apply dget_In in H. unfold D' in H. apply in_map_iff in H. destruct H as ([n0 a0] & [= <- <-] & H). exists n0. split; auto. now apply In_dget.
  - intros (n0 & H & ->). apply dget_In in H. apply In_dget; auto. unfold D'. apply in_map_iff. exists (n0, a). auto.
Qed.
Lemma keys_rename {A} (f : string -> string) (D : list (string * A)) : keys (map (fun kv => (f (fst kv), snd kv)) D) = map f (keys D).
Proof. unfold keys. rewrite !map_map. reflexivity. Qed.
Lemma dget_keys_some {A} (D : list (string * A)) n : In n (keys D) <-> exists a, dget D n = Some a.
Proof. split; [apply keys_dget|]. intros (a & H). eapply dget_Some_keys; eauto. Qed.

(** ** Renaming variables only *)
Lemma rename_da_id m a : wf a -> aux a = [] -> (forall d, In d (dnames a) -> new_name m d = d) -> rename_da m a = a.
Proof.
  intros (_ & _ & W) X H. destruct a as [ds g ax]. cbn [aux] in X. subst ax. unfold rename_da. cbn [dims get aux map]. f_equal.
  - unfold dnames in H. cbn [dims] in H. clear W. induction ds as [|[d ls] ds IH]; [reflexivity|]. cbn [map fst snd]. rewrite H by (left; reflexivity). f_equal. apply IH. intros d' I. apply H. right. exact I.
  - apply functional_extensionality. intros e. cbn [get] in W. apply W. intros d I. rewrite (H d I). reflexivity.
Qed.
Lemma rename_names m (ds : vars da) :
  (forall n a, In (n, a) ds -> wf a /\ aux a = [] /\ forall d, In d (dnames a) -> new_name m d = d) ->
  (forall n, In n (keys m) -> In n (keys ds)) ->
  (forall n n', name_of ds n -> name_of ds n' -> new_name m n = new_name m n' -> n = n') ->
  rename_ds m ds = Ok (map (fun kv => (new_name m (fst kv), snd kv)) ds).
Proof.
  intros H1 H2 H3. unfold rename_ds. replace (forallb _ _) with true.
  - replace (nodupb _) with true.
    + cbn [andb]. f_equal. apply map_ext_in. intros [n a] I. cbn [fst snd]. destruct (H1 n a I) as (W & X & Hd). now rewrite rename_da_id.
    + symmetry. apply NoDup_nodupb, NoDup_map_on; [|apply NoDup_nodup]. intros x y Ix Iy. apply H3; apply in_ds_names; auto.
  - symmetry. apply forallb_forall. intros n I. apply memb_In, in_ds_names. left. auto.
Qed.

(** ** Reindexing *)
Lemma reindexed_eq J a : aux a = [] -> reindexed J a = reindex J NaN a.
Proof. intros E. unfold reindexed, reindex. now rewrite E. Qed.
Lemma wf_strip a : wf a -> wf (strip a).
Proof. intros W. exact W. Qed.
Lemma reindexed_wf J a : wf a -> (forall d, NoDup (labels_of J d)) -> wf (reindexed J a).
Proof. intros W N. destruct (reindex_wf J NaN a W N) as (W1 & W2 & W3). split; [exact W1|]. split; [exact W2|exact W3]. Qed.
Lemma reindexed_dnames J a : dnames (reindexed J a) = dnames a.
Proof. exact (reindex_dnames J NaN a). Qed.
Lemma reindexed_labels J a d : In d (dnames a) -> labels_of (dims (reindexed J a)) d = labels_of J d.
Proof. exact (reindex_labels J NaN a d). Qed.
Lemma point_reindexed J a e : wf a -> (point_of (dims (reindexed J a)) e <-> forall d, In d (dnames a) -> In (e d) (labels_of J d)).
Proof.
  intros (W & _). rewrite point_of_labels; [|change (NoDup (dnames (reindexed J a))); rewrite reindexed_dnames; exact W].
  change (map fst (dims (reindexed J a))) with (dnames (reindexed J a)). rewrite reindexed_dnames. split; intros H d I; specialize (H d I).
  - now rewrite reindexed_labels in H. - now rewrite reindexed_labels.
Qed.

(** ** What a dataset says: [C w e x] is the value [x] of the variable [w] at [e] *)
Definition realizes (D : vars da) (C : string -> env -> val -> Prop) : Prop :=
  NoDup (keys D) /\
  (forall w b, dget D w = Some b -> wf b /\ aux b = []) /\
  (forall w e x, C w e x -> exists b, dget D w = Some b /\ point_of (dims b) e /\ get b e = x) /\
  (forall w b e, dget D w = Some b -> point_of (dims b) e -> get b e = NaN \/ C w e (get b e)).

Lemma realizes_ext D C C' : (forall w e x, C w e x <-> C' w e x) -> realizes D C -> realizes D C'.
Proof.
  intros H (N & W & A & B). split; [exact N|]. split; [exact W|]. split.
  - intros w e x I. apply A, H, I.
  - intros w b e G P. destruct (B w b e G P) as [E|E]; [left; exact E|right; apply H, E].
Qed.

(** ** assign_coords with one new label per label *)
Lemma combine_map_fst {A B} (g : A -> B) l : combine (map g l) l = map (fun x => (g x, x)) l.
Proof. induction l; [reflexivity|]. cbn [map combine]. now rewrite IHl. Qed.
Lemma dget_back (g : label -> label) ls l : In l ls -> (forall x y, In x ls -> In y ls -> g x = g y -> x = y) -> dget (combine (map g ls) ls) (g l) = Some l.
Proof.
  rewrite combine_map_fst. induction ls as [|x ls IH]; intros I H; [destruct I|]. cbn [map dget]. destruct (eq_dec (g l) (g x)) as [E|E].
  - f_equal. symmetry. apply H; auto. left; reflexivity.
  - destruct I as [->|I]; [congruence|]. apply IH; auto. intros a b Ia Ib. apply H; right; auto.
Qed.
Lemma relabel_dnames d old new a : dnames (relabel_da d old new a) = dnames a.
Proof. unfold dnames, relabel_da. cbn [dims]. rewrite map_map. apply map_ext. intros [n l]. cbn [fst]. destruct (String.eqb_spec n d); subst; reflexivity. Qed.
Lemma relabel_labels d old new a n : In d (dnames a) -> labels_of (dims (relabel_da d old new a)) n = if String.eqb n d then new else labels_of (dims a) n.
Proof.
  unfold labels_of, relabel_da, dnames. cbn [dims]. intros I. destruct (String.eqb_spec n d) as [->|Hn].
  - induction (dims a) as [|[k l] ds IH]; [destruct I|]. cbn [map fst]. destruct (String.eqb_spec k d) as [->|Hk]; cbn [dget].
    + destruct (eq_dec d d); congruence.
    + destruct (eq_dec d k); [congruence|]. apply IH. destruct I as [I|I]; [cbn in I; congruence|exact I].
  - clear I. induction (dims a) as [|[k l] ds IH]; [reflexivity|]. cbn [map fst]. destruct (String.eqb_spec k d) as [->|Hk]; cbn [dget].
    + destruct (eq_dec n d); [congruence|exact IH].
    + destruct (eq_dec n k); [reflexivity|exact IH].
Qed.
Lemma relabel_wf d old new a : wf a -> NoDup new -> wf (relabel_da d old new a).
Proof.
  intros (W1 & W2 & W3) N. split; [now rewrite relabel_dnames|]. split.
  - intros n ls I. unfold relabel_da in I. cbn [dims] in I. apply in_map_iff in I. destruct I as ([k l] & E & I). cbn [fst] in E.
    destruct (String.eqb_spec k d); injection E as <- <-; auto. eapply W2; eauto.
  - intros e e' H. rewrite relabel_dnames in H. unfold relabel_da. cbn [get]. destruct (in_dec string_dec d (dnames a)) as [I|I].
    + rewrite (H d I). destruct (dget _ _); apply W3; intros n In'; [unfold upd; destruct (string_dec n d); auto|auto].
    + assert (forall z, (match dget (combine new old) (z d) with Some l => get a (upd z d l) | None => get a z end) = get a z) as K.
      { intros z. destruct (dget _ _); [|reflexivity]. apply W3. intros n In'. unfold upd. destruct (string_dec n d); [congruence|reflexivity]. }
      rewrite !K. apply W3, H.
Qed.
Lemma relabel_point d old new a e : wf a -> In d (dnames a) ->
  (point_of (dims (relabel_da d old new a)) e <-> In (e d) new /\ forall n, In n (dnames a) -> n <> d -> In (e n) (labels_of (dims a) n)).
Proof.
  intros (W & _) I. rewrite point_of_labels; [|change (NoDup (dnames (relabel_da d old new a))); rewrite relabel_dnames; exact W].
  change (map fst (dims (relabel_da d old new a))) with (dnames (relabel_da d old new a)). rewrite relabel_dnames. split.
  - intros H. split; [specialize (H d I); rewrite relabel_labels, String.eqb_refl in H by exact I; exact H|].
    intros n In' Hn. specialize (H n In'). rewrite relabel_labels in H by exact I. destruct (String.eqb_spec n d); [congruence|exact H].
  - intros [H1 H2] n In'. rewrite relabel_labels by exact I. destruct (String.eqb_spec n d) as [->|Hn]; auto.
Qed.

Lemma relabel_realizes d f g ls D C : D <> [] ->
  (forall w b, dget D w = Some b -> In d (dnames b) /\ labels_of (dims b) d = ls) ->
  (forall l, In l ls -> f l = Ok (g l)) -> (forall x y, In x ls -> In y ls -> g x = g y -> x = y) ->
  realizes D C ->
  relabel d f D = Ok (map (fun kv => (fst kv, relabel_da d ls (map g ls) (snd kv))) D) /\
  realizes (map (fun kv => (fst kv, relabel_da d ls (map g ls) (snd kv))) D) (fun w e x => exists l, In l ls /\ e d = g l /\ C w (upd e d l) x).
Proof.
  intros Hne Hd Hf Hg (N & W & A & B).
  assert (forall kv, In kv D -> dget D (fst kv) = Some (snd kv)) as InD by (intros [k a] I; now apply In_dget).
  split.
  - unfold relabel, ds_labels. destruct D as [|[w0 b0] D']; [contradiction|]. cbn [find].
    destruct (Hd w0 b0) as [I0 L0]; [apply (InD (w0, b0)); left; reflexivity|]. cbn [fst snd]. apply memb_In in I0. rewrite I0. cbn [bind snd]. rewrite L0.
    rewrite (mapM_ext f (fun l => Ok (g l))) by exact Hf. rewrite mapM_pure. reflexivity.
  - assert (forall w b', dget (map (fun kv => (fst kv, relabel_da d ls (map g ls) (snd kv))) D) w = Some b' <-> exists b, dget D w = Some b /\ b' = relabel_da d ls (map g ls) b) as G'
      by (intros; apply (dget_map_some (relabel_da d ls (map g ls)))).
    split; [rewrite keys_map_val; exact N|]. split; [|split].
    + intros w b' H. apply G' in H. destruct H as (b & H & ->). destruct (W _ _ H) as [Wb Xb]. destruct (Hd _ _ H) as [Ib Lb]. split; [|exact Xb]. apply relabel_wf; auto.
      apply NoDup_map_on; auto. rewrite <- Lb. apply wf_labels_NoDup, Wb.
    + intros w e x (l & Il & El & Hc). destruct (A _ _ _ Hc) as (b & H & P & E). destruct (W _ _ H) as [Wb Xb]. destruct (Hd _ _ H) as [Ib Lb].
      exists (relabel_da d ls (map g ls) b). split; [apply G'; eauto|]. split.
      * apply relabel_point; auto. split; [rewrite El; apply in_map, Il|]. intros n In' Hn. rewrite point_of_labels in P by apply Wb. specialize (P n In').
        unfold upd in P. destruct (string_dec n d); [congruence|exact P].
      * unfold relabel_da. cbn [get]. rewrite El, dget_back by auto. exact E.
    + intros w b' e H P. apply G' in H. destruct H as (b & H & ->). destruct (W _ _ H) as [Wb Xb]. destruct (Hd _ _ H) as [Ib Lb].
      apply relabel_point in P; auto. destruct P as [P1 P2]. apply in_map_iff in P1. destruct P1 as (l & El & Il).
      assert (get (relabel_da d ls (map g ls) b) e = get b (upd e d l)) as Eg by (unfold relabel_da; cbn [get]; rewrite <- El, dget_back by auto; reflexivity).
      rewrite Eg. destruct (B w b (upd e d l) H) as [E|E]; [|left; exact E|].
      * rewrite point_of_labels by apply Wb. intros n In'. unfold upd. destruct (string_dec n d) as [->|Hn]; [fold (labels_of (dims b) d); rewrite Lb; exact Il|apply P2; auto].
      * right. exists l. auto.
Qed.

(** ** xr.concat along a new dimension *)
Lemma dget_combine_map {A} (h : A -> A) (ks : list label) (l : list A) k : dget (combine ks (map h l)) k = match dget (combine ks l) k with Some a => Some (h a) | None => None end.
Proof. revert l. induction ks as [|k0 ks IH]; intros l; [reflexivity|]. destruct l as [|a l]; [reflexivity|]. cbn [map combine dget]. destruct (eq_dec k k0); auto. Qed.
Lemma combine_fst_snd {A B} (l : list (A * B)) : combine (map fst l) (map snd l) = l.
Proof. induction l as [|[a b] l IH]; [reflexivity|]. cbn [map combine fst snd]. now rewrite IH. Qed.
Lemma concat_get d parts e : get (concat_new d parts) e = match dget parts (e d) with Some a => if in_box (dims a) e then get a e else NaN | None => NaN end.
Proof.
  unfold concat_new. cbn [get]. rewrite align_reindex, dget_combine_map, combine_fst_snd. destruct (dget parts (e d)); reflexivity.
Qed.
Lemma concat_labels d parts n l : n <> d -> (In l (labels_of (dims (concat_new d parts)) n) <-> exists q, In q parts /\ In l (labels_of (dims (snd q)) n)).
Proof.
  intros Hn. unfold concat_new. cbn [dims]. unfold labels_of at 1. cbn [dget]. destruct (eq_dec n d); [congruence|]. fold (labels_of (fold_left (merge_dims union_labels) (map dims (align_outer [] NaN (map snd parts))) []) n).
  rewrite joint_labels, align_reindex. split.
  - intros (a & Ia & Il). apply in_map_iff in Ia. destruct Ia as (a0 & <- & Ia). assert (In n (dnames a0)) as In0 by (rewrite <- (reindex_dnames (fold_left (merge_dims union_labels) (map dims (map snd parts)) []) NaN a0); eapply labels_of_In; eauto).
    rewrite reindex_labels in Il by exact In0. apply joint_labels in Il. destruct Il as (b & Ib & Il). apply in_map_iff in Ib. destruct Ib as (q & <- & Iq). eauto.
  - intros (q & Iq & Il). exists (reindex (fold_left (merge_dims union_labels) (map dims (map snd parts)) []) NaN (snd q)). split; [apply in_map, in_map, Iq|].
    rewrite reindex_labels by (eapply labels_of_In; eauto). apply joint_labels. exists (snd q). split; [apply in_map, Iq|exact Il].
Qed.
Lemma concat_aux d parts : (forall q, In q parts -> aux (snd q) = []) -> aux (concat_new d parts) = [].
Proof.
  intros H. unfold concat_new. cbn [aux]. rewrite align_reindex. destruct parts as [|q parts]; [reflexivity|]. cbn [map]. unfold reindex at 1. cbn [aux]. apply H. left. reflexivity.
Qed.
