(** The viewer of the combined results (C73). *)
From Coq Require Import String Ascii ZArith List Bool Reals Lia Lra.
Import ListNotations.
From Verif Require Import Prelude Values Model_XArray Spec_XArray Proofs_XArray Model_MetricsBase Model_Aggregation Model_Loaders
  Proofs_AggState Model_Combine Spec_Combine Proofs_Combine Proofs_Combine2 Proofs_Combine3 Proofs_Combine4 Proofs_Combine5 Model_Viewer Spec_Viewer.
Local Open Scope string_scope.
Local Open Scope list_scope.

(** ** Selecting one label *)
Definition other (d n : string) : bool := negb (eqb n d).
Lemma other_true d n : other d n = true <-> n <> d.
Proof. unfold other, eqb. destruct (eq_dec n d); cbn; split; congruence. Qed.
Record selected (d : string) (l : label) (b s : da) : Prop := {
  se_wf : wf s;
  se_names : forall n, In n (dnames s) <-> In n (dnames b) /\ n <> d;
  se_labels : forall n, n <> d -> labels_of (dims s) n = labels_of (dims b) n;
  se_get : forall e, get s e = get b (upd e d l);
  se_label : In d (dnames b) -> In l (labels_of (dims b) d) }.
Lemma sel_label_ok d l b : wf b -> In d (dnames b) -> In l (labels_of (dims b) d) -> exists s, sel_label d l b = Ok s /\ selected d l b s /\ dims s = keep (other d) (dims b).
Proof.
  intros W I Il. unfold sel_label. apply names_dget in I. unfold labels_of in Il. destruct (dget (dims b) d) as [have|] eqn:E; [|congruence].
  assert (memb l have = true) as -> by (apply memb_In, Il). eexists. split; [reflexivity|]. split; [|reflexivity]. destruct W as (W1 & W2 & W3). constructor.
  - split; [|split].
    + apply keep_NoDup, W1.
    + intros n ls In0. apply filter_In in In0. eapply W2, In0.
    + intros e e' H. cbn [get]. apply W3. intros n Hn. destruct (string_dec n d) as [->|N]; [rewrite !upd_same; reflexivity|]. rewrite !upd_other by exact N. apply H. apply keep_names. split; [exact Hn|now apply other_true].
  - intros n. unfold dnames at 1. cbn [dims]. rewrite keep_names. fold (other d n). rewrite other_true. reflexivity.
  - intros n N. cbn [dims]. rewrite labels_keep. fold (other d n). apply other_true in N. rewrite N. reflexivity.
  - reflexivity.
  - intros _. unfold labels_of. rewrite E. exact Il.
Qed.
Lemma sel_label_Ok d l b s : wf b -> sel_label d l b = Ok s -> In d (dnames b) /\ selected d l b s /\ dims s = keep (other d) (dims b).
Proof.
  intros W E. pose proof E as E0. unfold sel_label in E0. destruct (dget (dims b) d) as [have|] eqn:G; [|discriminate]. destruct (memb l have) eqn:M; [|discriminate].
  assert (In d (dnames b)) as I by (apply names_dget; congruence). split; [exact I|]. destruct (sel_label_ok d l b W I) as (s' & E' & H); [|rewrite E in E'; injection E' as ->; exact H].
  unfold labels_of. rewrite G. apply memb_In, M.
Qed.
Lemma selected_none d l b : wf b -> ~ In d (dnames b) -> selected d l b b.
Proof.
  intros W N. constructor; auto.
  - intros n. split; [intros I; split; [exact I|congruence]|tauto].
  - intros e. apply W. intros n I. rewrite upd_other; congruence.
  - contradiction.
Qed.

(** ** Selecting in all variables *)
Section Select.
  Variables (d : string) (l : label).
  Definition sel_entry (kv : string * da) : result (string * da) :=
    if memb d (dnames (snd kv)) then do a <- sel_label d l (snd kv); Ok (fst kv, a) else Ok kv.
  Lemma sel_entries ds ds' : mapM sel_entry ds = Ok ds' -> forall w, 
    match dget ds w, dget ds' w with
    | Some b, Some s => wf b -> selected d l b s
    | None, None => True | _, _ => False end.
  Proof.
    revert ds'. induction ds as [|[k b] ds IH]; intros ds' E w; cbn [mapM] in E; [injection E as <-; exact I|].
    destruct (sel_entry (k, b)) as [[k' s]|] eqn:E1; [|discriminate]. cbn [bind] in E. destruct (mapM sel_entry ds) as [r|] eqn:E2; [|discriminate]. injection E as <-.
    assert (k' = k /\ (wf b -> selected d l b s)) as [-> H].
    { unfold sel_entry in E1. cbn [fst snd] in E1. destruct (memb d (dnames b)) eqn:Mb.
      - destruct (sel_label d l b) as [a|] eqn:Es; [|discriminate]. injection E1 as <- <-. split; [reflexivity|]. intros W. apply (sel_label_Ok d l b a W Es).
      - injection E1 as <- <-. split; [reflexivity|]. intros W. apply selected_none; [exact W|]. now apply memb_false. }
    cbn [dget]. destruct (eq_dec w k); [exact H|apply IH; reflexivity].
  Qed.
  Lemma sel_entries_ok ds : (forall k b, In (k, b) ds -> wf b /\ (In d (dnames b) -> In l (labels_of (dims b) d))) -> exists ds', mapM sel_entry ds = Ok ds'.
  Proof.
    induction ds as [|[k b] ds IH]; intros H; [eexists; reflexivity|]. cbn [mapM]. destruct (H k b (or_introl eq_refl)) as [W Hl].
    destruct IH as (r & Er); [intros k' b' I; apply (H k'); right; exact I|]. rewrite Er. unfold sel_entry at 1. cbn [fst snd]. destruct (memb d (dnames b)) eqn:Mb.
    - apply memb_In in Mb. destruct (sel_label_ok d l b W Mb (Hl Mb)) as (s & -> & _). eexists. reflexivity.
    - eexists. reflexivity.
  Qed.
  Lemma sel_ds_Ok ds ds' : sel_ds ds (d, l) = Ok ds' -> has_dim ds d = true /\ forall w, 
    match dget ds w, dget ds' w with
    | Some b, Some s => wf b -> selected d l b s
    | None, None => True | _, _ => False end.
  Proof. unfold sel_ds. cbn [fst snd]. destruct (has_dim ds d); [|discriminate]. intros E. split; [reflexivity|]. apply sel_entries, E. Qed.
End Select.

(** ** The five selections *)
Definition chosen (c : choice) : list (string * label) :=
  [("region", LS (c_region c)); ("metric", LS (c_metric c)); ("level", c_level c); ("year", LS (c_year c)); ("resolution", LS (c_resolution c))].
Fixpoint sel_many (ds : vars da) (dl : list (string * label)) : result (vars da) :=
  match dl with [] => Ok ds | x :: dl' => do ds' <- sel_ds ds x; sel_many ds' dl' end.
Lemma selection_many ds c : selection_of ds c = do ds' <- sel_many ds (chosen c); dgetE ds' (c_variable c).
Proof.
  unfold selection_of, chosen. cbn [sel_many]. destruct (sel_ds ds _) as [d1|]; [|reflexivity]. cbn [bind]. destruct (sel_ds d1 _) as [d2|]; [|reflexivity]. cbn [bind].
  destruct (sel_ds d2 _) as [d3|]; [|reflexivity]. cbn [bind]. destruct (sel_ds d3 _) as [d4|]; [|reflexivity]. cbn [bind]. destruct (sel_ds d4 _) as [d5|]; reflexivity.
Qed.
Definition upds (e : env) (dl : list (string * label)) : env := fold_right (fun x e => upd e (fst x) (snd x)) e dl.
Record selected_many (dl : list (string * label)) (b s : da) : Prop := {
  sm_wf : wf s;
  sm_names : forall n, In n (dnames s) <-> In n (dnames b) /\ ~ In n (map fst dl);
  sm_labels : forall n, ~ In n (map fst dl) -> labels_of (dims s) n = labels_of (dims b) n;
  sm_get : forall e, get s e = get b (upds e dl);
  sm_label : forall d l, In (d, l) dl -> In d (dnames b) -> In l (labels_of (dims b) d) }.
Lemma sel_many_Ok dl : NoDup (map fst dl) -> forall ds ds', sel_many ds dl = Ok ds' -> forall w,
    match dget ds w, dget ds' w with
    | Some b, Some s => wf b -> selected_many dl b s
    | None, None => True | _, _ => False end.
Proof.
  induction dl as [|[d l] dl IH]; intros N ds ds' E w; cbn [sel_many] in E.
  - injection E as <-. destruct (dget ds w) as [b|]; [|exact I]. intros W. constructor; auto; cbn; try tauto; try contradiction.
  - destruct (sel_ds ds (d, l)) as [d1|] eqn:E1; [|discriminate]. cbn [bind] in E. apply sel_ds_Ok in E1. destruct E1 as [_ H1]. cbn [map fst] in N. inversion N as [|? ? N1 N2]; subst.
    specialize (IH N2 d1 ds' E w). specialize (H1 w). destruct (dget ds w) as [b|]; destruct (dget d1 w) as [b1|]; try contradiction; destruct (dget ds' w) as [s|]; try contradiction; [|exact I].
    intros W. destruct (H1 W) as [S1 S2 S3 S4 S5]. destruct (IH S1) as [T1 T2 T3 T4 T5]. constructor.
    + exact T1.
    + intros n. rewrite T2, S2. cbn [map fst In]. split; [intros [[? ?] ?]; split; [assumption|intros [->|?]; contradiction]|intros [? Hn]; repeat split; auto; intros ->; apply Hn; auto].
    + intros n Hn. cbn [map fst In] in Hn. rewrite T3, S3; auto; intros ->; apply Hn; auto.
    + intros e. rewrite T4, S4. reflexivity.
    + intros d' l' [[= <- <-]|I] Id; [now apply S5|]. assert (d' <> d) as Hd by (intros ->; apply N1; apply in_map_iff; exists (d, l'); auto). rewrite <- (S3 d' Hd). apply T5; [exact I|]. apply S2. auto.
Qed.
Lemma sel_many_ok dl : NoDup (map fst dl) -> forall ds, NoDup (keys ds) -> (forall w b, dget ds w = Some b -> wf b) ->
  (forall d l, In (d, l) dl -> (exists w b, dget ds w = Some b /\ In d (dnames b)) /\ forall w b, dget ds w = Some b -> In d (dnames b) -> In l (labels_of (dims b) d)) ->
  exists ds', sel_many ds dl = Ok ds'.
Proof.
  induction dl as [|[d l] dl IH]; intros N ds Nk Wk H; [eexists; reflexivity|]. cbn [sel_many]. cbn [map fst] in N. inversion N as [|? ? N1 N2]; subst.
  assert (exists d1, sel_ds ds (d, l) = Ok d1) as (d1 & E1).
  { destruct (H d l (or_introl eq_refl)) as [(w & b & G & Id) Hl]. unfold sel_ds. cbn [fst snd]. assert (has_dim ds d = true) as ->.
    { unfold has_dim. apply existsb_exists. exists (w, b). split; [now apply dget_In|]. now apply memb_In. }
    apply sel_entries_ok. intros k b' I. apply (In_dget _ _ _ Nk) in I. split; [eapply Wk; eauto|]. intros Id'. eapply Hl; eauto. }
  rewrite E1. cbn [bind]. pose proof E1 as E2. apply sel_ds_Ok in E2. destruct E2 as [_ H1].
  apply IH; [exact N2| | |].
  - unfold sel_ds in E1. cbn [fst snd] in E1. destruct (has_dim ds d); [|discriminate]. replace (keys d1) with (keys ds); [exact Nk|].
    clear -E1. revert d1 E1. induction ds as [|[k b] ds IHd]; intros d1 E; cbn [mapM] in E; [injection E as <-; reflexivity|].
    match type of E with bind ?x _ = _ => destruct x as [[k' s]|] eqn:Ek; [|discriminate] end. cbn [bind] in E.
    match type of E with bind ?x _ = _ => destruct x as [r|] eqn:Er; [|discriminate] end. injection E as <-. change (keys ((k, b) :: ds)) with (k :: keys ds). change (keys ((k', s) :: r)) with (k' :: keys r). rewrite (IHd r eq_refl). f_equal.
    cbn [fst snd] in Ek. destruct (memb d (dnames b)); [|injection Ek as <- _; reflexivity]. destruct (sel_label d l b); [|discriminate]. injection Ek as <- _. reflexivity.
  - intros w b1 G. specialize (H1 w). rewrite G in H1. destruct (dget ds w) as [b|] eqn:Gb; [|contradiction]. apply H1. eapply Wk; eauto.
  - intros d' l' I. assert (d' <> d) as Hd by (intros ->; apply N1; apply in_map_iff; exists (d, l'); auto). destruct (H d' l' (or_intror I)) as [(w & b & G & Id) Hl]. split.
    + specialize (H1 w). rewrite G in H1. destruct (dget d1 w) as [b1|] eqn:G1; [|contradiction]. exists w, b1. split; [exact G1|]. apply (se_names _ _ _ _ (H1 (Wk w b G))). auto.
    + intros w' b1 G1 Id1. specialize (H1 w'). rewrite G1 in H1. destruct (dget ds w') as [b'|] eqn:Gb; [|contradiction]. pose proof (H1 (Wk w' b' Gb)) as S. rewrite (se_labels _ _ _ _ S d' Hd). eapply Hl; [exact Gb|]. apply (se_names _ _ _ _ S), Id1.
Qed.
