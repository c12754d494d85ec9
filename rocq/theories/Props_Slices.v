(** C54: statistical_inference/utils.py apply_to_slices. *)
From Coq Require Import String ZArith List Bool Lia.
Import ListNotations.
From Verif Require Import Prelude Values Model_XArray Spec_XArray Proofs_XArray Proofs_Ensemble2 Proofs_Beam9 Proofs_AggState Model_Ensemble Model_Resample.
Local Open Scope string_scope.
Local Open Scope list_scope.

(** ** Specification *)
(** One index per dimension, each below its size. *)
Definition index_tuple (shape idx : list nat) : Prop := Forall2 (fun i n => (i < n)%nat) idx shape.
(** [shape] are the sizes of the dimensions [D]: some argument has the dimension, and all that have
    it agree on its size. *)
Definition slices_agree (D : list string) (args : list da) (shape : list nat) : Prop :=
  Forall2 (fun d n => (exists a, In a args /\ In d (dnames a)) /\
                      forall a ls, In a args -> dget (dims a) d = Some ls -> length ls = n) D shape.
(** The label of dimension [d] in the slice [idx], if the labels along each dimension are [lab]. *)
Definition slice_label (D : list string) (lab : string -> list label) (idx : list nat) (d : string) (l : label) : Prop :=
  exists i, dget (combine D idx) d = Some i /\ nth_error (lab d) i = Some l.

(** ** The calls *)
Theorem C54_every_index_once : forall shape,
  NoDup (ndindex shape) /\ (forall idx, In idx (ndindex shape) <-> index_tuple shape idx) /\
  length (ndindex shape) = fold_right Nat.mul 1%nat shape.
Proof.
  unfold index_tuple. induction shape as [|n shape (N & I & L)]; [split; [|split]|split; [|split]].
  - cbn. constructor; [intros []|constructor].
  - intros idx. cbn. split; [intros [<-|[]]; constructor|]. intros H. inversion H. now left.
  - reflexivity.
  - cbn [ndindex]. assert (forall l, NoDup l -> NoDup (flat_map (fun i => map (cons i) (ndindex shape)) l)) as K; [|apply K, seq_NoDup].
    induction l as [|i l IH]; intros Nl; [constructor|]. cbn [flat_map]. apply NoDup_cons_iff in Nl. destruct Nl as [Ni Nl].
    assert (forall (A : Type) (l1 l2 : list A), NoDup l1 -> NoDup l2 -> (forall x, In x l1 -> ~ In x l2) -> NoDup (l1 ++ l2)) as App.
    { intros A l1 l2 H1 H2 H3. induction l1 as [|x l1 IH1]; [exact H2|]. cbn. apply NoDup_cons_iff in H1. destruct H1. constructor.
      - rewrite in_app_iff. intros [J|J]; [contradiction|]. apply (H3 x); [now left|exact J].
      - apply IH1; auto. intros y Hy. apply H3. now right. }
    apply App; [|now apply IH|].
    + apply FinFun.Injective_map_NoDup; auto. intros a b E. now injection E.
    + intros x Hx J. apply in_map_iff in Hx. destruct Hx as (y & <- & _). apply in_flat_map in J. destruct J as (j & Hj & J). apply in_map_iff in J. destruct J as (z & [= <- <-] & _). contradiction.
  - intros idx. cbn [ndindex]. rewrite in_flat_map. split.
    + intros (i & Hi & J). apply in_seq in Hi. apply in_map_iff in J. destruct J as (y & <- & Hy). constructor; [lia|]. now apply I.
    + intros H. inversion H as [|i m idx' sh Hi HF]; subst. exists i. split; [apply in_seq; lia|]. apply in_map. now apply I.
  - cbn [ndindex fold_right]. rewrite <- L. generalize 0%nat. induction n as [|n IH]; intros a; [reflexivity|]. cbn [seq flat_map]. rewrite app_length, map_length, IH. reflexivity.
Qed.
Print Assumptions C54_every_index_once.

(** ** The checks *)
Lemma add_sizes_Ok D a : forall s s', add_sizes D a s = Ok s' ->
  (forall d n, dget s d = Some n -> dget s' d = Some n) /\
  (forall d ls, In d D -> dget (dims a) d = Some ls -> dget s' d = Some (length ls)) /\
  (forall d n, dget s' d = Some n -> dget s d = Some n \/ exists ls, dget (dims a) d = Some ls /\ length ls = n).
Proof.
  induction D as [|d0 D IH]; intros s s'; cbn [add_sizes].
  - intros [= <-]. split; [auto|]. split; [intros d ls []|auto].
  - destruct (dget (dims a) d0) as [ls0|] eqn:E0.
    + destruct (dget s d0) as [n0|] eqn:S0.
      * destruct (Nat.eqb_spec n0 (length ls0)) as [->|]; [|discriminate]. intros H. apply IH in H. destruct H as (H1 & H2 & H3). split; [exact H1|]. split; [|exact H3].
        intros d ls [->|I] E; [|auto]. rewrite E0 in E. injection E as ->. now apply H1.
      * intros H. apply IH in H. destruct H as (H1 & H2 & H3). split; [|split].
        -- intros d n G. apply H1. rewrite dget_dset. destruct (eq_dec d d0) as [->|]; [congruence|exact G].
        -- intros d ls [->|I] E; [|auto]. rewrite E0 in E. injection E as ->. apply H1. rewrite dget_dset. now destruct (eq_dec d d).
        -- intros d n G. apply H3 in G. destruct G as [G|G]; [|now right]. rewrite dget_dset in G. destruct (eq_dec d d0) as [->|]; [|now left]. injection G as <-. right. eauto.
    + intros H. apply IH in H. destruct H as (H1 & H2 & H3). split; [exact H1|]. split; [|exact H3]. intros d ls [->|I] E; [congruence|auto].
Qed.
Lemma all_sizes_Ok D args : forall s s', all_sizes D args s = Ok s' ->
  (forall d n, dget s d = Some n -> dget s' d = Some n) /\
  (forall a d ls, In a args -> In d D -> dget (dims a) d = Some ls -> dget s' d = Some (length ls)) /\
  (forall d n, dget s' d = Some n -> dget s d = Some n \/ exists a ls, In a args /\ dget (dims a) d = Some ls /\ length ls = n).
Proof.
  induction args as [|a args IH]; intros s s'; cbn [all_sizes].
  - intros [= <-]. split; [auto|]. split; [intros x d ls []|auto].
  - destruct (add_sizes D a s) as [s1|] eqn:E; [|discriminate]. cbn [bind]. intros H. apply add_sizes_Ok in E. destruct E as (E1 & E2 & E3). apply IH in H. destruct H as (H1 & H2 & H3).
    split; [auto|]. split.
    + intros x d ls [<-|I] J G; eauto.
    + intros d n G. apply H3 in G. destruct G as [G|(x & ls & I & G)]; [|right; exists x, ls; split; [now right|exact G]].
      apply E3 in G. destruct G as [G|(ls & G)]; [now left|]. right. exists a, ls. split; [now left|exact G].
Qed.
Lemma add_sizes_Err D a : forall s e, add_sizes D a s = Err e -> e = ValueError /\ exists d n ls, In d D /\ dget (dims a) d = Some ls /\ dget s d = Some n /\ length ls <> n.
Proof.
  induction D as [|d0 D IH]; intros s e; cbn [add_sizes]; [discriminate|]. destruct (dget (dims a) d0) as [ls0|] eqn:E0.
  - destruct (dget s d0) as [n0|] eqn:S0.
    + destruct (Nat.eqb_spec n0 (length ls0)) as [->|N].
      * intros H. apply IH in H. destruct H as (-> & d & n & ls & I & H). split; auto. exists d, n, ls. split; [now right|exact H].
      * intros [= <-]. split; auto. exists d0, n0, ls0. split; [now left|auto].
    + intros H. apply IH in H. destruct H as (-> & d & n & ls & I & G & H & N). split; auto. rewrite dget_dset in H. destruct (eq_dec d d0) as [->|].
      * injection H as <-. congruence.
      * exists d, n, ls. split; [now right|auto].
  - intros H. apply IH in H. destruct H as (-> & d & n & ls & I & H). split; auto. exists d, n, ls. split; [now right|exact H].
Qed.
Lemma all_sizes_Err D args : forall s e, all_sizes D args s = Err e -> e = ValueError /\
  exists d a ls n, In d D /\ In a args /\ dget (dims a) d = Some ls /\ length ls <> n /\ (dget s d = Some n \/ exists b ls', In b args /\ dget (dims b) d = Some ls' /\ length ls' = n).
Proof.
  induction args as [|a args IH]; intros s e; cbn [all_sizes]; [discriminate|]. destruct (add_sizes D a s) as [s1|e1] eqn:E; cbn [bind].
  - intros H. apply IH in H. destruct H as (-> & d & x & ls & n & I & J & G & N & H). split; auto. exists d, x, ls, n. split; auto. split; [now right|]. split; auto. split; auto.
    destruct H as [H|(b & ls' & Hb & H)]; [|right; exists b, ls'; split; [now right|exact H]]. apply add_sizes_Ok in E. destruct E as (_ & _ & E3). apply E3 in H. destruct H as [H|(ls' & H)]; [now left|].
    right. exists a, ls'. split; [now left|exact H].
  - intros [= <-]. apply add_sizes_Err in E. destruct E as (-> & d & n & ls & I & G & H & N). split; auto. exists d, a, ls, n. split; auto. split; [now left|]. auto.
Qed.

Lemma shape_found args sizes D shape : slices_agree D args shape ->
  (forall a d ls, In a args -> In d D -> dget (dims a) d = Some ls -> dget sizes d = Some (length ls)) ->
  mapM (fun d => match dget sizes d with Some n => Ok n | None => Err ValueError end) D = Ok shape.
Proof.
  unfold slices_agree. induction 1 as [|d n D sh [(a & Ia & Id) H] S IH]; intros K; [reflexivity|]. cbn [mapM].
  apply keys_dget in Id. destruct Id as [ls Els]. rewrite (K a d ls Ia (or_introl eq_refl) Els). cbn [bind].
  rewrite IH by (intros x d' l I1 I2; apply K; auto; now right). cbn [bind]. now rewrite (H a ls Ia Els).
Qed.
Lemma agree_In D args shape d : slices_agree D args shape -> In d D -> exists n, forall a ls, In a args -> dget (dims a) d = Some ls -> length ls = n.
Proof. unfold slices_agree. induction 1 as [|d0 n D sh [_ H] S IH]; intros []; [subst; eauto|auto]. Qed.
(** The function is called on the slices at every index tuple of the sizes of the dimensions, in order,
    and the results are combined by their coordinates.  If some dimension is in no argument, or two
    arguments have different sizes for it, it is a ValueError and nothing is called; so it is if a
    dimension has size zero. *)
Theorem C54_calls : forall func args D,
  (forall shape, slices_agree D args shape ->
     apply_to_slices func args D =
     (do results <- mapM (fun idx => func (map (slice_arg D idx) args)) (ndindex shape);
      match results with [] => Err ValueError | _ => Ok (combine_by_coords results) end)) /\
  ((forall shape, ~ slices_agree D args shape) -> apply_to_slices func args D = Err ValueError).
Proof.
  intros func args D. unfold apply_to_slices. split.
  - intros shape S. destruct (all_sizes D args []) as [sizes|e] eqn:E.
    + cbn [bind]. rewrite (shape_found args sizes D shape S); [reflexivity|]. now apply all_sizes_Ok in E.
    + exfalso. apply all_sizes_Err in E. destruct E as (_ & d & a & ls & n & I & J & G & N & [H|(b & ls' & Ib & H & Ln)]); [discriminate|].
      destruct (agree_In _ _ _ _ S I) as [m Hm]. apply N. rewrite (Hm a ls J G). rewrite <- Ln. symmetry. now apply (Hm b).
  - intros S. destruct (all_sizes D args []) as [sizes|e] eqn:E; [|apply all_sizes_Err in E; destruct E as [-> _]; reflexivity]. cbn [bind].
    apply all_sizes_Ok in E. destruct E as (_ & E2 & E3).
    destruct (mapM _ D) as [shape|e] eqn:M.
    + exfalso. apply (S shape). apply mapM_Ok_Forall2 in M. unfold slices_agree.
      assert (forall d a ls, In a args -> In d D -> dget (dims a) d = Some ls -> dget sizes d = Some (length ls)) as E2' by eauto. clear E2 S. revert E2'.
      induction M as [|d n D' sh H M IH]; intros E2; constructor.
      * destruct (dget sizes d) as [m|] eqn:G; [|discriminate]. injection H as ->. split.
        -- apply E3 in G. destruct G as [G|(a & ls & Ia & G & _)]; [discriminate|]. exists a. split; auto. exact (dget_Some_keys _ _ G).
        -- intros a ls Ia G'. apply (E2 d a ls) in G'; auto; [|now left]. congruence.
      * apply IH. intros d' a ls I1 I2. apply E2; auto. now right.
    + cbn [bind]. f_equal. clear -M. revert e M. induction D as [|d D IH]; intros e; [discriminate|]. cbn [mapM]. destruct (dget sizes d); [|cbn; congruence]. cbn [bind].
      destruct (mapM _ D) as [x|e'] eqn:M; [discriminate|]. cbn [bind]. intros [= <-]. now apply IH.
Qed.
Print Assumptions C54_calls.

(** ** The slices *)
(** A slice has the same dimensions; along a slice dimension only the label at its index, along any other
    dimension all labels; and the same values. *)
Theorem C54_slice : forall D idx a d ls,
  dget (dims a) d = Some ls ->
  (forall i l, dget (combine D idx) d = Some i -> nth_error ls i = Some l -> dget (dims (slice_arg D idx a)) d = Some [l]) /\
  (dget (combine D idx) d = None -> dget (dims (slice_arg D idx a)) d = Some ls) /\
  (forall d', In d' (dnames (slice_arg D idx a)) <-> In d' (dnames a)) /\
  (forall e, get (slice_arg D idx a) e = get a e).
Proof.
  intros D idx a d ls H. unfold slice_arg. cbn [dims get].
  assert (forall ds : dimlist, dget ds d = Some ls -> dget (map (fun p => match dget (combine D idx) (fst p) with
        | Some i => (fst p, match nth_error (snd p) i with Some l => [l] | None => [] end) | None => p end) ds) d =
      Some (match dget (combine D idx) d with Some i => match nth_error ls i with Some l => [l] | None => [] end | None => ls end)) as K.
  { induction ds as [|[n m] ds IH]; [discriminate|]. cbn [map dget fst snd]. destruct (eq_dec d n) as [->|N].
    - intros [= ->]. destruct (dget (combine D idx) n); cbn [dget]; destruct (eq_dec n n); congruence.
    - intros G. destruct (dget (combine D idx) n); cbn [dget]; destruct (eq_dec d n); try contradiction; auto. }
  split; [|split; [|split]].
  - intros i l Hi Hl. rewrite (K _ H), Hi, Hl. reflexivity.
  - intros Hn. rewrite (K _ H), Hn. reflexivity.
  - intros d'. unfold dnames. cbn [dims]. rewrite map_map.
    assert (map (fun x : string * list label => fst match dget (combine D idx) (fst x) with
        | Some i => (fst x, match nth_error (snd x) i with Some l => [l] | None => [] end) | None => x end) (dims a) = map fst (dims a)) as ->; [|tauto].
    apply map_ext. intros [n m]. cbn. destruct (dget (combine D idx) n); reflexivity.
  - reflexivity.
Qed.
Print Assumptions C54_slice.

(** ** Reassembly *)
Lemma combine_label (D : list string) shape idx d n : NoDup D -> length D = length shape -> index_tuple shape idx -> In (d, n) (combine D shape) ->
  exists i, dget (combine D idx) d = Some i /\ (i < n)%nat.
Proof.
  unfold index_tuple. intros N L H. revert D N L. induction H as [|i m idx sh Hi HF IH]; intros [|d0 D] N L; try discriminate; [intros []|]. cbn [combine dget].
  apply NoDup_cons_iff in N. destruct N as [Nd N]. intros [[= -> ->]|J].
  - exists i. destruct (eq_dec d d); [auto|congruence].
  - destruct (eq_dec d d0) as [->|]; [exfalso; apply Nd; now apply in_combine_l in J|]. apply IH; auto.
Qed.
Lemma tuple_eq (D : list string) shape idx idx' : NoDup D -> length D = length shape -> index_tuple shape idx -> index_tuple shape idx' ->
  (forall d, In d D -> dget (combine D idx) d = dget (combine D idx') d) -> idx = idx'.
Proof.
  unfold index_tuple. intros N L H. revert D N L idx'. induction H as [|i m idx sh Hi HF IH]; intros [|d0 D] N L idx' H' K; try discriminate; inversion H' as [|j m' idx2 sh' Hj HF']; subst; [reflexivity|].
  apply NoDup_cons_iff in N. destruct N as [Nd N]. f_equal.
  - specialize (K d0 (or_introl eq_refl)). cbn [combine dget] in K. destruct (eq_dec d0 d0); congruence.
  - apply (IH D); auto. intros d Hd. specialize (K d (or_intror Hd)). cbn [combine dget] in K. destruct (eq_dec d d0) as [->|]; [contradiction|exact K].
Qed.

(** If all arguments have the labels [lab] along the slice dimensions and the function keeps the label of
    the slice it is given, then the combined array has, at the points of each slice, that slice's
    result, has all the labels of the slice dimensions, and no labels that no result has. *)
Theorem C54_reassembled : forall func args D lab r,
  NoDup D -> (forall d, In d D -> NoDup (lab d)) ->
  (forall a d ls, In a args -> In d D -> dget (dims a) d = Some ls -> ls = lab d) ->
  (forall idx y, func (map (slice_arg D idx) args) = Ok y ->
     forall d l, slice_label D lab idx d l -> dget (dims y) d = Some [l]) ->
  apply_to_slices func args D = Ok r ->
  let tuple := index_tuple (map (fun d => length (lab d)) D) in
  (forall idx, tuple idx -> exists y, func (map (slice_arg D idx) args) = Ok y /\
     forall e, point_of (dims y) e -> get r e = get y e) /\
  (forall d l, In d D -> (In l (labels_of (dims r) d) <-> In l (lab d))) /\
  (forall d l, In l (labels_of (dims r) d) <-> exists idx y, tuple idx /\ func (map (slice_arg D idx) args) = Ok y /\ In l (labels_of (dims y) d)) /\
  (forall d, In d (dnames r) <-> exists idx y, tuple idx /\ func (map (slice_arg D idx) args) = Ok y /\ In d (dnames y)).
Proof.
  intros func args D lab r ND NL HL HK H tuple. set (shape := map (fun d => length (lab d)) D) in *.
  destruct (C54_calls func args D) as [C1 C2].
  assert (slices_agree D args shape) as S.
  { destruct (all_sizes D args []) as [sizes|e] eqn:E.
    2: { unfold apply_to_slices in H. rewrite E in H. discriminate. }
    unfold apply_to_slices in H. rewrite E in H. cbn [bind] in H. apply all_sizes_Ok in E. destruct E as (_ & E2 & E3).
    destruct (mapM _ D) as [sh|] eqn:M in H; [|discriminate]. apply mapM_Ok_Forall2 in M. unfold slices_agree, shape.
    clear H C1 C2 tuple shape ND NL HK. induction M as [|d n D sh Hd M IH]; [constructor|]. cbn [map]. constructor.
    - destruct (dget sizes d) as [m|] eqn:G; [|discriminate]. apply E3 in G. destruct G as [G|(a & ls & Ia & G & _)]; [discriminate|]. split.
      + exists a. split; auto. exact (dget_Some_keys _ _ G).
      + intros a' ls' Ia' G'. now rewrite (HL a' d ls' Ia' (or_introl eq_refl) G').
    - apply IH; [intros a d' ls I J; apply (HL a d' ls I); now right|intros a d' ls I J; apply (E2 a d' ls I); now right]. }
  rewrite (C1 shape S) in H. clear C1 C2. destruct (mapM _ (ndindex shape)) as [results|] eqn:M; [|discriminate]. cbn [bind] in H.
  assert (results <> [] /\ r = combine_by_coords results) as [NE ->] by (destruct results; [discriminate|split; congruence]). clear H.
  apply mapM_Ok_Forall2 in M. destruct (C54_every_index_once shape) as (N & I & _).
  assert (forall idx, tuple idx -> exists y, func (map (slice_arg D idx) args) = Ok y /\ In y results) as R1.
  { intros idx Hi. apply I in Hi. clear -M Hi. induction M; [destruct Hi|]. destruct Hi as [->|Hi]; [eexists; split; [eassumption|now left]|].
    destruct (IHM Hi) as (z & Hz & J). exists z. split; [exact Hz|now right]. }
  assert (forall y, In y results -> exists idx, tuple idx /\ func (map (slice_arg D idx) args) = Ok y) as R2.
  { intros y Hy. assert (exists idx, In idx (ndindex shape) /\ func (map (slice_arg D idx) args) = Ok y) as (idx & J & E).
    { clear -M Hy. induction M; [destruct Hy|]. destruct Hy as [->|Hy]; [eexists; split; [now left|eassumption]|]. destruct (IHM Hy) as (z & J & E). exists z. split; [now right|exact E]. }
    exists idx. split; [now apply I|exact E]. }
  assert (length D = length shape) as LD by (unfold shape; now rewrite map_length).
  assert (forall d, In d D -> In (d, length (lab d)) (combine D shape)) as CD.
  { intros d Hd. unfold shape. clear -Hd. induction D as [|d0 D IH]; [destruct Hd|]. cbn. destruct Hd as [->|Hd]; [now left|right; auto]. }
  assert (forall idx d, tuple idx -> In d D -> exists l, slice_label D lab idx d l /\ In l (lab d)) as SL.
  { intros idx d Ti Hd. destruct (combine_label D shape idx d _ ND LD Ti (CD d Hd)) as (i & Gi & Li). destruct (nth_error (lab d) i) as [l|] eqn:En.
    - exists l. split; [exists i; auto|]. eapply nth_error_In; eauto.
    - apply nth_error_None in En. lia. }
  assert (forall y e, In y results -> point_of (dims y) e -> forall idx, tuple idx -> func (map (slice_arg D idx) args) = Ok y -> forall d l, In d D -> slice_label D lab idx d l -> e d = l) as PL.
  { intros y e _ P idx Ti E d l Hd Hl. specialize (HK idx y E d l Hl). specialize (P d [l] (dget_In _ _ HK)). destruct P as [<-|[]]. reflexivity. }
  split; [|split; [|split]].
  - intros idx Ti. destruct (R1 idx Ti) as (y & E & Iy). exists y. split; auto. intros e P. cbn [combine_by_coords get].
    destruct (find (fun a => in_box (dims a) e) results) as [z|] eqn:F.
    + apply find_some in F. destruct F as [Iz Pz]. apply in_box_iff in Pz. destruct (R2 z Iz) as (idx' & Ti' & E').
      assert (idx = idx') as <-; [|congruence]. apply (tuple_eq D shape); auto. intros d Hd.
      destruct (SL idx d Ti Hd) as (l & (i & Gi & Hl) & _). destruct (SL idx' d Ti' Hd) as (l' & (i' & Gi' & Hl') & _).
      assert (e d = l) as E1 by (apply (PL y e Iy P idx Ti E d l Hd); exists i; auto).
      assert (e d = l') as E2 by (apply (PL z e Iz Pz idx' Ti' E' d l' Hd); exists i'; auto).
      rewrite Gi, Gi'. f_equal. assert (l = l') as <- by congruence. apply (proj1 (NoDup_nth_error (lab d)) (NL d Hd)); [|congruence]. apply nth_error_Some. congruence.
    + exfalso. apply (find_none _ _ F) in Iy. apply in_box_iff in P. congruence.
  - assert (forall d l, In l (labels_of (dims (combine_by_coords results)) d) <-> exists y, In y results /\ In l (labels_of (dims y) d)) as LJ.
    { intros d l. cbn [combine_by_coords dims]. fold (joint (map dims results) []). rewrite labels_joint. unfold labels_of at 1. cbn [dget]. split.
      - intros [[]|(ds & J & K)]. apply in_map_iff in J. destruct J as (y & <- & J). eauto.
      - intros (y & J & K). right. exists (dims y). split; [now apply in_map|exact K]. }
    intros d l Hd. rewrite LJ. split.
    + intros (y & Iy & Hl). destruct (R2 y Iy) as (idx & Ti & E). destruct (SL idx d Ti Hd) as (l' & Sl & Il). unfold labels_of in Hl. rewrite (HK idx y E d l' Sl) in Hl. destruct Hl as [<-|[]]. exact Il.
    + intros Il. destruct results as [|y0 results]; [congruence|]. destruct (R2 y0 (or_introl eq_refl)) as (idx0 & T0 & E0).
      apply In_nth_error in Il. destruct Il as [j Hj]. assert (j < length (lab d))%nat as Lj by (apply nth_error_Some; congruence).
      assert (exists idx, tuple idx /\ dget (combine D idx) d = Some j) as (idx & Ti & Gi).
      { clear -T0 Lj Hd ND. unfold tuple, index_tuple, shape in *. clear tuple shape. revert idx0 T0. induction D as [|d0 D IH]; [destruct Hd|]. intros idx0 T0. cbn [map] in T0.
        inversion T0 as [|i m idx sh Hi HF]; subst. apply NoDup_cons_iff in ND. destruct ND as [Nd ND]. destruct Hd as [->|Hd].
        - exists (j :: idx). split; [constructor; auto|]. cbn [combine dget]. destruct (eq_dec d d); congruence.
        - destruct (IH ND Hd idx HF) as (idx' & Ti & G). exists (i :: idx'). split; [constructor; auto|]. cbn [combine dget]. destruct (eq_dec d d0) as [->|]; [contradiction|exact G]. }
      destruct (R1 idx Ti) as (y & E & Iy). exists y. split; auto. unfold labels_of. rewrite (HK idx y E d l); [now left|]. exists j. auto.
  - intros d l. cbn [combine_by_coords dims]. fold (joint (map dims results) []). rewrite labels_joint. unfold labels_of at 1. cbn [dget]. split.
    + intros [[]|(ds & J & K)]. apply in_map_iff in J. destruct J as (y & <- & J). destruct (R2 y J) as (idx & Ti & E). eauto.
    + intros (idx & y & Ti & E & K). right. exists (dims y). split; auto. apply in_map. destruct (R1 idx Ti) as (y' & E' & Iy). congruence.
  - intros d. unfold dnames at 1. cbn [combine_by_coords dims]. fold (joint (map dims results) []). rewrite names_joint. cbn [map]. split.
    + intros [[]|(ds & J & K)]. apply in_map_iff in J. destruct J as (y & <- & J). destruct (R2 y J) as (idx & Ti & E). exists idx, y. auto.
    + intros (idx & y & Ti & E & K). right. exists (dims y). split; auto. apply in_map. destruct (R1 idx Ti) as (y' & E' & Iy). congruence.
Qed.
Print Assumptions C54_reassembled.

(** A function that computes each slice of [w] from the slices of its arguments gives the array [w]:
    slicing makes no difference. *)
Theorem C54_local_function : forall func args D w r,
  wf w -> NoDup D -> (forall d, In d D -> In d (dnames w)) ->
  (forall a d ls, In a args -> In d D -> dget (dims a) d = Some ls -> ls = labels_of (dims w) d) ->
  (forall idx, exists y, func (map (slice_arg D idx) args) = Ok y /\
     (forall d l, slice_label D (labels_of (dims w)) idx d l -> dget (dims y) d = Some [l]) /\
     (forall d, ~ In d D -> dget (dims y) d = dget (dims w) d) /\
     NoDup (dnames y) /\
     (forall e, point_of (dims y) e -> get y e = get w e)) ->
  apply_to_slices func args D = Ok r ->
  da_equiv r w.
Proof.
  intros func args D w r W ND ID HL HF H.
  destruct (C54_reassembled func args D (labels_of (dims w)) r ND) as (P1 & P2 & P3 & P4); auto.
  - intros d Hd. now apply wf_labels_NoDup.
  - intros idx y E. destruct (HF idx) as (y' & E' & K & _). assert (y = y') as -> by congruence. exact K.
  - set (shape := map (fun d => length (labels_of (dims w) d)) D) in *.
    assert (exists idx, index_tuple shape idx) as [idx0 T0].
    { destruct (C54_calls func args D) as [C1 C2]. assert (ndindex shape <> []) as NE.
      { intros E. unfold apply_to_slices in H. destruct (all_sizes D args []) as [sizes|] eqn:ES; [|discriminate]. cbn [bind] in H. apply all_sizes_Ok in ES. destruct ES as (_ & _ & E3).
        assert (mapM (fun d => match dget sizes d with Some n => Ok n | None => Err ValueError end) D = Ok shape) as M.
        { destruct (mapM _ D) as [sh|] eqn:M in H; [|discriminate]. rewrite M. f_equal. apply mapM_Ok_Forall2 in M. unfold shape. clear -M E3 HL.
          induction M as [|d n D sh Hd M IH]; [reflexivity|]. cbn [map]. f_equal.
          - destruct (dget sizes d) as [m|] eqn:G; [|discriminate]. apply E3 in G. destruct G as [G|(a & ls & Ia & G & Ln)]; [discriminate|]. injection Hd as <-.
            rewrite (HL a d ls Ia (or_introl eq_refl) G) in Ln. now symmetry.
          - apply IH. intros a d' ls I J. apply (HL a d' ls I). now right. }
        rewrite M in H. cbn [bind] in H. rewrite E in H. discriminate. }
      destruct (ndindex shape) as [|idx l] eqn:E; [congruence|]. exists idx. apply (C54_every_index_once shape). rewrite E. now left. }
    assert (forall idx d, index_tuple shape idx -> In d D -> exists l, slice_label D (labels_of (dims w)) idx d l) as SL.
    { intros idx d Ti Hd. destruct (combine_label D shape idx d (length (labels_of (dims w) d))) as (i & Gi & Li); auto.
      - unfold shape. now rewrite map_length.
      - unfold shape. clear -Hd. induction D as [|d0 D IH]; [destruct Hd|]. cbn. destruct Hd as [->|Hd]; [now left|right; auto].
      - destruct (nth_error (labels_of (dims w) d) i) as [l|] eqn:En; [exists l, i; auto|]. apply nth_error_None in En. lia. }
    assert (forall idx y d, index_tuple shape idx -> func (map (slice_arg D idx) args) = Ok y -> (In d (dnames y) <-> In d (dnames w))) as DN.
    { intros idx y d Ti E. destruct (HF idx) as (y' & E' & K1 & K2 & _). assert (y = y') as -> by congruence. destruct (in_dec string_dec d D) as [Hd|Hd].
      - split; [intros _; now apply ID|]. intros _. destruct (SL idx d Ti Hd) as (l & Sl). apply K1 in Sl. exact (dget_Some_keys _ _ Sl).
      - specialize (K2 d Hd). split; intros I; apply keys_dget in I; destruct I as [ls I]; [rewrite K2 in I|rewrite <- K2 in I]; exact (dget_Some_keys _ _ I). }
    split; [|split].
    + intros d. rewrite P4. split; [intros (idx & y & Ti & E & I); now apply (DN idx y d Ti E)|]. intros I. destruct (HF idx0) as (y & E & _). exists idx0, y. split; auto. split; auto. now apply (DN idx0 y d T0 E).
    + intros d l. destruct (in_dec string_dec d D) as [Hd|Hd]; [now apply P2|]. rewrite P3. split.
      * intros (idx & y & Ti & E & I). destruct (HF idx) as (y' & E' & _ & K2 & _). assert (y = y') as -> by congruence. unfold labels_of in *. now rewrite <- K2.
      * intros I. destruct (HF idx0) as (y & E & _ & K2 & _). exists idx0, y. split; auto. split; auto. unfold labels_of in *. now rewrite K2.
    + intros e Pe.
      assert (exists idx, index_tuple shape idx /\ forall d, In d D -> slice_label D (labels_of (dims w)) idx d (e d)) as (idx & Ti & Hl).
      { assert (forall d, In d D -> In (e d) (labels_of (dims w) d)) as Q.
        { intros d Hd. specialize (ID d Hd). assert (In d (dnames r)) as Ir. { apply P4. destruct (HF idx0) as (y & E & _). exists idx0, y. split; auto. split; auto. now apply (DN idx0 y d T0 E). }
          apply keys_dget in Ir. destruct Ir as [ls Ir]. apply (P2 d (e d) Hd). unfold labels_of. rewrite Ir. apply (Pe d). now apply (dget_In _ _). }
        unfold slice_label, shape, index_tuple. clear -Q ND. induction D as [|d0 D IH]; [exists []; split; [constructor|intros d []]|].
        apply NoDup_cons_iff in ND. destruct ND as [Nd ND]. destruct IH as (idx & T & Hl); auto; [intros d Hd; apply Q; now right|].
        destruct (In_nth_error _ _ (Q d0 (or_introl eq_refl))) as [i Hi]. exists (i :: idx). split.
        - cbn [map]. constructor; [apply nth_error_Some; congruence|exact T].
        - intros d [<-|Hd]; cbn [combine dget].
          + exists i. destruct (eq_dec d0 d0); [auto|congruence].
          + destruct (eq_dec d d0) as [->|]; [contradiction|now apply Hl]. }
      destruct (P1 idx Ti) as (y & E & G). destruct (HF idx) as (y' & E' & K1 & K2 & Ny & K3). assert (y = y') as -> by congruence.
      assert (point_of (dims y') e) as Py.
      { intros d ls I. destruct (in_dec string_dec d D) as [Hd|Hd].
        - assert (dget (dims y') d = Some ls) as G1 by (now apply In_dget). rewrite (K1 d (e d) (Hl d Hd)) in G1. injection G1 as <-. now left.
        - assert (dget (dims y') d = Some ls) as G1 by (now apply In_dget). assert (In (e d) (labels_of (dims r) d)) as J.
          { assert (In d (dnames r)) as Ir. { apply P4. exists idx, y'. split; auto. split; auto. exact (dget_Some_keys _ _ G1). }
            apply keys_dget in Ir. destruct Ir as [ls' Ir]. unfold labels_of. rewrite Ir. apply (Pe d). now apply (dget_In _ _). }
          apply P3 in J. destruct J as (idx' & z & Ti' & Ez & J). destruct (HF idx') as (z' & Ez' & _ & K2' & _). assert (z = z') as -> by congruence.
          unfold labels_of in J. rewrite K2', <- (K2 d Hd), G1 in J by auto. exact J. }
      rewrite (G e Py). now apply K3.
Qed.
Print Assumptions C54_local_function.

(** For example every elementwise function: applying it slice by slice over any dimensions is applying it
    to the whole array. *)
Theorem C54_elementwise : forall f a D r,
  wf a -> NoDup D -> (forall d, In d D -> In d (dnames a)) ->
  apply_to_slices (fun args => match args with [x] => Ok (da_map f x) | _ => Err TypeError end) [a] D = Ok r ->
  da_equiv r (da_map f a).
Proof.
  intros f a D r W ND ID H.
  apply (C54_local_function (fun args => match args with [x] => Ok (da_map f x) | _ => Err TypeError end) [a] D); auto.
  - destruct W as (W1 & W2 & W3). split; [exact W1|]. split; [exact W2|]. intros e e' He. cbn. now rewrite (W3 e e' He).
  - intros x d ls [<-|[]] Hd G. unfold labels_of. cbn [da_map dims]. now rewrite G.
  - intros idx. exists (da_map f (slice_arg D idx a)). split; [reflexivity|].
    assert (map fst (dims (slice_arg D idx a)) = map fst (dims a)) as Names.
    { unfold slice_arg. cbn [dims]. rewrite map_map. apply map_ext. intros [n m]. cbn. destruct (dget (combine D idx) n); reflexivity. }
    split; [|split; [|split]].
    + intros d l (i & Gi & Hl). cbn [da_map dims]. unfold labels_of in Hl. cbn [da_map dims] in Hl. destruct (dget (dims a) d) as [ls|] eqn:G; [|destruct i; discriminate].
      apply (C54_slice D idx a d ls G) with (i := i); auto.
    + intros d Hd. cbn [da_map dims]. assert (dget (combine D idx) d = None) as Nn.
      { destruct (dget (combine D idx) d) eqn:G; auto. apply dget_In in G. apply in_combine_l in G. contradiction. }
      destruct (dget (dims a) d) as [ls|] eqn:G; [now apply (C54_slice D idx a d ls G)|].
      destruct (dget (dims (slice_arg D idx a)) d) eqn:G'; auto. apply dget_Some_keys in G'. unfold keys in G'. rewrite Names in G'. apply keys_dget in G'. destruct G'. congruence.
    + unfold dnames. cbn [da_map dims]. rewrite Names. apply W.
    + intros e _. reflexivity.
Qed.
Print Assumptions C54_elementwise.

(** A 2 x 3 array, sliced over both dimensions: six calls, and the function doubles each value. *)
Definition ex_grid : da :=
  mkDa [("lead_time", [LZ 0; LZ 6]); ("level", [LZ 500; LZ 700; LZ 850])]
       (fun e => match e "lead_time", e "level" with LZ a, LZ b => if Z.eqb a 6 then NaN else if Z.eqb b 700 then PInf else NInf | _, _ => NaN end) [].
Example C54_ex_shape : slices_agree ["lead_time"; "level"] [ex_grid] [2; 3]%nat.
Proof.
  unfold slices_agree. repeat constructor; try (intros a ls [<-|[]] [= <-]; reflexivity); exists ex_grid; split; cbn; auto.
Qed.
Example C54_ex : exists r, apply_to_slices (fun args => match args with [x] => Ok (da_map (fun v => vadd v v) x) | _ => Err TypeError end) [ex_grid] ["lead_time"; "level"] = Ok r /\
  dims r = dims ex_grid.
Proof. eexists. split; reflexivity. Qed.
