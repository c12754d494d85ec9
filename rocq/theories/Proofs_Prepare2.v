(** Lemmas about selection, and about the states of a loader. *)
From Coq Require Import String ZArith List Bool Lia.
Import ListNotations.
From Verif Require Import Prelude Values Model_XArray Spec_XArray Proofs_XArray Model_MetricsBase Model_Aggregation Model_TimeChunks Model_Deterministic Proofs_Beam9 Proofs_AggState
  Model_Loaders Spec_Loaders Proofs_Loaders Model_Latency Model_Prepare Spec_Prepare Proofs_Prepare.
Local Open Scope string_scope.
Local Open Scope list_scope.

(** ** One indexer *)
Definition sel1 (d : string) (ix : indexer) (a b : da) : Prop :=
  match dget (dims a) d with
  | None => b = a
  | Some have =>
      match ix with
      | IxLabel l => In l have /\ dims b = keep (fun n => negb (eqb n d)) (dims a) /\ forall e, get b e = get a (upd e d l)
      | IxList ls => incl ls have /\ b = restrict [(d, ls)] a
      | IxSlice lo hi => b = restrict [(d, filter (fun x => label_leb lo x && label_leb x hi) have)] a
      end
  end.
Lemma sel_scalar_fst d l : forall (kv r : string * da), (match dget (dims (snd kv)) d with
    | None => Ok kv
    | Some have => if memb l have
        then Ok (fst kv, mkDa (keep (fun n => negb (eqb n d)) (dims (snd kv))) (fun e => get (snd kv) (upd e d l))
                   (dset (map (fun c => (fst c, mkCoord (filter (fun n => negb (eqb n d)) (c_dims (snd c))) (fun e => c_get (snd c) (upd e d l)))) (aux (snd kv))) d (mkCoord [] (fun _ => l))))
        else Err KeyError end) = Ok r -> fst r = fst kv.
Proof. intros [k a] r. cbn [fst snd]. destruct (dget (dims a) d); [destruct (memb l _); [|discriminate]|]; intros [= <-]; reflexivity. Qed.
Lemma sel_indexer_spec d ix ds out : sel_indexer d ix ds = Ok out ->
  keys out = keys ds /\ forall v a, dget ds v = Some a -> exists b, dget out v = Some b /\ sel1 d ix a b.
Proof.
  destruct ix as [l|ls|lo hi]; cbn [sel_indexer].
  - unfold sel_scalar. destruct (has_dim ds d); [|discriminate]. intros H. split; [apply (mapM_keys _ _ _ (sel_scalar_fst d l) H)|].
    intros v a G. destruct (mapM_dget _ _ _ _ _ (sel_scalar_fst d l) H G) as (b & E & Gb). exists b. split; auto. unfold sel1. cbn [fst snd] in E. destruct (dget (dims a) d) as [have|]; [|congruence].
    destruct (memb l have) eqn:M; [|discriminate]. injection E as <-. apply memb_In in M. cbn [dims get]. auto.
  - intros H. destruct (sel_labels_spec _ _ _ _ H) as [K S]. split; [exact K|]. intros v a G. destruct (S v a G) as (b & Gb & S1 & S2). exists b. split; auto. unfold sel1. destruct (dget (dims a) d) as [have|] eqn:E.
    + destruct (S2 (dget_Some_keys _ _ E)) as [A ->]. split; auto. intros x Ix. specialize (A x Ix). unfold labels_of in A. rewrite E in A. exact A.
    + apply S1. apply dget_None, E.
  - unfold sel_range. destruct (has_dim ds d); [|discriminate]. intros [= <-]. split.
    + unfold keys. rewrite map_map. apply map_ext. intros [v a]. cbn [fst snd]. destruct (dget (dims a) d); reflexivity.
    + intros v a G. induction ds as [|[k x] ds IH]; [discriminate|]. cbn [map dget fst snd] in *. destruct (eq_dec v k) as [->|Ne].
      * injection G as ->. destruct (dget (dims a) d) as [have|] eqn:E; eexists; (split; [cbn [dget]; destruct (eq_dec k k); [reflexivity|congruence]|unfold sel1; rewrite E; reflexivity]).
      * destruct (IH G) as (b & Gb & Sb). exists b. split; auto. destruct (dget (dims x) d); cbn [dget]; destruct (eq_dec v k); try congruence; exact Gb.
Qed.
Lemma sel_indexer_err d ix ds e : sel_indexer d ix ds = Err e -> e = KeyError.
Proof.
  destruct ix as [l|ls|lo hi]; cbn [sel_indexer]; [|apply sel_labels_err|unfold sel_range; destruct (has_dim ds d); [discriminate|congruence]].
  unfold sel_scalar. destruct (has_dim ds d); [|congruence]. generalize ds. clear. induction ds as [|[v a] ds IH]; [discriminate|]. cbn [mapM fst snd].
  destruct (dget (dims a) d); [destruct (memb l _); [|intros [= <-]; reflexivity]|]; cbn [bind]; (destruct (mapM _ ds); cbn [bind]; [discriminate|]; intros [= <-]; apply IH; reflexivity).
Qed.
Lemma sel_kwargs_err kw : forall ds e, sel_kwargs kw ds = Err e -> e = KeyError.
Proof. induction kw as [|[d ix] kw IH]; intros ds e; [discriminate|]. cbn [sel_kwargs]. destruct (sel_indexer d ix ds) eqn:E; cbn [bind]; [apply IH|]. intros [= <-]. apply (sel_indexer_err _ _ _ _ E). Qed.
Lemma keep_names_in p ds d : In d (map fst (keep p ds)) <-> In d (map fst ds) /\ p d = true.
Proof.
  unfold keep. rewrite !in_map_iff. split.
  - intros ([n l] & <- & I). apply filter_In in I. destruct I as [I P]. split; eauto.
  - intros (([n l] & <- & I) & P). exists (n, l). split; auto. apply filter_In. auto.
Qed.
Lemma restrict_in d ls a n l : In (n, l) (dims (restrict [(d, ls)] a)) <-> exists l0, In (n, l0) (dims a) /\ l = if eq_dec n d then ls else l0.
Proof.
  rewrite restrict_dims, in_map_iff. split.
  - intros ([n0 l0] & E & I). cbn [fst] in E. destruct (eq_dec n0 d) as [->|Ne]; injection E as <- <-; exists l0; split; auto; destruct (eq_dec _ d); congruence.
  - intros (l0 & I & ->). exists (n, l0). split; auto. cbn [fst]. destruct (eq_dec n d); reflexivity.
Qed.
Lemma sel1_tidy d ix a b : tidy a -> sel1 d ix a b -> tidy b.
Proof.
  intros [N L]. unfold sel1. destruct (dget (dims a) d) as [have|] eqn:E; [|intros ->; split; auto]. destruct ix as [l|ls|lo hi].
  - intros (_ & D & V). split.
    + unfold dnames. rewrite D. unfold keep. generalize N. unfold dnames. generalize (dims a). clear. intros l0. induction l0 as [|[n x] l0 IH]; intros N; [constructor|]. cbn [map fst] in N. apply NoDup_cons_iff in N. destruct N as [N1 N2]. cbn [filter fst]. destruct (negb _); [|auto].
      cbn [map fst]. constructor; auto. intros I. apply N1. apply (proj1 (keep_names_in (fun q => negb (eqb q d)) l0 n)) in I. tauto.
    + intros e e' H. rewrite !V. apply L. intros n I. unfold upd. destruct (string_dec n d) as [->|Ne]; auto. apply H. unfold dnames. rewrite D. apply keep_names_in. split; auto. apply negb_true_iff, eqb_false_iff. exact Ne.
  - intros [_ ->]. split; [rewrite restrict_names; auto|]. intros e e' H. apply L. intros n I. apply H. rewrite restrict_names. auto.
  - intros ->. split; [rewrite restrict_names; auto|]. intros e e' H. apply L. intros n I. apply H. rewrite restrict_names. auto.
Qed.
(** ** All indexers *)
Definition id_name (n : string) : string := n.
Lemma selected_nil a : tidy a -> selected_from (Some []) id_name a a.
Proof.
  intros [N L]. split.
  - intros n have I. left. exists have. split; auto. reflexivity.
  - intros d I. exists d. auto.
  - intros e e' H _. apply L. intros n I. symmetry. apply H; auto. intros l (k & [= <-] & E). discriminate.
Qed.
Lemma fixed_cons d ix kw n l : ~ In d (keys kw) -> (fixed_to (Some ((d, ix) :: kw)) n l <-> (n = d /\ ix = IxLabel l) \/ (n <> d /\ fixed_to (Some kw) n l)).
Proof.
  intros Nd. unfold fixed_to. split.
  - intros (k & [= <-] & E). cbn [dget] in E. destruct (eq_dec n d) as [->|Ne]; [left; split; congruence|right; eauto].
  - intros [[-> ->]|(Ne & k & [= <-] & E)]; eexists; (split; [reflexivity|]); cbn [dget]; [destruct (eq_dec d d); congruence|destruct (eq_dec n d); congruence].
Qed.
Lemma asked_cons_other d ix kw n have ls : n <> d -> asked_labels (Some kw) n have ls -> asked_labels (Some ((d, ix) :: kw)) n have ls.
Proof. intros Ne. unfold asked_labels. cbn [dget]. destruct (eq_dec n d); [congruence|auto]. Qed.
Lemma asked_absent kw n have ls : ~ In n (keys kw) -> asked_labels (Some kw) n have ls -> ls = have.
Proof. intros I. apply dget_None in I. unfold asked_labels. rewrite I. auto. Qed.
Lemma fixed_absent kw n l : ~ In n (keys kw) -> ~ fixed_to (Some kw) n l.
Proof. intros I (k & [= <-] & E). apply dget_None in I. congruence. Qed.
Lemma selected_step d ix kw a a1 b : tidy a -> ~ In d (keys kw) -> sel1 d ix a a1 -> selected_from (Some kw) id_name a1 b -> selected_from (Some ((d, ix) :: kw)) id_name a b.
Proof.
  intros [N L] Nd S1 [K O V]. unfold id_name in *. unfold sel1 in S1. destruct (dget (dims a) d) as [have0|] eqn:E.
  2: { subst a1. apply dget_None in E. assert (forall n l, In n (dnames a) -> (fixed_to (Some ((d, ix) :: kw)) n l <-> fixed_to (Some kw) n l)) as F.
       { intros n l I. rewrite fixed_cons; auto. split; [intros [[-> _]|[_ H]]; [contradiction|auto]|]. intros H. right. split; auto. intros ->. contradiction. }
       split.
       - intros n have I. assert (In n (dnames a)) as In_ by (apply (in_map fst _ _ I)). destruct (K n have I) as [(ls & A & B)|(l & A & B & C)]; [left|right].
         + exists ls. split; auto. apply asked_cons_other; auto. intros ->. contradiction.
         + exists l. split; auto. apply F; auto.
       - exact O.
       - intros e e' H1 H2. apply V; [intros n I Hf; apply H1; auto; intros l Hl; apply (Hf l), F; auto|intros n l I Hf; apply H2; auto; apply F; auto]. }
  assert (In d (dnames a)) as Id by apply (dget_Some_keys _ _ E). assert (forall have, In (d, have) (dims a) -> have = have0) as Un by (intros have I; apply (In_dget _ _ _ N) in I; unfold dimlist, dict in *; congruence).
  destruct ix as [l0|ls0|lo hi].
  - destruct S1 as (Il & D & Vb). assert (forall n, In n (dnames a1) <-> In n (dnames a) /\ n <> d) as Nm. { intros n. unfold dnames. rewrite D, keep_names_in, negb_true_iff, eqb_false_iff. reflexivity. }
    assert (~ In d (dnames b)) as Nb. { intros I. destruct (O d I) as (n & I1 & <-). apply Nm in I1. tauto. }
    split.
    + intros n have I. destruct (eq_dec n d) as [->|Ne].
      * right. rewrite (Un _ I). exists l0. split; [apply fixed_cons; auto|]. auto.
      * assert (In (n, have) (dims a1)) as I1. { rewrite D. unfold keep. apply filter_In. split; auto. cbn [fst]. apply negb_true_iff, eqb_false_iff. auto. }
        destruct (K n have I1) as [(ls & A & B)|(l & A & B & C)]; [left; exists ls; split; auto; apply asked_cons_other; auto|right; exists l; split; auto; apply fixed_cons; auto].
    + intros n I. destruct (O n I) as (n0 & I1 & ->). exists n0. split; auto. apply Nm, I1.
    + intros e e' H1 H2. rewrite (V e e').
      * rewrite Vb. apply L. intros n I. unfold upd. destruct (string_dec n d) as [->|Ne]; auto. symmetry. apply H2; auto. apply fixed_cons; auto.
      * intros n I Hf. apply Nm in I. destruct I as [I Ne]. apply H1; auto. intros l Hl. apply fixed_cons in Hl; auto. destruct Hl as [[-> _]|[_ Hl]]; [congruence|apply (Hf l Hl)].
      * intros n l I Hf. apply Nm in I. destruct I as [I Ne]. apply H2; auto. apply fixed_cons; auto.
  - destruct S1 as (Inc & ->). assert (forall n l, fixed_to (Some ((d, IxList ls0) :: kw)) n l <-> n <> d /\ fixed_to (Some kw) n l) as F. { intros n l. rewrite fixed_cons; auto. split; [intros [[_ ?]|?]; [discriminate|auto]|auto]. }
    split.
    + intros n have I. destruct (eq_dec n d) as [->|Ne].
      * assert (In (d, ls0) (dims (restrict [(d, ls0)] a))) as I1. { apply restrict_in. exists have. split; auto. destruct (eq_dec d d); congruence. }
        destruct (K d ls0 I1) as [(ls & A & B)|(l & A & _)]; [|exfalso; apply (fixed_absent _ _ _ Nd A)]. left. exists ls. split; auto. apply asked_absent in B; auto. subst ls. unfold asked_labels. cbn [dget]. destruct (eq_dec d d); [|congruence]. rewrite (Un _ I). auto.
      * assert (In (n, have) (dims (restrict [(d, ls0)] a))) as I1. { apply restrict_in. exists have. split; auto. destruct (eq_dec n d); congruence. }
        destruct (K n have I1) as [(ls & A & B)|(l & A & B & C)]; [left; exists ls; split; auto; apply asked_cons_other; auto|right; exists l; split; auto; apply F; auto].
    + intros n I. destruct (O n I) as (n0 & I1 & ->). rewrite restrict_names in I1. eauto.
    + intros e e' H1 H2. rewrite (V e e'); [reflexivity| |]; rewrite restrict_names.
      * intros n I Hf. apply H1; auto. intros l Hl. apply F in Hl. apply (Hf l), Hl.
      * intros n l I Hf. apply H2; auto. apply F. split; auto. intros ->. apply (fixed_absent _ _ _ Nd Hf).
  - subst a1. set (ls0 := filter _ have0) in *. assert (forall n l, fixed_to (Some ((d, IxSlice lo hi) :: kw)) n l <-> n <> d /\ fixed_to (Some kw) n l) as F. { intros n l. rewrite fixed_cons; auto. split; [intros [[_ ?]|?]; [discriminate|auto]|auto]. }
    split.
    + intros n have I. destruct (eq_dec n d) as [->|Ne].
      * assert (In (d, ls0) (dims (restrict [(d, ls0)] a))) as I1. { apply restrict_in. exists have. split; auto. destruct (eq_dec d d); congruence. }
        destruct (K d ls0 I1) as [(ls & A & B)|(l & A & _)]; [|exfalso; apply (fixed_absent _ _ _ Nd A)]. left. exists ls. split; auto. apply asked_absent in B; auto. subst ls. unfold asked_labels. cbn [dget]. destruct (eq_dec d d); [|congruence]. rewrite (Un _ I). reflexivity.
      * assert (In (n, have) (dims (restrict [(d, ls0)] a))) as I1. { apply restrict_in. exists have. split; auto. destruct (eq_dec n d); congruence. }
        destruct (K n have I1) as [(ls & A & B)|(l & A & B & C)]; [left; exists ls; split; auto; apply asked_cons_other; auto|right; exists l; split; auto; apply F; auto].
    + intros n I. destruct (O n I) as (n0 & I1 & ->). rewrite restrict_names in I1. eauto.
    + intros e e' H1 H2. rewrite (V e e'); [reflexivity| |]; rewrite restrict_names.
      * intros n I Hf. apply H1; auto. intros l Hl. apply F in Hl. apply (Hf l), Hl.
      * intros n l I Hf. apply H2; auto. apply F. split; auto. intros ->. apply (fixed_absent _ _ _ Nd Hf).
Qed.
Lemma sel_kwargs_spec kw : forall ds out, NoDup (keys kw) -> sel_kwargs kw ds = Ok out ->
  keys out = keys ds /\ forall v a, dget ds v = Some a -> tidy a -> exists b, dget out v = Some b /\ selected_from (Some kw) id_name a b.
Proof.
  induction kw as [|[d ix] kw IH]; intros ds out N H.
  - injection H as <-. split; auto. intros v a G T. exists a. split; auto. apply selected_nil, T.
  - cbn [sel_kwargs] in H. destruct (sel_indexer d ix ds) as [ds1|] eqn:E; [|discriminate]. cbn [bind] in H. change (NoDup (d :: keys kw)) in N. apply NoDup_cons_iff in N. destruct N as [N1 N2].
    destruct (IH _ _ N2 H) as [K S]. destruct (sel_indexer_spec _ _ _ _ E) as [K1 S1]. split; [congruence|]. intros v a G T. destruct (S1 v a G) as (a1 & G1 & R1).
    destruct (S v a1 G1 (sel1_tidy _ _ _ _ T R1)) as (b & Gb & R2). exists b. split; auto. apply (selected_step d ix kw a a1 b); auto.
Qed.
(** Under new names. *)
Lemma selected_ren kw rho a b : tidy a -> (forall n n', In n (dnames a) -> In n' (dnames a) -> rho n = rho n' -> n = n') ->
  selected_from kw id_name (ren rho a) b -> selected_from kw rho a b.
Proof.
  intros [N L] J [K O V]. unfold id_name in *. split.
  - intros n have I. apply K. cbn [ren dims]. apply in_map_iff. exists (n, have). auto.
  - intros d I. destruct (O d I) as (n & I1 & ->). rewrite dnames_ren in I1. apply in_map_iff in I1. destruct I1 as (n0 & <- & I1). eauto.
  - intros e e' H1 H2. set (e1 := fun d => match find (fun n => eqb (rho n) d) (dnames a) with Some n => e' n | None => e d end).
    assert (forall n, In n (dnames a) -> e1 (rho n) = e' n) as E1. { intros n I. unfold e1. destruct (find _ (dnames a)) as [n0|] eqn:F.
      - apply find_some in F. destruct F as [I0 F]. apply eqb_true_iff in F. rewrite (J n0 n); auto.
      - exfalso. pose proof (find_none _ _ F n I) as Q. cbv beta in Q. rewrite eqb_refl in Q. discriminate. }
    rewrite (V e e1).
    + cbn [ren get]. apply L. intros n I. apply E1, I.
    + intros d I Hf. rewrite dnames_ren in I. apply in_map_iff in I. destruct I as (n & <- & I). rewrite E1; auto.
    + intros d l I Hf. rewrite dnames_ren in I. apply in_map_iff in I. destruct I as (n & <- & I). rewrite E1; auto.
Qed.
Lemma selected_none a : tidy a -> selected_from None id_name a a.
Proof.
  intros [N L]. split.
  - intros n have I. left. exists have. split; auto. reflexivity.
  - intros d I. exists d. auto.
  - intros e e' H _. apply L. intros n I. symmetry. apply H; auto. intros l (k & E & _). discriminate.
Qed.

(** ** States of a loader *)
Definition prepared (o : loader_options) (raw : vars da) : result (vars da) :=
  do d <- match o_preprocessing_fn o with Some f => f raw | None => Ok raw end;
  do d <- rename_dataset d (o_rename_dimensions o) (o_rename_variables o) (o_convert_lat_lon o);
  do d <- match o_variables o with Some l => select_variables l d | None => Ok d end;
  match o_sel_kwargs o with Some kw => sel_kwargs kw d | None => Ok d end.
Lemma prepared_iff o raw ds : prepared_from o raw ds <-> prepared o raw = Ok ds.
Proof.
  unfold prepared_from, prepared, step. split.
  - intros (d1 & d2 & d3 & A & B & C & D). assert (match o_preprocessing_fn o with Some f => f raw | None => Ok raw end = Ok d1) as -> by (destruct (o_preprocessing_fn o); congruence). cbn [bind]. rewrite B. cbn [bind].
    assert (match o_variables o with Some l => select_variables l d2 | None => Ok d2 end = Ok d3) as -> by (destruct (o_variables o); congruence). cbn [bind]. destruct (o_sel_kwargs o); congruence.
  - intros H. match type of H with bind ?x _ = _ => destruct x as [d1|] eqn:E1; [|discriminate] end. cbn [bind] in H. match type of H with bind ?x _ = _ => destruct x as [d2|] eqn:E2; [|discriminate] end. cbn [bind] in H.
    match type of H with bind ?x _ = _ => destruct x as [d3|] eqn:E3; [|discriminate] end. cbn [bind] in H. exists d1, d2, d3. repeat split; auto; [destruct (o_preprocessing_fn o)|destruct (o_variables o)|destruct (o_sel_kwargs o)]; congruence.
Qed.
Lemma prepare_ok o w raw ds : prepared o raw = Ok ds -> maybe_prepare_dataset o w (mkState (Some raw) false) = (mkState (Some ds) true, Ok tt).
Proof.
  unfold prepared, maybe_prepare_dataset. cbn [st_done st_ds and_then]. intros H.
  destruct (o_preprocessing_fn o) as [f|]; cbn [optional assign st_ds st_done]; [destruct (f raw) as [d1|]; [|discriminate]|set (d1 := raw) in *]; cbn [and_then bind assign st_ds st_done] in *;
  (match type of H with bind ?x _ = _ => destruct x as [d2|]; [|discriminate] end); cbn [and_then bind] in *;
  (destruct (o_variables o) as [l|]; cbn [optional assign st_ds st_done]; [destruct (select_variables l d2) as [d3|]; [|discriminate]|set (d3 := d2) in *]; cbn [and_then bind assign st_ds st_done] in *;
   (destruct (o_sel_kwargs o) as [kw|]; cbn [optional assign st_ds st_done]; [rewrite H|injection H as <-]; reflexivity)).
Qed.
Lemma prepare_err o w raw e : prepared o raw = Err e -> exists d, maybe_prepare_dataset o w (mkState (Some raw) false) = (mkState (Some d) false, Err e).
Proof.
  unfold prepared, maybe_prepare_dataset. cbn [st_done st_ds and_then]. intros H.
  destruct (o_preprocessing_fn o) as [f|]; cbn [optional assign st_ds st_done]; [destruct (f raw) as [d1|]; [|injection H as <-; eexists; reflexivity]|set (d1 := raw) in *]; cbn [and_then bind assign st_ds st_done] in *;
  (match type of H with bind ?x _ = _ => destruct x as [d2|]; [|injection H as <-; eexists; reflexivity] end); cbn [and_then bind] in *;
  (destruct (o_variables o) as [l|]; cbn [optional assign st_ds st_done]; [destruct (select_variables l d2) as [d3|]; [|injection H as <-; eexists; reflexivity]|set (d3 := d2) in *]; cbn [and_then bind assign st_ds st_done] in *;
   (destruct (o_sel_kwargs o) as [kw|]; cbn [optional assign st_ds st_done]; [rewrite H; eexists; reflexivity|discriminate])).
Qed.
Lemma prepare_done o w ds : maybe_prepare_dataset o w (mkState ds true) = (mkState ds true, Ok tt).
Proof. reflexivity. Qed.
Lemma prepare_read o w raw : reading o None w = Ok raw -> maybe_prepare_dataset o w (mkState None false) = maybe_prepare_dataset o w (mkState (Some raw) false).
Proof. unfold reading, maybe_prepare_dataset. cbn [st_done st_ds]. destruct (o_path o); [|discriminate]. intros ->. reflexivity. Qed.
Lemma prepare_unreadable o w e : reading o None w = Err e -> maybe_prepare_dataset o w (mkState None false) = (mkState None false, Err e).
Proof. unfold reading, maybe_prepare_dataset. cbn [st_done st_ds]. destruct (o_path o); [intros ->; reflexivity|intros [= <-]; reflexivity]. Qed.
Lemma init_loader_ok path ds s : init_loader path ds = Ok s -> s = mkState ds false /\ (ds = None -> path <> None) /\ (ds <> None -> path = None).
Proof. unfold init_loader. destruct path, ds; intros [= <-]; repeat split; congruence. Qed.
