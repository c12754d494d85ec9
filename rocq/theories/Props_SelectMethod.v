(** C75: Select with the nearest, the previous or the next label, with a tolerance, with dropped
    coordinates and with missing dimensions left out. *)
From Coq Require Import FunctionalExtensionality String ZArith QArith Qabs Qcanon List Bool Reals Lia Lqa.
Import ListNotations.
From Verif Require Import Prelude Values Model_XArray Spec_XArray Proofs_XArray Spec_Binning Model_Loaders Spec_Loaders Model_Wrappers Model_Prepare Spec_Prepare Proofs_Loaders Proofs_Prepare Proofs_Prepare2
  Props_Transforms Model_Select Spec_Select Proofs_Select Props_Select Model_SelectMethod Spec_SelectMethod Proofs_SelectMethod.
Local Open Scope string_scope.
Local Open Scope list_scope.

Lemma with_fn a b c d w sel so isel io tr : SelectWith a b c d w sel so isel io = Ok tr -> forall name x, transform_fn tr name x = select_with_fn sel so isel io x.
Proof. intros H. apply input_transform_Ok in H. destruct H as (_ & _ & Hf). intros name x. rewrite Hf. reflexivity. Qed.
Lemma drop_selected kw rho dr x a b : selected_from kw rho a b -> selected_from kw rho a (drop_scalars dr x b).
Proof. intros S. destruct dr; [|exact S]. destruct S as [A B C]. split; auto. Qed.
Lemma drop_tidy dr x b : tidy b -> tidy (drop_scalars dr x b).
Proof. intros T. destruct dr; exact T. Qed.
Lemma resolve_found o ds d ix ix' have : dget ds d = Some have -> resolve o have ix = Ok ix' -> found_for o ds (d, ix) (d, ix').
Proof.
  intros G H. split; [reflexivity|]. exists have. split; [exact G|]. unfold resolve in H. cbn [snd]. destruct (so_method o) as [m|].
  - assert (forall l x, forallb numeric have = true -> rising have || falling have = true -> (if numeric l then near_label m (so_tolerance o) have l else Err TypeError) = Ok x -> found o m have l x) as K.
    { intros l x F M E. destruct (numeric l) eqn:N; [|discriminate]. apply near_label_iff in E; auto. apply all_numeric, F. }
    assert (forallb numeric have = true -> rising have || falling have = true -> ascending have \/ descending have) as D.
    { intros F M. apply all_numeric in F. apply orb_true_iff in M. destruct M as [M|M]; [left; apply rising_iff; auto|right; apply falling_iff; auto]. }
    destruct ix as [l|ls|lo hi]; [| |discriminate]; destruct (forallb numeric have) eqn:F; try discriminate; destruct (rising have || falling have) eqn:M; try discriminate; (split; [apply D; reflexivity|]).
    + match type of H with bind ?r _ = _ => destruct r as [x|] eqn:E; [|discriminate] end. injection H as <-. apply K; auto.
    + match type of H with bind ?r _ = _ => destruct r as [xs|] eqn:E; [|discriminate] end. injection H as <-. apply mapM_Ok_Forall2 in E. clear - E K. induction E as [|l x ls xs E1 E2 IH]; constructor; auto.
  - destruct ix; destruct (so_tolerance o); try discriminate; injection H as <-; reflexivity.
Qed.
Lemma resolve_all_found o ds kw made : resolve_all o ds kw = Ok made -> Forall2 (found_for o ds) kw made.
Proof.
  intros H. apply mapM_Ok_Forall2 in H. induction H as [|[d ix] y kw made E _ IH]; constructor; auto. cbn [fst snd] in E. unfold dgetE in E. destruct (dget ds d) as [have|] eqn:G; [|discriminate]. cbn [bind] in E.
  destruct (resolve o have ix) as [ix'|] eqn:R; [|discriminate]. injection E as <-. apply (resolve_found _ _ _ _ _ _ G R).
Qed.
Lemma found_keys o ds p q : Forall2 (found_for o ds) p q -> keys q = keys p.
Proof. intros F. induction F as [|x y p q [E _] F IH]; [reflexivity|]. change (fst y :: keys q = fst x :: keys p). congruence. Qed.
Lemma sel_with_spec o kw x y : NoDup (keys kw) -> tidy x -> sel_with o kw x = Ok y -> exists made, Forall2 (found_for o (dims x)) kw made /\ selected_from (Some made) id_name x y /\ tidy y.
Proof.
  intros N T H. unfold sel_with in H. destruct (resolve_all o (dims x) kw) as [made|] eqn:R; [|discriminate]. cbn [bind] in H. destruct (sel_array made x) as [b|] eqn:S; [|discriminate]. injection H as <-. exists made.
  apply resolve_all_found in R. assert (NoDup (keys made)) as N' by (rewrite (found_keys _ _ _ _ R); exact N). split; [exact R|]. split; [apply drop_selected, sel_array_Ok; auto|apply drop_tidy, (selected_tidy made x); auto].
Qed.

(** ** What is selected: the labels that are found for those asked for, in the array that was given, and
    then positions in what that left. *)
Theorem C75_select : forall r1 r2 r3 r4 w sel so isel io tr name x y,
  SelectWith r1 r2 r3 r4 w sel so isel io = Ok tr -> wf x ->
  (forall kw, sel = Some kw -> NoDup (keys kw)) -> (forall kw, isel = Some kw -> NoDup (keys kw)) ->
  transform_fn tr name x = Ok y ->
  exists made mid at_labels,
    labels_found so (dims x) sel made /\ selected_from made id_name x mid /\
    by_position (dims mid) (positions_that_count io mid isel) at_labels /\ selected_from at_labels id_name mid y.
Proof.
  intros r1 r2 r3 r4 w sel so isel io tr name x y H W N1 N2 Hy. rewrite (with_fn _ _ _ _ _ _ _ _ _ _ H) in Hy. clear H. unfold select_with_fn in Hy.
  match type of Hy with bind ?r _ = _ => destruct r as [mid|] eqn:E1; [|discriminate] end. cbn [bind] in Hy.
  assert (exists made, labels_found so (dims x) sel made /\ selected_from made id_name x mid /\ tidy mid) as (made & F & S & T).
  { destruct sel as [kw|].
    - destruct (sel_with_spec _ _ _ _ (N1 kw eq_refl) (wf_tidy _ W) E1) as (made & F & S & T). exists (Some made). auto.
    - injection E1 as <-. exists None. split; [exact I|]. split; [apply selected_none, wf_tidy, W|apply wf_tidy, W]. }
  exists made, mid. destruct isel as [kw|].
  - unfold isel_with in Hy. match type of Hy with bind ?r _ = _ => destruct r as [b|] eqn:E2; [|discriminate] end. injection Hy as <-.
    set (kw0 := match io_missing io with MRaise => kw | _ => filter (fun z => memb (fst z) (dnames mid)) kw end) in *. assert (NoDup (keys kw0)) as N0.
    { specialize (N2 kw eq_refl). unfold kw0. destruct (io_missing io); [exact N2| |]; (clear - N2; unfold keys in *; induction kw as [|[k v] kw IH]; cbn [filter map fst] in *; [constructor|]; inversion N2; subst; destruct (memb k (dnames mid)); cbn [map fst]; [constructor; auto|auto];
        intros J; match goal with N : ~ In _ _ |- _ => apply N end; apply in_map_iff in J; destruct J as (z & <- & J); apply filter_In in J; apply in_map, J). }
    destruct (isel_array_spec kw0 mid b N0 T E2) as (kw' & P & S2). exists (Some kw'). split; [exact F|]. split; [exact S|]. split; [|apply drop_selected, S2].
    unfold positions_that_count. unfold kw0 in P. destruct (io_missing io); exact P.
  - injection Hy as <-. exists None. split; [exact F|]. split; [exact S|]. split; [unfold positions_that_count; destruct (io_missing io); exact I|]. apply selected_none, T.
Qed.
Print Assumptions C75_select.

(** ** One label along an axis of numbers: it is found exactly if the axis is increasing or decreasing
    and has a label that the method picks within the tolerance. *)
Theorem C75_label : forall r1 r2 r3 r4 w d l so m io tr name x have,
  SelectWith r1 r2 r3 r4 w (Some [(d, IxLabel l)]) so None io = Ok tr -> wf x -> so_method so = Some m ->
  dget (dims x) d = Some have -> all_numbers have -> (exists q, is_number l q) ->
  (~ (ascending have \/ descending have) -> transform_fn tr name x = Err ValueError) /\
  (ascending have \/ descending have ->
    (forall l', found so m have l l' -> exists y, transform_fn tr name x = Ok y /\ selected_from (Some [(d, IxLabel l')]) id_name x y) /\
    ((forall l', ~ found so m have l l') -> transform_fn tr name x = Err KeyError)).
Proof.
  intros r1 r2 r3 r4 w d l so m io tr name x have H W Hm G N Nl. rewrite (with_fn _ _ _ _ _ _ _ _ _ _ H). clear H. apply numeric_iff in Nl.
  assert (forallb numeric have = true) as F by (apply all_numeric, N). unfold select_with_fn, sel_with, resolve_all. cbn [mapM fst snd]. unfold dgetE. rewrite G. cbn [bind]. unfold resolve. rewrite Hm, F, Nl. split.
  - intros M. destruct (rising have || falling have) eqn:E; [|reflexivity]. exfalso. apply M. apply orb_true_iff in E. destruct E as [E|E]; [left; apply rising_iff; auto|right; apply falling_iff; auto].
  - intros M. assert (rising have || falling have = true) as ->. { apply orb_true_iff. destruct M as [M|M]; [left; apply rising_iff; auto|right; apply falling_iff; auto]. }
    assert (rising have || falling have = true) as E. { apply orb_true_iff. destruct M as [M|M]; [left; apply rising_iff; auto|right; apply falling_iff; auto]. }
    pose proof (fun z => near_label_iff m so have l z N Nl E) as K. split.
    + intros l' Fd. pose proof Fd as [[I _] _]. apply K in Fd. rewrite Fd. cbn [bind].
      assert (exists y, sel_array [(d, IxLabel l')] x = Ok y) as (y & Sy).
      { unfold sel_array. cbn [sel_kwargs sel_indexer]. unfold sel_scalar. assert (has_dim [("", x)] d = true) as ->.
        { apply has_dim_iff. exists "", x. split; [left; reflexivity|apply (dget_Some_keys _ _ G)]. }
        cbn [mapM fst snd]. rewrite G. apply memb_In in I. rewrite I. cbn [bind]. eauto. }
      rewrite Sy. cbn [bind]. exists (drop_scalars (so_drop so) x y). split; [reflexivity|]. apply drop_selected, sel_array_Ok; auto; [repeat constructor; intros []|apply wf_tidy, W].
    + intros Nf. destruct (near_label m (so_tolerance so) have l) as [z|er] eqn:Ez; [exfalso; apply (Nf z), K; reflexivity|]. apply near_label_err in Ez. subst er. reflexivity.
Qed.
Print Assumptions C75_label.
(** The label that is found is unique; asking for a label of the axis finds that label; the nearest one
    is always found on an axis that is not empty, if there is no tolerance. *)
Theorem C75_unique : forall so m have l x x', all_numbers have -> ascending have \/ descending have -> found so m have l x -> found so m have l x' -> x = x'.
Proof.
  intros so m have l x x' N M [P _] [P' _]. assert (numeric l = true) as Nl by (destruct P as (_ & q & _ & A & _); apply (is_number_lnum _ _ A)).
  assert (rising have || falling have = true) as E. { apply orb_true_iff. destruct M as [M|M]; [left; apply rising_iff; auto|right; apply falling_iff; auto]. }
  apply fill_picks in P, P'; auto. congruence.
Qed.
Theorem C75_exact : forall m have l x, all_numbers have -> ascending have \/ descending have -> In l have -> picks m have l x -> x = l.
Proof.
  intros m have l x N M I P. assert (rising have || falling have = true) as E. { apply orb_true_iff. destruct M as [M|M]; [left; apply rising_iff; auto|right; apply falling_iff; auto]. }
  assert (is_number l (lnum l)) as Nl by (apply numeric_is, numeric_iff, N, I). destruct P as (J & q & p & A & B & C). apply (mono_inj (rising have) have); auto; [apply monotone_mono, E|].
  apply is_number_lnum in A, B. destruct A as [_ <-], B as [_ <-].
  assert (forall q p, last_up_to have q p -> q = lnum l -> (p == lnum l)%Q) as L1 by (intros q p [U V] ->; specialize (V l _ I Nl); lra).
  assert (forall q p, first_from have q p -> q = lnum l -> (p == lnum l)%Q) as L2 by (intros q p [U V] ->; specialize (V l _ I Nl); lra).
  destruct (rising have) eqn:R.
  - assert (ascending have) as Ra by (apply rising_iff; auto). destruct m; [destruct C as [C _]; apply (L1 _ _ (C Ra) eq_refl)|destruct C as [C _]; apply (L2 _ _ (C Ra) eq_refl)|].
    specialize (C l _ I Nl). rewrite (Qabs_pos (lnum l - lnum l)) in C by lra. pose proof (Qabs_nonneg (lnum x - lnum l)). assert (Qabs (lnum x - lnum l) <= 0)%Q as Z by lra. apply Qabs_Qle_condition in Z. lra.
  - assert (~ ascending have) as Na by (intros Ra; apply rising_iff in Ra; auto; congruence). assert (descending have) as Rd by tauto. destruct m; [destruct C as [_ C]; apply (L2 _ _ (C Rd Na) eq_refl)|destruct C as [_ C]; apply (L1 _ _ (C Rd Na) eq_refl)|].
    specialize (C l _ I Nl). rewrite (Qabs_pos (lnum l - lnum l)) in C by lra. pose proof (Qabs_nonneg (lnum x - lnum l)). assert (Qabs (lnum x - lnum l) <= 0)%Q as Z by lra. apply Qabs_Qle_condition in Z. lra.
Qed.
Theorem C75_nearest_found : forall so have l, so_tolerance so = None -> all_numbers have -> ascending have \/ descending have -> have <> [] -> (exists q, is_number l q) -> exists x, found so MNearest have l x.
Proof.
  intros so have l Ht N M Ne Nl. apply numeric_iff in Nl. assert (rising have || falling have = true) as E. { apply orb_true_iff. destruct M as [M|M]; [left; apply rising_iff; auto|right; apply falling_iff; auto]. }
  pose proof (nearer_best have l _ _ (lower_spec _ _ l (monotone_mono _ E)) (upper_spec _ _ l (monotone_mono _ E))) as B. pose proof (fill_nearest have l) as Q. cbv zeta in Q. rewrite <- Q in B.
  destruct (fill_label MNearest have l) as [x|] eqn:Ex; [|contradiction]. exists x. split; [apply fill_picks; auto|]. intros t q p C. congruence.
Qed.
Print Assumptions C75_unique.
Print Assumptions C75_exact.
Print Assumptions C75_nearest_found.

(** ** Refused: a slice with a method or a tolerance, and a list with a tolerance alone; one label with a
    tolerance alone is looked up as if there were none. *)
Theorem C75_refused : forall r1 r2 r3 r4 w d ix so io tr name x,
  SelectWith r1 r2 r3 r4 w (Some [(d, ix)]) so None io = Ok tr -> In d (dnames x) ->
  match ix with
  | IxSlice _ _ => (so_method so <> None \/ so_tolerance so <> None) -> transform_fn tr name x = Err NotImplementedError
  | IxList _ => so_method so = None -> so_tolerance so <> None -> transform_fn tr name x = Err ValueError
  | IxLabel l => so_method so = None ->
      forall tr', SelectWith r1 r2 r3 r4 w (Some [(d, ix)]) (mkSelOptions None None (so_drop so)) None io = Ok tr' -> transform_fn tr name x = transform_fn tr' name x
  end.
Proof.
  intros r1 r2 r3 r4 w d ix so io tr name x H I. rewrite (with_fn _ _ _ _ _ _ _ _ _ _ H). clear H. destruct (dget (dims x) d) as [have|] eqn:G; [|apply dget_None in G; contradiction].
  unfold select_with_fn, sel_with, resolve_all. cbn [mapM fst snd]. unfold dgetE. rewrite G. cbn [bind]. unfold resolve. destruct ix as [l|ls|lo hi].
  - intros -> tr' H'. rewrite (with_fn _ _ _ _ _ _ _ _ _ _ H'). unfold select_with_fn, sel_with, resolve_all. cbn [mapM fst snd]. unfold dgetE. rewrite G. reflexivity.
  - intros ->. destruct (so_tolerance so); [reflexivity|congruence].
  - destruct (so_method so); [reflexivity|]. destruct (so_tolerance so); [reflexivity|]. intros [C|C]; congruence.
Qed.
Print Assumptions C75_refused.

(** ** [drop=True] leaves out exactly the coordinates that lost all their dimensions. *)
Lemma drop_spec x b : without_scalars x b (drop_scalars true x b).
Proof.
  split; [reflexivity|]. split; [reflexivity|]. intros [c k]. cbn [drop_scalars aux]. rewrite filter_In. cbn [fst snd].
  assert (became_scalar x (c, k) = true <-> c_dims k = [] /\ (In c (dnames x) \/ exists k', dget (aux x) c = Some k' /\ c_dims k' <> [])) as E; [|rewrite negb_true_iff, <- E; destruct (became_scalar x (c, k)); intuition congruence].
  unfold became_scalar. cbn [fst snd]. destruct (c_dims k) as [|n ns]; [|split; [discriminate|intros [C _]; discriminate]]. rewrite orb_true_iff. split.
  - intros [M|M]; (split; [reflexivity|]); [left; apply memb_In, M|right]. destruct (dget (aux x) c) as [k'|]; [|discriminate]. exists k'. split; [reflexivity|]. intros C. rewrite C in M. discriminate.
  - intros [_ [M|(k' & M & Q)]]; [left; apply memb_In, M|right]. rewrite M. destruct (c_dims k'); [congruence|reflexivity].
Qed.
Theorem C75_drop : forall r1 r2 r3 r4 w sel isel so io tr tr' name x,
  (forall p, sel = Some p -> isel = None) -> (forall q, isel = Some q -> sel = None) ->
  SelectWith r1 r2 r3 r4 w sel (mkSelOptions (so_method so) (so_tolerance so) false) isel (mkIselOptions false (io_missing io)) = Ok tr ->
  SelectWith r1 r2 r3 r4 w sel (mkSelOptions (so_method so) (so_tolerance so) true) isel (mkIselOptions true (io_missing io)) = Ok tr' ->
  match transform_fn tr name x with
  | Ok y => exists y', transform_fn tr' name x = Ok y' /\ (sel = None /\ isel = None \/ without_scalars x y y')
  | Err er => transform_fn tr' name x = Err er
  end.
Proof.
  intros r1 r2 r3 r4 w sel isel so io tr tr' name x P Q H H'. rewrite (with_fn _ _ _ _ _ _ _ _ _ _ H), (with_fn _ _ _ _ _ _ _ _ _ _ H'). unfold select_with_fn. destruct sel as [kw|].
  - rewrite (P kw eq_refl). unfold sel_with. change (resolve_all (mkSelOptions (so_method so) (so_tolerance so) true) (dims x) kw) with (resolve_all (mkSelOptions (so_method so) (so_tolerance so) false) (dims x) kw).
    destruct (resolve_all _ (dims x) kw) as [made|]; cbn [bind]; [|reflexivity]. destruct (sel_array made x) as [b|]; cbn [bind]; [|reflexivity]. eexists. split; [reflexivity|]. right. apply drop_spec.
  - cbn [bind]. destruct isel as [kw|]; [|eexists; split; [reflexivity|left; auto]]. unfold isel_with. cbn [io_missing io_drop]. destruct (isel_array _ x) as [b|]; cbn [bind]; [|reflexivity]. eexists. split; [reflexivity|]. right. apply drop_spec.
Qed.
Print Assumptions C75_drop.

(** ** [missing_dims="ignore"] (or "warn"): the positions of missing dimensions do not matter, and a
    dimension that is missing is no error. *)
Theorem C75_missing : forall r1 r2 r3 r3' r4 r4' w so dr mode kw tr tr' name x,
  mode <> MRaise ->
  SelectWith r1 r2 r3 r4 w None so (Some kw) (mkIselOptions dr mode) = Ok tr ->
  SelectWith r1 r2 r3' r4' w None so (Some (filter (fun p => memb (fst p) (dnames x)) kw)) (mkIselOptions dr MRaise) = Ok tr' ->
  transform_fn tr name x = transform_fn tr' name x /\
  ((forall d p, In (d, p) kw -> ~ In d (dnames x)) -> exists y, transform_fn tr name x = Ok y /\ dims y = dims x /\ forall e, get y e = get x e).
Proof.
  intros r1 r2 r3 r3' r4 r4' w so dr mode kw tr tr' name x M H H'. rewrite (with_fn _ _ _ _ _ _ _ _ _ _ H), (with_fn _ _ _ _ _ _ _ _ _ _ H'). unfold select_with_fn. cbn [bind]. unfold isel_with. cbn [io_missing io_drop].
  assert (forall A (u v : A), match mode with MRaise => u | _ => v end = v) as -> by (intros; destruct mode; congruence). split; [reflexivity|].
  intros N. assert (filter (fun p => memb (fst p) (dnames x)) kw = []) as ->.
  { clear H H'. induction kw as [|[d p] kw IH]; [reflexivity|]. cbn [filter fst]. assert (memb d (dnames x) = false) as -> by (apply memb_false, (N d p); left; reflexivity). apply IH. intros d' p' I. apply (N d' p'). right. exact I. }
  cbn [isel_array bind]. eexists. split; [reflexivity|]. destruct dr; split; reflexivity.
Qed.
Print Assumptions C75_missing.

(** ** Without keyword arguments this is Select. *)
Lemma restrict_names d ls a n : In n (dnames (restrict [(d, ls)] a)) -> In n (dnames a).
Proof. unfold dnames. intros I. apply in_map_iff in I. destruct I as ([k l] & <- & I). apply restrict_in in I. destruct I as (l0 & I & _). cbn [fst]. apply (in_map fst) in I. exact I. Qed.
Lemma kwargs_dims kw : forall x out, sel_kwargs kw [("", x)] = Ok out -> forall d ix, In (d, ix) kw -> In d (dnames x).
Proof.
  induction kw as [|[d ix] kw IH]; [intros x out _ ? ? []|]. intros x out H d' ix' I. cbn [sel_kwargs] in H. destruct (sel_indexer d ix [("", x)]) as [ds1|] eqn:E; [|discriminate]. cbn [bind] in H.
  assert (In d (dnames x)) as Id.
  { assert (has_dim [("", x)] d = true) as D by (destruct ix; cbn [sel_indexer] in E; [unfold sel_scalar in E|unfold sel_labels in E|unfold sel_range in E]; destruct (has_dim [("", x)] d); congruence). apply has_dim_iff in D. destruct D as (v & a & [[= <- <-]|[]] & J). exact J. }
  destruct (sel_indexer_spec _ _ _ _ E) as [K S]. destruct (S "" x eq_refl) as (b & G & S1). destruct ds1 as [|[k z] [|? ?]]; try discriminate. change (k :: nil = ("" : string) :: nil) in K. injection K as ->. cbn [dget] in G. destruct (eq_dec "" ""); [|congruence]. injection G as ->.
  destruct I as [[= <- <-]|I]; [exact Id|]. specialize (IH b out H d' ix' I). clear - IH S1 Id. destruct (eq_dec d' d) as [->|Ne]; [exact Id|]. unfold sel1 in S1. destruct (dget (dims x) d) as [have|]; [|subst; exact IH].
  destruct ix as [l|ls|lo hi].
  - destruct S1 as (_ & D & _). unfold dnames in IH. rewrite D in IH. apply keep_names_in in IH. apply IH.
  - destruct S1 as (_ & ->). apply restrict_names in IH. exact IH.
  - subst b. apply restrict_names in IH. exact IH.
Qed.
Theorem C75_defaults : forall r1 r2 r3 r4 q1 q2 w sel isel tr tr' name x,
  SelectWith r1 r2 r3 r4 w sel sel_defaults isel isel_defaults = Ok tr -> Select q1 q2 w sel isel = Ok tr' -> transform_fn tr name x = transform_fn tr' name x.
Proof.
  intros r1 r2 r3 r4 q1 q2 w sel isel tr tr' name x H H'. rewrite (with_fn _ _ _ _ _ _ _ _ _ _ H). apply input_transform_Ok in H'. destruct H' as (_ & _ & Hf). rewrite Hf. clear H Hf. unfold select_with_fn, select_fn.
  assert (match sel with Some kw => sel_with sel_defaults kw x | None => Ok x end = match sel with Some kw => sel_array kw x | None => Ok x end) as ->.
  { destruct sel as [kw|]; [|reflexivity]. unfold sel_with. cbn [so_drop sel_defaults drop_scalars]. assert (forall r : result da, (do b <- r; Ok b) = r) as B by (intros []; reflexivity).
    assert (forall d ix, In (d, ix) kw -> forall have, dget (dims x) d = Some have -> True) as _ by auto.
    destruct (sel_array kw x) as [y|er] eqn:E.
    - assert (resolve_all sel_defaults (dims x) kw = Ok kw) as ->; [|cbn [bind]; rewrite E; reflexivity]. unfold sel_array in E. destruct (sel_kwargs kw [("", x)]) as [out|] eqn:K; [|discriminate]. pose proof (kwargs_dims _ _ _ K) as D. clear - D.
      unfold resolve_all. induction kw as [|[d ix] kw IH]; [reflexivity|]. cbn [mapM fst snd]. unfold dgetE. pose proof (D d ix (or_introl eq_refl)) as I. destruct (dget (dims x) d) as [have|] eqn:G; [|apply dget_None in G; contradiction]. cbn [bind].
      assert (resolve sel_defaults have ix = Ok ix) as -> by (destruct ix; reflexivity). cbn [bind]. unfold dgetE in IH. rewrite IH; [reflexivity|]. intros d' ix' J. apply (D d' ix'). right. exact J.
    - pose proof (sel_array_err _ _ _ E) as ->. destruct (resolve_all sel_defaults (dims x) kw) as [made|e2] eqn:R; cbn [bind].
      + assert (made = kw) as ->; [|rewrite E; reflexivity]. apply resolve_all_found in R. clear - R. induction R as [|[d ix] [d' ix'] kw made (A & have & _ & C) _ IH]; [reflexivity|]. cbn in A, C. subst. reflexivity.
      + f_equal. clear - R. unfold resolve_all in R. induction kw as [|[d ix] kw IH]; [discriminate|]. cbn [mapM fst snd] in R. unfold dgetE in R, IH. destruct (dget (dims x) d) as [have|]; cbn [bind] in R; [|congruence].
        assert (resolve sel_defaults have ix = Ok ix) as Q by (destruct ix; reflexivity). rewrite Q in R. cbn [bind] in R. match type of R with bind ?r _ = _ => destruct r as [?|e3] eqn:E3; cbn [bind] in R; [discriminate|] end. injection R as <-. apply IH. reflexivity. }
  match goal with |- bind ?r _ = _ => destruct r as [mid|] end; cbn [bind]; [|reflexivity]. destruct isel as [kw|]; [|reflexivity]. unfold isel_with. cbn. destruct (isel_array kw mid); reflexivity.
Qed.
Print Assumptions C75_defaults.

(** ** Concrete cases: lead times 10, 20, 30 in the array of C68, and an axis that decreases. *)
Definition opts m t dr : sel_options := mkSelOptions m t dr.
Definition pick_lead (m : fill_method) (t : option Q) (l : label) (x : da) : result da :=
  do tr <- SelectWith "" "" "" "" "both" (Some [("lead_time", IxLabel l)]) (opts (Some m) t false) None isel_defaults;
  transform_fn tr "t2m" x.
Definition value_of (r : result da) : option val := match r with Ok y => Some (get y (upd env0 "number" (LZ 0))) | Err _ => None end.
Definition error_of (r : result da) : option err := match r with Ok _ => None | Err e => Some e end.
Example C75_axis : all_numbers [LZ 10; LZ 20; LZ 30] /\ ascending [LZ 10; LZ 20; LZ 30].
Proof.
  assert (all_numbers [LZ 10; LZ 20; LZ 30]) as N by (apply all_numeric; reflexivity). split; [exact N|]. apply rising_iff; [exact N|reflexivity].
Qed.
Example C75_cases :
  value_of (pick_lead MNearest None (LZ 24) lagged) = Some (Fin 20) /\ value_of (pick_lead MNearest None (LZ 25) lagged) = Some (Fin 30) /\
  value_of (pick_lead MNearest None (LZ 99) lagged) = Some (Fin 30) /\ value_of (pick_lead MPad None (LZ 29) lagged) = Some (Fin 20) /\
  value_of (pick_lead MBackfill None (LZ 21) lagged) = Some (Fin 30) /\ value_of (pick_lead MBackfill None (LZ 20) lagged) = Some (Fin 20) /\
  value_of (pick_lead MNearest (Some 4%Q) (LZ 24) lagged) = Some (Fin 20) /\ error_of (pick_lead MNearest (Some 4%Q) (LZ 25) lagged) = Some KeyError /\
  error_of (pick_lead MPad None (LZ 9) lagged) = Some KeyError /\ error_of (pick_lead MBackfill None (LZ 31) lagged) = Some KeyError.
Proof. repeat split; reflexivity. Qed.
Definition lagged_down : da := mkDa [("number", [LZ 0; LZ 1]); ("lead_time", [LZ 30; LZ 20; LZ 10])] (get lagged) [].
Definition lagged_mixed : da := mkDa [("number", [LZ 0; LZ 1]); ("lead_time", [LZ 10; LZ 30; LZ 20])] (get lagged) [].
(** On an axis that decreases "pad" is still the one before: the greater number. *)
Example C75_down :
  value_of (pick_lead MPad None (LZ 21) lagged_down) = Some (Fin 30) /\ value_of (pick_lead MBackfill None (LZ 29) lagged_down) = Some (Fin 20) /\
  value_of (pick_lead MNearest None (LZ 25) lagged_down) = Some (Fin 30) /\ value_of (pick_lead MNearest None (LZ 11) lagged_down) = Some (Fin 10) /\
  error_of (pick_lead MPad None (LZ 31) lagged_down) = Some KeyError /\ error_of (pick_lead MNearest None (LZ 20) lagged_mixed) = Some ValueError.
Proof. repeat split; reflexivity. Qed.
(** The label stays as a coordinate, unless it is dropped; a dimension that is missing is left out. *)
Example C75_drop_case : exists tr tr' y y',
  SelectWith "" "" "" "" "both" (Some [("lead_time", IxLabel (LZ 11))]) (opts (Some MNearest) None false) None isel_defaults = Ok tr /\
  SelectWith "" "" "" "" "both" (Some [("lead_time", IxLabel (LZ 11))]) (opts (Some MNearest) None true) None isel_defaults = Ok tr' /\
  transform_fn tr "t2m" lagged = Ok y /\ transform_fn tr' "t2m" lagged = Ok y' /\
  (exists k, dget (aux y) "lead_time" = Some k /\ c_get k env0 = LZ 10) /\ dget (aux y') "lead_time" = None /\ dims y' = dims y.
Proof. do 4 eexists. split; [reflexivity|]. split; [reflexivity|]. split; [reflexivity|]. split; [reflexivity|]. split; [|split; reflexivity]. eexists. split; reflexivity. Qed.
Example C75_missing_case : exists tr tr' y,
  SelectWith "" "" "" "" "both" None sel_defaults (Some [("level", PosAt 0); ("number", PosAt (-1))]) (mkIselOptions false MIgnore) = Ok tr /\
  SelectWith "" "" "" "" "both" None sel_defaults (Some [("level", PosAt 0); ("number", PosAt (-1))]) isel_defaults = Ok tr' /\
  transform_fn tr "t2m" lagged = Ok y /\ dims y = [("lead_time", [LZ 10; LZ 20; LZ 30])] /\ get y (upd env0 "lead_time" (LZ 20)) = Fin 120 /\
  transform_fn tr' "t2m" lagged = Err ValueError.
Proof. do 3 eexists. split; [reflexivity|]. split; [reflexivity|]. split; [reflexivity|]. split; [reflexivity|]. split; [|reflexivity]. cbn. f_equal. Qed.
Print Assumptions C75_axis.

(** ** Lists and several dimensions: if every label that is asked for is found, the transform is the
    selection of the labels found; if one is not, KeyError. *)
Definition numbers_asked (ix : indexer) : Prop :=
  match ix with IxLabel l => exists q, is_number l q | IxList ls => all_numbers ls | IxSlice _ _ => False end.
Definition numbers_along (ds : dimlist) (kw : dict string indexer) : Prop :=
  forall d ix, In (d, ix) kw -> numbers_asked ix /\ exists have, dget ds d = Some have /\ all_numbers have.
Lemma found_resolve so m ds d ix ix' : so_method so = Some m -> numbers_along ds [(d, ix)] -> found_for so ds (d, ix) (d, ix') ->
  exists have, dget ds d = Some have /\ resolve so have ix = Ok ix'.
Proof.
  intros Hm Na (_ & have & G & F). cbn [fst snd] in *. exists have. split; [exact G|]. destruct (Na d ix (or_introl eq_refl)) as (Ni & have' & G' & N). assert (have' = have) as -> by congruence. clear G'.
  unfold resolve. rewrite Hm in *. destruct F as [M F]. assert (forallb numeric have = true) as -> by (apply all_numeric, N).
  assert (rising have || falling have = true) as E. { apply orb_true_iff. destruct M as [M|M]; [left; apply rising_iff; auto|right; apply falling_iff; auto]. }
  assert (forall l x, (exists q, is_number l q) -> found so m have l x -> (if numeric l then near_label m (so_tolerance so) have l else Err TypeError) = Ok x) as K.
  { intros l x Q P. apply numeric_iff in Q. rewrite Q. apply near_label_iff; auto. }
  rewrite E. destruct ix as [l|ls|lo hi]; [| |destruct Ni]; destruct ix' as [l'|xs|? ?]; try (destruct F; fail).
  - rewrite (K _ _ Ni F). reflexivity.
  - assert (mapM (fun l => if numeric l then near_label m (so_tolerance so) have l else Err TypeError) ls = Ok xs) as ->; [|reflexivity]. clear - F K Ni. induction F as [|l x ls xs P F IH]; [reflexivity|]. cbn [mapM].
    rewrite (K l x (Ni l (or_introl eq_refl)) P). cbn [bind]. rewrite IH; [reflexivity|]. intros z I. apply Ni. right. exact I.
Qed.
Theorem C75_as_labels : forall r1 r2 r3 r4 q1 q2 q3 q4 w kw made m so isel io tr tr' name x,
  SelectWith r1 r2 r3 r4 w (Some kw) (mkSelOptions (so_method so) (so_tolerance so) false) isel io = Ok tr -> SelectWith q1 q2 q3 q4 w (Some made) sel_defaults isel io = Ok tr' ->
  so_method so = Some m -> numbers_along (dims x) kw -> labels_found so (dims x) (Some kw) (Some made) ->
  transform_fn tr name x = transform_fn tr' name x.
Proof.
  intros r1 r2 r3 r4 q1 q2 q3 q4 w kw made m so isel io tr tr' name x H H' Hm Na F. rewrite (with_fn _ _ _ _ _ _ _ _ _ _ H), (with_fn _ _ _ _ _ _ _ _ _ _ H'). unfold select_with_fn. f_equal. unfold sel_with. cbn [so_drop sel_defaults drop_scalars].
  assert (resolve_all (mkSelOptions (so_method so) (so_tolerance so) false) (dims x) kw = Ok made /\ resolve_all sel_defaults (dims x) made = Ok made) as [-> ->]; [|reflexivity].
  clear - Hm Na F. cbn [labels_found] in F. induction F as [|[d ix] [d' ix'] kw made P F IH]; [split; reflexivity|]. assert (d' = d) as -> by apply P.
  destruct (found_resolve so m _ _ _ _ Hm (fun a b I => Na a b (match I with or_introl e => or_introl e | or_intror f => match f with end end)) P) as (have & G & R).
  destruct IH as [I1 I2]; [intros a b I; apply Na; right; exact I|]. split.
  - unfold resolve_all. cbn [mapM fst snd]. unfold dgetE at 1. rewrite G. cbn [bind]. change (resolve (mkSelOptions (so_method so) (so_tolerance so) false) have ix) with (resolve so have ix). rewrite R. cbn [bind].
    unfold resolve_all in I1. rewrite I1. reflexivity.
  - unfold resolve_all. cbn [mapM fst snd]. unfold dgetE at 1. rewrite G. cbn [bind]. assert (resolve sel_defaults have ix' = Ok ix') as -> by (destruct ix'; reflexivity). cbn [bind]. unfold resolve_all in I2. rewrite I2. reflexivity.
Qed.
Theorem C75_list_missing : forall r1 r2 r3 r4 w d ls so m io tr name x have l,
  SelectWith r1 r2 r3 r4 w (Some [(d, IxList ls)]) so None io = Ok tr -> so_method so = Some m ->
  dget (dims x) d = Some have -> all_numbers have -> all_numbers ls ->
  (~ (ascending have \/ descending have) -> transform_fn tr name x = Err ValueError) /\
  (ascending have \/ descending have -> In l ls -> (forall l', ~ found so m have l l') -> transform_fn tr name x = Err KeyError).
Proof.
  intros r1 r2 r3 r4 w d ls so m io tr name x have l H Hm G N Nl. rewrite (with_fn _ _ _ _ _ _ _ _ _ _ H). clear H.
  assert (forallb numeric have = true) as F by (apply all_numeric, N). unfold select_with_fn, sel_with, resolve_all. cbn [mapM fst snd]. unfold dgetE. rewrite G. cbn [bind]. unfold resolve. rewrite Hm, F. split.
  - intros M. destruct (rising have || falling have) eqn:E; [|reflexivity]. exfalso. apply M. apply orb_true_iff in E. destruct E as [E|E]; [left; apply rising_iff; auto|right; apply falling_iff; auto].
  - intros M I Nf. assert (rising have || falling have = true) as E. { apply orb_true_iff. destruct M as [M|M]; [left; apply rising_iff; auto|right; apply falling_iff; auto]. }
    rewrite E. assert (mapM (fun l => if numeric l then near_label m (so_tolerance so) have l else Err TypeError) ls = Err KeyError) as ->; [|reflexivity].
    clear - N Nl E I Nf. induction ls as [|z ls IH]; [destruct I|]. cbn [mapM]. assert (numeric z = true) as Nz by (apply numeric_iff, Nl; left; reflexivity). rewrite Nz.
    destruct (near_label m (so_tolerance so) have z) as [y|er] eqn:Ez; cbn [bind].
    + destruct I as [->|I]; [exfalso; apply (Nf y), near_label_iff; auto|]. rewrite IH; [reflexivity|intros k Ik; apply Nl; right; exact Ik|exact I].
    + apply near_label_err in Ez. subst er. reflexivity.
Qed.
Example C75_list_case : exists tr y, SelectWith "" "" "" "" "both" (Some [("lead_time", IxList [LZ 29; LZ 12; LZ 30]); ("number", IxLabel (LZ 5))]) (opts (Some MNearest) None false) None isel_defaults = Ok tr /\
  transform_fn tr "t2m" lagged = Ok y /\ dims y = [("lead_time", [LZ 30; LZ 10; LZ 30])] /\ get y (upd env0 "lead_time" (LZ 10)) = Fin 110.
Proof. do 2 eexists. split; [reflexivity|]. split; [reflexivity|]. split; [reflexivity|]. cbn. f_equal. Qed.
Print Assumptions C75_as_labels.
Print Assumptions C75_list_missing.
