(** C68: the input transforms Rename, Select and StackToNewDimension. *)
From Coq Require Import FunctionalExtensionality String ZArith List Bool Reals Lia Lra Permutation.
Import ListNotations.
From Verif Require Import Prelude Values Model_XArray Spec_XArray Proofs_XArray Model_MetricsBase Model_Aggregation Model_Deterministic Model_Loaders Spec_Loaders
  Model_Wrappers Spec_Wrappers Model_Prepare Spec_Prepare Proofs_Loaders Proofs_Prepare Proofs_Prepare2 Spec_Aggregator Proofs_Aggregator Proofs_Reduce Spec_Reduce Proofs_Ensemble2 Proofs_Det2
  Model_Ensemble Proofs_Beam9 Props_Transforms Model_Select Spec_Select Proofs_Select.
Local Open Scope string_scope.
Local Open Scope list_scope.

(** ** Rename: the values stay, under the new names; it fails (ValueError) exactly if a name to be
    renamed does not exist, or if two names would become one. *)
Theorem C68_rename : forall repr w m tr name x,
  Rename repr w m = Ok tr ->
  let named n := In n (dnames x) \/ In n (keys (aux x)) in
  ((exists y, transform_fn tr name x = Ok y) <->
   (forall n, In n (keys m) -> named n) /\
   (forall rho, by_dictionary m rho -> forall n n', named n -> named n' -> rho n = rho n' -> n = n')) /\
  (forall er, transform_fn tr name x = Err er -> er = ValueError) /\
  (forall y rho, transform_fn tr name x = Ok y -> by_dictionary m rho ->
     dims y = map (fun p => (rho (fst p), snd p)) (dims x) /\
     (wf x -> wf y /\ forall e e', (forall n, In n (dnames x) -> e' n = e (rho n)) -> get y e = get x e') /\
     (forall c q, dget (aux x) c = Some q -> exists q', dget (aux y) (rho c) = Some q' /\ c_dims q' = map rho (c_dims q) /\ forall e, c_get q' e = c_get q (fun n => e (rho n)))).
Proof.
  intros repr w m tr name x H named. apply input_transform_Ok in H. destruct H as (_ & _ & Hf). rewrite Hf. clear Hf.
  assert (forall rho, by_dictionary m rho -> forall n, rho n = new_name m n) as U.
  { intros rho B n. destruct (B n) as [B1 B2]. unfold new_name. destruct (dget m n); [apply B1; reflexivity|apply B2; reflexivity]. }
  assert (forall n, named n <-> In n (array_names x)) as Nm by (intros n; rewrite in_array_names; reflexivity).
  split; [|split].
  - split.
    + intros (y & Hy). apply rename_array_Ok in Hy. destruct Hy as (K & J & _). split; [intros n I; apply Nm, K, I|]. intros rho B n n' I I' E. rewrite !(U rho B) in E. apply J; auto; apply Nm; auto.
    + intros [K J]. eexists. apply rename_array_intro; [intros n I; apply Nm, K, I|]. intros n n' I I' E. apply (J (new_name m)); auto; [apply new_name_dict| |]; apply Nm; auto.
  - intros er. unfold rename_array. destruct (_ && _); congruence.
  - intros y rho Hy B. apply rename_array_Ok in Hy. destruct Hy as (K & J & ->). assert (rho = new_name m) as -> by (apply functional_extensionality, U, B). split; [reflexivity|]. split.
    + intros W. split.
      * destruct W as (N & L & V). split; [|split].
        -- rewrite dnames_ren. apply NoDup_map_on; auto. intros n n' I I' E. apply J; auto; apply Nm; left; auto.
        -- intros d ls I. cbn [ren dims] in I. apply in_map_iff in I. destruct I as ([n l] & [= <- <-] & I). apply (L n l I).
        -- intros e e' E. cbn [ren get]. apply V. intros n I. apply E. rewrite dnames_ren. apply in_map, I.
      * intros e e' E. cbn [ren get]. apply W. intros n I. symmetry. apply E, I.
    + intros c q G. exists (mkCoord (map (new_name m) (c_dims q)) (fun e => c_get q (fun n => e (new_name m n)))). split; [|split; reflexivity].
      assert (forall n, In n (keys (aux x)) -> In n (array_names x)) as Ia by (intros n I; apply Nm; right; exact I). pose proof (Ia c (dget_Some_keys _ _ G)) as Ic.
      cbn [ren aux]. revert G Ia. generalize (aux x). intros au. induction au as [|[k z] au IH]; intros G Ia; [discriminate|]. cbn [map fst snd dget] in *. destruct (eq_dec c k) as [->|Ne].
      * injection G as ->. destruct (eq_dec (new_name m k) (new_name m k)); [reflexivity|congruence].
      * destruct (eq_dec (new_name m c) (new_name m k)) as [E|_]; [exfalso; apply Ne; apply J; auto; apply Ia; left; reflexivity|]. apply IH; auto. intros n I. apply Ia. right. exact I.
Qed.
Print Assumptions C68_rename.
(** Renaming and renaming back gives the array back. *)
Theorem C68_rename_back : forall repr repr' w m m' tr tr' name x y z,
  Rename repr w m = Ok tr -> Rename repr' w m' = Ok tr' -> wf x ->
  (forall rho rho' n, by_dictionary m rho -> by_dictionary m' rho' -> In n (dnames x) -> rho' (rho n) = n) ->
  transform_fn tr name x = Ok y -> transform_fn tr' name y = Ok z ->
  dims z = dims x /\ forall e, get z e = get x e.
Proof.
  intros repr repr' w m m' tr tr' name x y z H H' W R Hy Hz. destruct (C68_rename _ _ _ _ name x H) as (_ & _ & S). destruct (S y _ Hy (new_name_dict m)) as (D & V & _). clear S.
  destruct (V W) as [Wy V']. destruct (C68_rename _ _ _ _ name y H') as (_ & _ & S). destruct (S z _ Hz (new_name_dict m')) as (D' & V2 & _). destruct (V2 Wy) as [Wz V2'].
  assert (forall n, In n (dnames x) -> new_name m' (new_name m n) = n) as Q by (intros n I; apply R; auto; apply new_name_dict). split.
  - rewrite D', D, map_map. rewrite <- (List.map_id (dims x)) at 2. apply map_ext_in. intros [n l] I. cbn [fst snd]. rewrite Q; auto. apply (in_map fst _ _ I).
  - intros e. rewrite (V2' e (fun n => e (new_name m' n))) by auto. apply V'. intros n I. rewrite Q; auto.
Qed.
Print Assumptions C68_rename_back.

(** ** Select: first the labels of [sel], then the positions of [isel], counted in what the first
    selection left. *)
Theorem C68_select : forall repr1 repr2 w sel isel tr name x y,
  Select repr1 repr2 w sel isel = Ok tr -> wf x ->
  (forall kw, sel = Some kw -> NoDup (keys kw)) -> (forall kw, isel = Some kw -> NoDup (keys kw)) ->
  transform_fn tr name x = Ok y ->
  exists mid at_labels, selected_from sel id_name x mid /\ by_position (dims mid) isel at_labels /\ selected_from at_labels id_name mid y.
Proof.
  intros repr1 repr2 w sel isel tr name x y H W N1 N2 Hy. apply input_transform_Ok in H. destruct H as (_ & _ & Hf). rewrite Hf in Hy. clear Hf. unfold select_fn in Hy.
  match type of Hy with bind ?r _ = _ => destruct r as [mid|] eqn:E1; [|discriminate] end. cbn [bind] in Hy.
  assert (tidy mid /\ selected_from sel id_name x mid) as [T S].
  { destruct sel as [kw|]; [|injection E1 as <-; split; [apply wf_tidy, W|apply selected_none, wf_tidy, W]]. specialize (N1 kw eq_refl). split; [apply (selected_tidy kw x); auto; apply wf_tidy, W|]. apply sel_array_Ok; auto. apply wf_tidy, W. }
  exists mid. destruct isel as [kw|].
  - destruct (isel_array_spec kw mid y (N2 kw eq_refl) T Hy) as (kw' & F & S2). exists (Some kw'). split; auto.
  - injection Hy as <-. exists None. split; auto. split; [exact I|]. apply selected_none, T.
Qed.
Print Assumptions C68_select.
(** Failures: with [sel], only KeyError; with [isel], ValueError for a dimension and IndexError for a
    position that is not there. *)
Theorem C68_select_errors : forall repr1 repr2 w sel isel tr name x er,
  Select repr1 repr2 w sel isel = Ok tr -> wf x -> transform_fn tr name x = Err er ->
  (er = KeyError /\ sel <> None) \/ ((er = ValueError \/ er = IndexError) /\ isel <> None).
Proof.
  intros repr1 repr2 w sel isel tr name x er H W Hy. apply input_transform_Ok in H. destruct H as (_ & _ & Hf). rewrite Hf in Hy. clear Hf. unfold select_fn in Hy.
  match type of Hy with bind ?r _ = _ => destruct r as [mid|] eqn:E1 end; cbn [bind] in Hy.
  - right. destruct isel as [kw|]; [|discriminate]. split; [|discriminate]. clear E1. revert mid Hy. induction kw as [|[d p] kw IH]; intros mid Hy; [discriminate|]. cbn [isel_array] in Hy.
    destruct (isel_one d p mid) eqn:E; cbn [bind] in Hy; [apply (IH _ Hy)|]. injection Hy as ->. destruct (isel_one_err _ _ _ _ E) as [[-> _]|[-> _]]; auto.
  - injection Hy as ->. left. destruct sel as [kw|]; [|discriminate]. split; [apply (sel_array_err _ _ _ E1)|discriminate].
Qed.
Print Assumptions C68_select_errors.
(** One dimension by labels: it must exist, and the labels must be among its labels. *)
Theorem C68_select_labels : forall repr1 repr2 w d ix tr name x,
  Select repr1 repr2 w (Some [(d, ix)]) None = Ok tr -> wf x ->
  ((exists y, transform_fn tr name x = Ok y) <->
   exists have, dget (dims x) d = Some have /\
     match ix with IxLabel l => In l have | IxList ls => incl ls have | IxSlice _ _ => True end).
Proof.
  intros repr1 repr2 w d ix tr name x H W. apply input_transform_Ok in H. destruct H as (_ & _ & Hf). rewrite Hf. clear Hf. unfold select_fn.
  assert ((exists y, (do a <- sel_array [(d, ix)] x; Ok a) = Ok y) <-> exists out, sel_indexer d ix [("", x)] = Ok out) as ->.
  { unfold sel_array. cbn [sel_kwargs]. destruct (sel_indexer d ix [("", x)]) as [out|] eqn:E; cbn [bind].
    - destruct (sel_indexer_spec _ _ _ _ E) as [K _]. destruct out as [|[k z] [|? ?]]; try discriminate. cbn [bind]. split; intros _; eauto.
    - split; intros (y & Hy); discriminate. }
  assert (has_dim [("", x)] d = true <-> In d (dnames x)) as Hd.
  { rewrite has_dim_iff. split; [intros (v & a & [[= <- <-]|[]] & I); exact I|]. intros I. exists "", x. split; [left; reflexivity|exact I]. }
  destruct (dget (dims x) d) as [have|] eqn:G.
  - assert (has_dim [("", x)] d = true) as Hd1 by (apply Hd, (dget_Some_keys _ _ G)). destruct ix as [l|ls|lo hi]; cbn [sel_indexer].
    + unfold sel_scalar. rewrite Hd1. cbn [mapM fst snd]. rewrite G. destruct (memb l have) eqn:M; cbn [bind].
      * apply memb_In in M. split; [intros _; eauto|intros _; eauto].
      * apply memb_false in M. split; [intros (o & Ho); discriminate|]. intros (h & [= <-] & I). contradiction.
    + unfold sel_labels. rewrite Hd1. cbn [mapM fst snd]. rewrite G. destruct (forallb (fun l => memb l have) ls) eqn:M; cbn [bind].
      * rewrite forallb_forall in M. split; intros _; [|eauto]. exists have. split; auto. intros l I. apply memb_In, M, I.
      * split; [intros (o & Ho); discriminate|]. intros (h & [= <-] & I). exfalso. assert (forallb (fun l => memb l have) ls = true) as T; [|congruence]. apply forallb_forall. intros l J. apply memb_In, I, J.
    + unfold sel_range. rewrite Hd1. split; intros _; eauto.
  - assert (~ In d (dnames x)) as Nd by (apply dget_None in G; exact G). assert (has_dim [("", x)] d = false) as Hd0 by (destruct (has_dim _ _); [exfalso; apply Nd, Hd; reflexivity|reflexivity]).
    split; [|intros (h & ? & _); discriminate]. intros (o & Ho). exfalso. destruct ix; cbn [sel_indexer] in Ho; [unfold sel_scalar in Ho|unfold sel_labels in Ho|unfold sel_range in Ho]; rewrite Hd0 in Ho; discriminate.
Qed.
Print Assumptions C68_select_labels.
(** One dimension by position: it must exist (ValueError), and so must the positions, counted from the
    end if negative (IndexError); a slice is cut to the positions that exist. *)
Theorem C68_select_positions : forall repr1 repr2 w d p tr name x,
  Select repr1 repr2 w None (Some [(d, p)]) = Ok tr -> wf x ->
  (~ In d (dnames x) -> transform_fn tr name x = Err ValueError) /\
  (forall have, dget (dims x) d = Some have ->
     let exists_at k := (- Z.of_nat (length have) <= k < Z.of_nat (length have))%Z in
     ((exists y, transform_fn tr name x = Ok y) <->
      match p with PosAt k => exists_at k | PosList ks => Forall exists_at ks | PosSlice _ _ => True end) /\
     (forall er, transform_fn tr name x = Err er -> er = IndexError)).
Proof.
  intros repr1 repr2 w d p tr name x H W. apply input_transform_Ok in H. destruct H as (_ & _ & Hf). rewrite Hf. clear Hf. unfold select_fn. cbn [bind isel_array].
  assert (forall r : result da, (do a' <- r; Ok a') = r) as B by (intros []; reflexivity). rewrite B. clear B. split.
  - intros Nd. unfold isel_one. apply (proj2 (dget_None _ _)) in Nd. unfold dimlist, dict in *. rewrite Nd. reflexivity.
  - intros have G. cbv zeta. pose (exists_at := fun k => (- Z.of_nat (length have) <= k < Z.of_nat (length have))%Z). change (((exists y, isel_one d p x = Ok y) <-> match p with PosAt k => exists_at k | PosList ks => Forall exists_at ks | PosSlice _ _ => True end) /\ (forall er, isel_one d p x = Err er -> er = IndexError)). assert (forall k, (exists l, pos_label have k = Ok l) <-> exists_at k) as Q.
    { intros k. unfold exists_at. split.
      - intros (l & E). apply pos_label_spec in E. destruct E as (q & A & B). assert (q < length have)%nat by (apply nth_error_Some; congruence). destruct (Z.ltb_spec k 0); lia.
      - intros R. set (q := (if Z.ltb k 0 then k + Z.of_nat (length have) else k)%Z). assert (0 <= q < Z.of_nat (length have))%Z as Rq by (unfold q; destruct (Z.ltb_spec k 0); lia).
        destruct (nth_error have (Z.to_nat q)) as [l|] eqn:E; [|apply nth_error_None in E; lia]. exists l. apply pos_label_spec. exists (Z.to_nat q). split; auto. fold q. lia. }
    split.
    + destruct p as [k|ks|start stop].
      * rewrite <- Q. unfold isel_one. rewrite G. split.
        -- intros (y & Hy). destruct (pos_label have k); [eauto|discriminate].
        -- intros (l & E). destruct (isel_one d (PosAt k) x) as [y|er] eqn:F; [|destruct (isel_one_err _ _ _ _ F) as [[-> N]|[-> N]]].
           ++ unfold isel_one in F. rewrite G in F. eauto.
           ++ exfalso. apply N. apply (dget_Some_keys _ _ G).
           ++ exfalso. unfold isel_one in F. rewrite G, E in F. cbn [bind] in F. apply sel_array_err in F. discriminate.
      * unfold isel_one. rewrite G. split.
        -- intros (y & Hy). destruct (mapM (pos_label have) ks) as [ls|] eqn:E; [|discriminate]. apply mapM_Ok_Forall2 in E. clear - E Q. induction E; constructor; auto. apply Q. eauto.
        -- intros F. assert (exists ls, mapM (pos_label have) ks = Ok ls) as (ls & ->); [|cbn [bind]; eauto]. clear - F Q. induction F as [|k ks A F IH]; [eexists; reflexivity|]. apply Q in A. destruct A as (l & E). destruct IH as (ls & E2). cbn [mapM]. rewrite E. cbn [bind]. rewrite E2. cbn [bind]. eauto.
      * split; [auto|]. intros _. unfold isel_one. rewrite G. eauto.
    + intros er F. destruct (isel_one_err _ _ _ _ F) as [[-> N]|[-> N]]; [exfalso; apply N, (dget_Some_keys _ _ G)|reflexivity].
Qed.
Print Assumptions C68_select_positions.

(** ** StackToNewDimension: the dimensions are replaced by one with the labels 0, 1, ...; its positions
    are those of the stacked labels in row-major order (the last listed dimension varies fastest), each
    exactly once. *)
Theorem C68_stack : forall repr w ds new tr name x y,
  StackToNewDimension repr w ds new = Ok tr -> wf x -> transform_fn tr name x = Ok y ->
  wf y /\
  dims y = filter (fun p => negb (memb (fst p) ds)) (dims x) ++ [(new, positions_upto (product (sizes_of x ds)))] /\
  (forall idx e e', within (sizes_of x ds) idx -> e new = LZ (Z.of_nat (row_major (sizes_of x ds) idx)) ->
     (forall n, In n (dnames x) -> ~ In n ds -> e' n = e n) ->
     Forall2 (fun d i => nth_error (labels_of (dims x) d) i = Some (e' d)) ds idx ->
     get y e = get x e') /\
  (forall k, (k < product (sizes_of x ds))%nat -> exists! idx, within (sizes_of x ds) idx /\ row_major (sizes_of x ds) idx = k).
Proof.
  intros repr w ds new tr name x y H W Hy. apply input_transform_Ok in H. destruct H as (_ & _ & Hf). rewrite Hf in Hy. clear Hf. split; [apply (wf_stack _ _ _ _ W Hy)|]. split; [apply (stack_array_Ok _ _ _ _ Hy)|]. split.
  - intros idx e e' F E O V. apply (stack_value ds new x y idx); auto.
  - intros k L. destruct (row_major_onto _ k L) as (idx & A & B). exists idx. split; auto. intros idx' [A' B']. apply (row_major_inj (sizes_of x ds)); auto. congruence.
Qed.
Print Assumptions C68_stack.
Theorem C68_stack_errors : forall repr w ds new tr name x,
  StackToNewDimension repr w ds new = Ok tr ->
  ((exists y, transform_fn tr name x = Ok y) <->
   incl ds (dnames x) /\ NoDup ds /\ ds <> [] /\ (In new (dnames x) -> In new ds) /\ ~ In new (keys (aux x))) /\
  (forall er, transform_fn tr name x = Err er -> (er = KeyError <-> ~ incl ds (dnames x)) /\ (er = ValueError <-> incl ds (dnames x))).
Proof.
  intros repr w ds new tr name x H. apply input_transform_Ok in H. destruct H as (_ & _ & Hf). rewrite Hf. clear Hf. split; [split|].
  - intros (y & Hy). apply stack_array_Ok in Hy. destruct Hy as (A & B & C & D & E & _). repeat split; auto. intros I. destruct (in_dec string_dec new ds); auto. exfalso. apply D; auto.
  - intros (A & B & C & D & E). apply stack_array_intro; auto. intros [I N]. auto.
  - intros er Hy. apply stack_array_err in Hy. destruct Hy as [[-> N]|[-> N]]; split; split; try tauto; try congruence; intros; contradiction.
Qed.
Print Assumptions C68_stack_errors.
(** Reducing the new dimension reduces all the stacked dimensions at once, for every reduction that
    does not depend on the order of the values: an ensemble can be made of members and lead times, say. *)
Theorem C68_stack_reduce : forall repr w ds new tr name x y f r r',
  StackToNewDimension repr w ds new = Ok tr -> wf x -> transform_fn tr name x = Ok y ->
  (forall l l', Permutation l l' -> f l = f l') ->
  reduce f [new] y = Ok r -> reduce f ds x = Ok r' ->
  dims r = dims r' /\ forall e, get r e = get r' e.
Proof.
  intros repr w ds new tr name x y f r r' H W Hy P Hr Hr'. destruct (C68_stack _ _ _ _ _ _ _ _ H W Hy) as (Wy & D & _). apply input_transform_Ok in H. destruct H as (_ & _ & Hf). rewrite Hf in Hy. clear Hf.
  pose proof (stack_array_Ok _ _ _ _ Hy) as (A & B & _ & M & _ & D' & _). destruct (reduce_Ok _ _ _ _ Hr) as (D1 & _ & _ & _). destruct (reduce_Ok _ _ _ _ Hr') as (D2 & _ & V2 & _). split.
  - rewrite D1, D2, D'. unfold keep. rewrite filter_app. cbn [filter fst]. assert (negb (memb new [new]) = false) as -> by (apply negb_false_iff, memb_In; left; reflexivity). rewrite app_nil_r.
    assert (forall p : string * list label, In p (filter (fun p => negb (memb (fst p) ds)) (dims x)) -> negb (memb (fst p) [new]) = true) as Q.
    { intros p I. apply filter_In in I. destruct I as [I J]. apply negb_true_iff, memb_false. intros [K|[]]. apply M. rewrite K. split; [apply in_map, I|]. apply negb_true_iff, memb_false in J. exact J. }
    revert Q. generalize (filter (fun p => negb (memb (fst p) ds)) (dims x)). clear. intros l Q. induction l as [|p l IH]; [reflexivity|]. cbn [filter]. rewrite Q by (left; reflexivity). f_equal. apply IH. intros q I. apply Q. right; auto.
  - intros e. rewrite (reduce_along _ _ _ _ e (proj1 Wy) Hr), V2, (stack_along ds new x y e W Hy). apply P. apply Permutation_map. apply stacked_points; auto.
Qed.
Print Assumptions C68_stack_reduce.
(** ... in particular the ensemble mean over the new dimension is the mean over the stacked ones. *)
Theorem C68_stack_mean : forall repr w ds new tr tr2 skipna skip name x y z,
  StackToNewDimension repr w ds new = Ok tr -> EnsembleMean w new skipna skip = Ok tr2 -> wf x ->
  transform_fn tr name x = Ok y -> transform_fn tr2 name y = Ok z ->
  dims z = filter (fun p => negb (memb (fst p) ds)) (dims x) /\
  forall e P, reduced_points [x] ds e P -> get z e = np_mean skipna (map (get x) P).
Proof.
  intros repr w ds new tr tr2 skipna skip name x y z H H2 W Hy Hz. destruct (C68_stack _ _ _ _ _ _ _ _ H W Hy) as (Wy & D & _).
  assert (In new (dnames y)) as I by (unfold dnames; rewrite D, map_app; apply in_app_iff; right; left; reflexivity).
  apply input_transform_Ok in H2. destruct H2 as (_ & _ & Hf). rewrite Hf in Hz. clear Hf. assert (memb new (dnames y) = true) as M by (apply memb_In, I). rewrite M in Hz. cbn [negb andb] in Hz.
  assert (incl ds (dnames x)) as A. { pose proof H as H0. apply input_transform_Ok in H0. destruct H0 as (_ & _ & Hf). rewrite Hf in Hy. apply (stack_array_Ok _ _ _ _ Hy). }
  assert (exists r', reduce (np_mean skipna) ds x = Ok r') as (r' & Hr'). { unfold reduce. assert (subsetb ds (dnames x) = true) as ->; [|eauto]. apply forallb_forall. intros d J. apply memb_In, A, J. }
  destruct (C68_stack_reduce _ _ _ _ _ _ _ _ _ _ _ H W Hy (np_mean_perm skipna) Hz Hr') as [E V]. destruct (reduce_Ok _ _ _ _ Hr') as (D2 & _ & V2 & _). split; [rewrite E, D2; reflexivity|].
  intros e P RP. rewrite V, V2. apply np_mean_perm. apply Permutation_map. apply (reduced_perm [x] ds e); auto. apply sum_points_spec, W.
Qed.
Print Assumptions C68_stack_mean.

(** ** A concrete case: members 0, 1 and lead times 10, 20, 30; the value is 100 * member + lead time. *)
Definition z_of (l : label) : Z := match l with LZ k => k | _ => 0%Z end.
Definition lagged : da := mkDa [("number", [LZ 0; LZ 1]); ("lead_time", [LZ 10; LZ 20; LZ 30])] (fun e => Fin (IZR (100 * z_of (e "number") + z_of (e "lead_time")))) [].
Example lagged_wf : wf lagged.
Proof.
  split; [|split].
  - repeat constructor; cbn; intuition congruence.
  - intros d ls [[= <- <-]|[[= <- <-]|[]]]; repeat constructor; cbn; intuition congruence.
  - intros e e' H. cbn [lagged get]. rewrite (H "number"), (H "lead_time"); [reflexivity|right; left; reflexivity|left; reflexivity].
Qed.
Definition no_repr {A} (_ : A) : string := "".
(** Member 1 at lead time 30 is at position 5 of the new dimension, which may have the name of a stacked one. *)
Example C68_stack_case : exists tr y, StackToNewDimension no_repr "predictions" ["number"; "lead_time"] "number" = Ok tr /\ transform_fn tr "t2m" lagged = Ok y /\
  dims y = [("number", [LZ 0; LZ 1; LZ 2; LZ 3; LZ 4; LZ 5])] /\ get y (upd env0 "number" (LZ 5)) = Fin 130 /\ get y (upd env0 "number" (LZ 2)) = Fin 30.
Proof. eexists. eexists. split; [reflexivity|]. split; [reflexivity|]. split; [reflexivity|]. split; reflexivity. Qed.
(** The mean over the new dimension. *)
Example C68_mean_case : exists tr tr2 y z, StackToNewDimension no_repr "predictions" ["lead_time"; "number"] "lagged" = Ok tr /\ EnsembleMean "predictions" "lagged" false false = Ok tr2 /\
  transform_fn tr "t2m" lagged = Ok y /\ transform_fn tr2 "t2m" y = Ok z /\ dims z = [].
Proof. eexists. eexists. eexists. eexists. split; [reflexivity|]. split; [reflexivity|]. split; [reflexivity|]. split; reflexivity. Qed.
(** Labels, then positions from the end. *)
Example C68_select_case : exists tr y, Select no_repr no_repr "both" (Some [("lead_time", IxSlice (LZ 10) (LZ 20))]) (Some [("lead_time", PosAt (-1)); ("number", PosSlice (Some 1%Z) None)]) = Ok tr /\
  transform_fn tr "t2m" lagged = Ok y /\ dims y = [("number", [LZ 1])] /\ get y (upd env0 "number" (LZ 1)) = Fin 120.
Proof. eexists. eexists. split; [reflexivity|]. split; [reflexivity|]. split; [reflexivity|]. cbn. f_equal. Qed.
Example C68_position_error : exists tr, Select no_repr no_repr "both" None (Some [("lead_time", PosAt 3)]) = Ok tr /\ transform_fn tr "t2m" lagged = Err IndexError.
Proof. eexists. split; reflexivity. Qed.
(** Two dimensions exchange their names. *)
Example C68_rename_case : exists tr y, Rename no_repr "targets" [("number", "lead_time"); ("lead_time", "number")] = Ok tr /\ transform_fn tr "t2m" lagged = Ok y /\
  dims y = [("lead_time", [LZ 0; LZ 1]); ("number", [LZ 10; LZ 20; LZ 30])] /\ get y (upd (upd env0 "number" (LZ 20)) "lead_time" (LZ 1)) = Fin 120.
Proof. eexists. eexists. split; [reflexivity|]. split; [reflexivity|]. split; reflexivity. Qed.
Example C68_rename_error : exists tr, Rename no_repr "targets" [("number", "lead_time")] = Ok tr /\ transform_fn tr "t2m" lagged = Err ValueError.
Proof. eexists. split; reflexivity. Qed.
