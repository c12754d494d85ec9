(** C43: the stages of load_chunk and the NaN mask. *)
From Coq Require Import String ZArith List Bool Lia.
Import ListNotations.
From Verif Require Import Prelude Values Model_XArray Spec_XArray Proofs_XArray Model_MetricsBase Model_TimeChunks Model_Deterministic Model_Aggregation Spec_Aggregator
  Model_Loaders Spec_Loaders Proofs_Loaders Props_Loaders.
Local Open Scope Z_scope.
Local Open Scope string_scope.
Local Open Scope list_scope.

(** ** Specification *)
(** An optional stage: applied if given, else the identity. *)
Definition stage {A B} (o : option A) (run : A -> B -> result B) (x : B) (y : result B) : Prop :=
  match o with Some f => run f x = y | None => Ok x = y end.
(** [b] is [a] with a coordinate "mask" over all its dimensions, true exactly where [a] is not NaN. *)
Definition with_mask (a b : da) : Prop :=
  dims b = dims a /\ (forall e, get b e = get a e) /\
  (forall n, n <> "mask" -> dget (aux b) n = dget (aux a) n) /\
  exists c, dget (aux b) "mask" = Some c /\ c_dims c = dnames a /\
    forall e, (get a e <> NaN -> c_get c e = LB true) /\ (get a e = NaN -> c_get c e = LB false).

Lemma nan_mask_with a : with_mask a (nan_mask a).
Proof.
  unfold nan_mask. split; [reflexivity|]. split; [reflexivity|]. cbn [aux dims get]. split.
  - intros n Nn. rewrite dget_dset. destruct (eq_dec n "mask"); [congruence|reflexivity].
  - eexists. split; [rewrite dget_dset; destruct (eq_dec "mask" "mask"); [reflexivity|congruence]|]. split; [reflexivity|]. cbn [c_get]. intros e. destruct (get a e); cbn [isnan negb]; split; congruence.
Qed.
Lemma dget_mask subset data v : dget (add_nan_mask_to_data subset data) v =
  match dget data v with Some a => Some (if match subset with None => true | Some l => memb v l end then nan_mask a else a) | None => None end.
Proof.
  unfold add_nan_mask_to_data. induction data as [|[k a] data IH]; [reflexivity|]. cbn [map fst snd dget]. destruct (eq_dec v k) as [->|]; auto.
Qed.

(** ** C43 *)
(** The chunk is read, processed, interpolated (with the reference), in this order; the mask is
    added last, to every variable, and reflects the interpolated values. *)
Theorem C43_stages_in_order : forall cfg src inits leads reference out,
  load_chunk cfg src inits leads reference = Ok out <->
  exists c1 c2 c3, src inits leads = Ok c1 /\
    stage (cfg_process cfg) (fun f x => f x) c1 (Ok c2) /\
    stage (cfg_interpolation cfg) (fun f x => f x reference) c2 (Ok c3) /\
    (cfg_nan_mask cfg = false -> out = c3) /\
    (cfg_nan_mask cfg = true -> out = add_nan_mask_to_data None c3).
Proof.
  intros cfg src inits leads reference out. unfold load_chunk, stage. split.
  - intros H. destruct (src inits leads) as [c1|]; [|discriminate]. cbn [bind] in H. destruct (match cfg_process cfg with Some f => f c1 | None => Ok c1 end) as [c2|] eqn:E2; [|discriminate]. cbn [bind] in H.
    destruct (match cfg_interpolation cfg with Some f => f c2 reference | None => Ok c2 end) as [c3|] eqn:E3; [|discriminate]. cbn [bind] in H. exists c1, c2, c3. split; auto.
    split; [destruct (cfg_process cfg); auto|]. split; [destruct (cfg_interpolation cfg); auto|]. destruct (cfg_compute cfg), (cfg_nan_mask cfg); split; intros; congruence.
  - intros (c1 & c2 & c3 & -> & E2 & E3 & F1 & F2). cbn [bind]. assert (match cfg_process cfg with Some f => f c1 | None => Ok c1 end = Ok c2) as -> by (destruct (cfg_process cfg); auto). cbn [bind].
    assert (match cfg_interpolation cfg with Some f => f c2 reference | None => Ok c2 end = Ok c3) as -> by (destruct (cfg_interpolation cfg); auto). cbn [bind].
    destruct (cfg_compute cfg), (cfg_nan_mask cfg); f_equal; symmetry; auto.
Qed.
(** The first stage that fails decides the error, and later stages do not run. *)
Theorem C43_first_error : forall cfg src inits leads reference e,
  load_chunk cfg src inits leads reference = Err e <->
  src inits leads = Err e \/
  (exists c1, src inits leads = Ok c1 /\
    (stage (cfg_process cfg) (fun f x => f x) c1 (Err e) \/
     exists c2, stage (cfg_process cfg) (fun f x => f x) c1 (Ok c2) /\ stage (cfg_interpolation cfg) (fun f x => f x reference) c2 (Err e))).
Proof.
  intros cfg src inits leads reference e. unfold load_chunk, stage. split.
  - intros H. destruct (src inits leads) as [c1|]; [|left; cbn [bind] in H; congruence]. right. exists c1. split; auto. cbn [bind] in H.
    destruct (match cfg_process cfg with Some f => f c1 | None => Ok c1 end) as [c2|] eqn:E2; cbn [bind] in H.
    + right. exists c2. split; [destruct (cfg_process cfg); auto|]. destruct (match cfg_interpolation cfg with Some f => f c2 reference | None => Ok c2 end) as [c3|] eqn:E3; [discriminate|]. cbn [bind] in H. destruct (cfg_interpolation cfg); congruence.
    + left. destruct (cfg_process cfg); congruence.
  - intros [-> | (c1 & -> & [E|(c2 & E & E')])]; [reflexivity| |]; cbn [bind].
    + destruct (cfg_process cfg); [|discriminate]. rewrite E. reflexivity.
    + assert (match cfg_process cfg with Some f => f c1 | None => Ok c1 end = Ok c2) as -> by (destruct (cfg_process cfg); auto). cbn [bind]. destruct (cfg_interpolation cfg); [|discriminate]. rewrite E'. reflexivity.
Qed.
(** Loading into memory has no effect on the result. *)
Theorem C43_compute_irrelevant : forall p i m src inits leads reference,
  load_chunk (mkCfg p i true m) src inits leads reference = load_chunk (mkCfg p i false m) src inits leads reference.
Proof. intros. unfold load_chunk. cbn. reflexivity. Qed.
(** The mask: same variables, same values, same other coordinates; true exactly at non-NaN points.
    With a subset, only the listed variables get it. *)
Theorem C43_mask_of_values : forall subset data,
  keys (add_nan_mask_to_data subset data) = keys data /\
  forall v a, dget data v = Some a -> exists b, dget (add_nan_mask_to_data subset data) v = Some b /\
    (match subset with None => True | Some l => In v l end -> with_mask a b) /\
    (match subset with None => False | Some l => ~ In v l end -> b = a).
Proof.
  intros subset data. split; [unfold add_nan_mask_to_data, keys; rewrite map_map; reflexivity|]. intros v a G. rewrite dget_mask, G. eexists. split; [reflexivity|].
  destruct subset as [l|]; [|split; [intros _; apply nan_mask_with|intros []]]. destruct (memb v l) eqn:M.
  - apply memb_In in M. split; [intros _; apply nan_mask_with|contradiction].
  - apply memb_false in M. split; [contradiction|auto].
Qed.

(** *** Use by masked aggregation *)
Lemma dget_app_gen {V} (l1 l2 : dict string V) k : dget (l1 ++ l2) k = match dget l1 k with Some v => Some v | None => dget l2 k end.
Proof. induction l1 as [|[k0 v0] l IH]; auto. cbn [app dget]. destruct (eq_dec k k0); auto. Qed.
Lemma dget_filter_sat {V} (p : string * V -> bool) l k : (forall v, In (k, v) l -> p (k, v) = true) -> dget (filter p l) k = dget l k.
Proof.
  induction l as [|[k0 v0] l IH]; intros H; [reflexivity|]. cbn [filter dget]. destruct (eq_dec k k0) as [->|].
  - rewrite (H v0 (or_introl eq_refl)). cbn [dget]. destruct (eq_dec k0 k0); [reflexivity|congruence].
  - destruct (p (k0, v0)); [cbn [dget]; destruct (eq_dec k k0); [congruence|]|]; apply IH; intros v Iv; apply H; right; auto.
Qed.
Lemma dget_filter_unsat {V} (p : string * V -> bool) l k : (forall v, In (k, v) l -> p (k, v) = false) -> dget (filter p l) k = None.
Proof.
  intros H. apply dget_None. intros I. apply in_map_iff in I. destruct I as ([k0 v] & E & I). cbn [fst] in E. subst k0. apply filter_In in I. destruct I as [I P]. rewrite (H v I) in P. discriminate.
Qed.
(** A statistic computed from masked targets and unmasked predictions (the other way round too)
    carries the targets' mask: a masked aggregator counts exactly the points whose target is not
    NaN, and NaNs of the predictions there are not hidden. *)
Theorem C43_masked_targets_are_skipped : forall g f p t e, masked g = true -> Model_Aggregation.skipna g = false -> ~ In "mask" (keys (aux p)) ->
  (counted g (binop f p (nan_mask t)) e = true <-> get t e <> NaN) /\
  (counted g (binop f (nan_mask t) p) e = true <-> get t e <> NaN).
Proof.
  intros g f p t e M S N.
  assert (forall P : Prop, forall b : bool, (b = negb (isnan (get t e))) -> (P <-> b = true) -> (P <-> get t e <> NaN)) as Q.
  { intros P b -> HP. rewrite HP. destruct (get t e); cbn [isnan negb]; split; congruence. }
  assert (forall a, dget (aux a) "mask" = Some (mkCoord (dnames t) (fun e => LB (negb (isnan (get t e))))) -> counted g a e = negb (isnan (get t e))) as C.
  { intros a E. unfold counted. rewrite M, E, S. cbn [c_get truthy negb orb]. apply andb_true_r. }
  split; (apply (Q _ _ eq_refl); rewrite C; [tauto|]); cbn [binop aux nan_mask]; unfold merge_aux; rewrite dget_app_gen.
  - rewrite dget_filter_unsat; [|intros c I; exfalso; apply N; apply (in_map fst _ _ I)]. rewrite dget_filter_sat; [|intros c I; cbn [fst]; apply negb_true_iff, memb_false, N].
    rewrite dget_dset. destruct (eq_dec "mask" "mask"); [reflexivity|congruence].
  - rewrite dget_filter_sat; [rewrite dget_dset; destruct (eq_dec "mask" "mask"); [reflexivity|congruence]|]. intros c I. cbn [fst snd]. apply dget_None in N. rewrite N. reflexivity.
Qed.
(** If both sides are masked, the mask survives exactly if they are NaN at the same points;
    otherwise it is dropped, and a masked aggregator counts every point. *)
Theorem C43_conflicting_masks_are_dropped : forall f p t, dnames p = dnames t -> NoDup (keys (aux p)) ->
  let st := binop f (nan_mask p) (nan_mask t) in
  ((forall e, In e (envs (dims st) env0) -> (get p e = NaN <-> get t e = NaN)) -> exists c, dget (aux st) "mask" = Some c /\ forall e, c_get c e = LB (negb (isnan (get p e)))) /\
  ((exists e, In e (envs (dims st) env0) /\ ~ (get p e = NaN <-> get t e = NaN)) -> dget (aux st) "mask" = None).
Proof.
  intros f p t Ed Na st. cbn [st binop aux nan_mask]. unfold merge_aux. set (J := merge_dims _ _ _). set (mp := mkCoord (dnames p) (fun e => LB (negb (isnan (get p e))))). set (mt := mkCoord (dnames t) (fun e => LB (negb (isnan (get t e))))).
  assert (NoDup (keys (dset (aux p) "mask" mp))) as Nd by (apply NoDup_keys_dset, Na).
  assert (dget (dset (aux p) "mask" mp) "mask" = Some mp) as Ep by (rewrite dget_dset; destruct (eq_dec "mask" "mask"); [reflexivity|congruence]).
  assert (dget (dset (aux t) "mask" mt) "mask" = Some mt) as Et by (rewrite dget_dset; destruct (eq_dec "mask" "mask"); [reflexivity|congruence]).
  assert (forall c, In ("mask", c) (dset (aux p) "mask" mp) -> c = mp) as U by (intros c I; pose proof (In_dget _ _ _ Nd I); congruence).
  assert (In "mask" (map fst (dset (aux p) "mask" mp))) as Im by (apply (dget_Some_keys _ _ Ep)).
  rewrite dget_app_gen. rewrite (dget_filter_unsat _ (dset (aux t) "mask" mt)); [|intros c I; cbn [fst]; apply negb_false_iff, memb_In, Im].
  split.
  - intros H. exists mp. split; [|reflexivity]. rewrite dget_filter_sat; [rewrite Ep; reflexivity|]. intros c I. rewrite (U c I). cbn [fst snd]. rewrite Et. unfold coord_eqb. cbn [mp mt c_dims c_get].
    rewrite Ed. assert (subsetb (dnames t) (dnames t) = true) as -> by (apply forallb_forall; intros d Id; apply memb_In, Id). cbn [andb]. apply forallb_forall.
    + intros e Ie. specialize (H e Ie). unfold eqb. destruct (get p e), (get t e); cbn [isnan negb]; destruct (eq_dec _ _); auto; exfalso; intuition congruence.
  - intros (e & Ie & Hn). rewrite dget_filter_unsat; auto. intros c I. rewrite (U c I). cbn [fst snd]. rewrite Et. unfold coord_eqb. apply andb_false_iff. right.
    apply not_true_iff_false. intros F. rewrite forallb_forall in F. specialize (F e Ie). cbn [mp mt c_get] in F. unfold eqb in F. destruct (eq_dec _ _) as [E|]; [|discriminate]. injection E as E. apply Hn.
    destruct (get p e), (get t e); cbn [isnan negb] in E; split; congruence.
Qed.

(** ** Example *)
(** Two of three targets are known; the loader's mask says so. *)
Definition ex_obs : vars da :=
  [("t", mkDa [("valid_time", map LZ [0; h6; 2 * h6])] (fun e => if eqb (e "valid_time") (LZ h6) then NaN else PInf) [])].
Example C43_example : exists out b c, load_chunk (mkCfg None None true true) (TargetsFromXarray ex_obs) [0; h6] (Some (ChunkArr [0; h6])) None = Ok out /\
  dget out "t" = Some b /\ dget (aux b) "mask" = Some c /\
  forall e, e "init_time" = LZ h6 -> (e "lead_time" = LZ 0 -> c_get c e = LB false) /\ (e "lead_time" = LZ h6 -> c_get c e = LB true).
Proof.
  do 3 eexists. split; [lazy; reflexivity|]. split; [lazy; reflexivity|]. split; [lazy; reflexivity|].
  intros e E1. split; intros E2; cbv [c_get]; rewrite E1, E2; vm_compute; reflexivity.
Qed.

Print Assumptions C43_stages_in_order.
Print Assumptions C43_first_error.
Print Assumptions C43_mask_of_values.
Print Assumptions C43_masked_targets_are_skipped.
Print Assumptions C43_conflicting_masks_are_dropped.
