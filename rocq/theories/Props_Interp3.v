(** C47, continued: interpolation to a reference. *)
From Coq Require Import String ZArith QArith Qreals Qcanon Bool List Sorted Permutation Lia.
Import ListNotations.
From Verif Require Import Prelude Values Model_XArray Spec_XArray Proofs_XArray Model_Tree Proofs_Tree Model_MetricsBase Model_Deterministic Proofs_Baseline Model_Binning
  Proofs_Ensemble2 Model_Interp Spec_Interp Proofs_Interp Props_Interp Props_Interp2.
From Coq Require Import Reals Lra.
Local Open Scope R_scope.
Local Open Scope string_scope.
Local Open Scope list_scope.

Lemma has_coord_iff r n : has_coord r n = true <-> has_coordinate r n.
Proof.
  unfold has_coord, has_coordinate, coord_of. destruct (dget (dims r) n) as [ls|] eqn:E.
  - split; [|reflexivity]. intros _. left. exact (dget_Some_keys _ _ E).
  - destruct (dget (aux r) n) as [c|]; split; try discriminate; eauto. intros [I|[c H]]; [|discriminate]. apply keys_dget in I. destruct I as [m I]. congruence.
Qed.
Lemma reference_coord_Ok r n : wf r -> has_coordinate r n -> exists t, reference_coord r n = Ok t /\
  (forall e, t_get t e = coordinate_value r n e) /\ incl (t_dims t) (dims r) /\ NoDup (map fst (t_dims t)) /\
  (coords_local r -> forall k, In k (map fst (t_dims t)) <-> In k (coordinate_dims r n)).
Proof.
  intros W H. unfold reference_coord, coord_of, coordinate_value, coordinate_dims. destruct (dget (dims r) n) as [ls|] eqn:E.
  - eexists. split; [reflexivity|]. cbn [t_get t_dims]. split; [reflexivity|]. split; [intros x [<-|[]]; now apply dget_In|]. split; [constructor; [intros []|constructor]|]. reflexivity.
  - destruct (dget (aux r) n) as [c|] eqn:Ec.
    2: { exfalso. destruct H as [I|[c H]]; [|congruence]. apply keys_dget in I. destruct I as [m I]. congruence. }
    eexists. split; [reflexivity|]. cbn [t_get t_dims]. split; [reflexivity|]. split; [intros x Hx; now apply filter_In in Hx|]. split; [apply (keep_NoDup (fun d => memb d (c_dims c)) (dims r)), W|].
    intros Lc k. change (filter _ (dims r)) with (keep (fun d => memb d (c_dims c)) (dims r)). split.
    + intros I. apply in_map_iff in I. destruct I as ([k' m] & <- & I). apply keep_In in I. now apply memb_In.
    + intros I. destruct (Lc n c Ec) as [Ic _]. specialize (Ic k I). apply in_map_iff in Ic. destruct Ic as ([k' m] & <- & Ic). apply in_map_iff. exists (k', m). split; [reflexivity|]. apply keep_In. split; [exact Ic|]. now apply memb_In.
Qed.
Lemma coordinate_local r n : coords_local r -> forall e e' : env, (forall k, In k (coordinate_dims r n) -> e k = e' k) -> coordinate_value r n e = coordinate_value r n e'.
Proof.
  intros L e e' H. unfold coordinate_value, coordinate_dims in *. destruct (dget (dims r) n); [apply H; now left|]. destruct (dget (aux r) n) as [c|] eqn:E; [|reflexivity]. now apply (L n c E).
Qed.
Lemma size_nonzero r : da_size r <> 0%nat -> forall k m, In (k, m) (dims r) -> m <> [].
Proof.
  unfold da_size. induction (dims r) as [|[k m] ds IH]; intros H k' m' I; [destruct I|]. cbn [map snd fold_right] in H. destruct I as [[= <- <-]|I].
  - intros ->. apply H. reflexivity.
  - apply (IH) with (k := k'); [|exact I]. intros E. apply H. rewrite E. lia.
Qed.
Lemma extend_point r (e : env) (D : dimlist) : NoDup (dnames r) -> da_size r <> 0%nat -> incl D (dims r) -> point_of D e ->
  exists e', point_of (dims r) e' /\ forall k, In k (map fst D) -> e' k = e k.
Proof.
  intros N Sz I P. exists (fun k => if memb k (map fst D) then e k else match dget (dims r) k with Some (l :: _) => l | _ => LZ 0 end). split.
  - intros k m H. cbv beta. destruct (memb k (map fst D)) eqn:M.
    + apply memb_In in M. apply in_map_iff in M. destruct M as ([k' m'] & <- & M). cbn [fst] in *. assert (m' = m) as ->.
      { assert (dget (dims r) k' = Some m) as Q1 by (now apply In_dget). assert (dget (dims r) k' = Some m') as Q2 by (apply In_dget; [exact N|now apply I]). congruence. }
      now apply (P k' m).
    + rewrite (In_dget _ _ _ N H). pose proof (size_nonzero r Sz k m H). destruct m as [|l m]; [congruence|now left].
  - intros k Hk. cbv beta. now rewrite (proj2 (memb_In k (map fst D)) Hk).
Qed.

(** Linear interpolation to a reference: with [dims] not given, along every dimension of the array
    for which the reference has a coordinate.  The result has the dimensions of the array that are
    not interpolated and dimensions of the reference; values stay within every interval containing
    those of the array; where the coordinates of the reference are grid points, the value is that of
    the array there. *)
Theorem C47_to_reference : forall c name a r lo hi,
  rc_method c = Linear -> rc_wrap_longitude c = false -> rc_clip c = None -> wf a -> wf r -> coords_local r -> da_size r <> 0%nat ->
  forall ds, NoDup ds ->
  (rc_dims c = Some ds \/ (rc_dims c = None /\ forall d, In d ds <-> In d (dnames a) /\ has_coordinate r d)) ->
  (forall d, In d ds -> has_coordinate r d /\ exists ls, dget (dims a) d = Some ls /\ numeric ls /\ distinct ls /\ (2 <= length ls)%nat /\
     forall e, point_of (dims r) e -> numeric [coordinate_value r d e] /\ in_range ls (number (coordinate_value r d e))) ->
  (forall d d', In d ds -> In d' ds -> d' <> d -> ~ In d' (coordinate_dims r d)) ->
  (forall k m m', In (k, m) (dims a) -> ~ In k ds -> In (k, m') (dims r) -> m = m') ->
  (forall e, point_of (dims a) e -> exists y, get a e = Fin y /\ lo <= y <= hi) ->
  exists out, InterpolateToReferenceCoords c name a (Some r) = Ok out /\
  (forall k m, In (k, m) (dims out) -> (In (k, m) (dims a) /\ ~ In k ds) \/ In (k, m) (dims r)) /\
  (forall k m, In (k, m) (dims a) -> ~ In k ds -> In (k, m) (dims out)) /\
  forall e, point_of (dims out) e ->
    (exists y, get out e = Fin y /\ lo <= y <= hi) /\
    forall g : string -> label, (forall d, In d ds -> In (g d) (labels_of (dims a) d) /\ number (g d) = number (coordinate_value r d e)) ->
      get out e = get a (fun k => if memb k ds then g k else e k).
Proof.
  intros c name a r lo hi Em Ew Ec W Wr Lr Sz ds Nds Hds Hd Hi Hs V.
  unfold InterpolateToReferenceCoords. rewrite Ew, Ec. cbn [bind]. apply Nat.eqb_neq in Sz as Sz'. rewrite Sz'.
  set (rds := reference_dims c a r).
  assert (NoDup rds) as Nr. { unfold rds, reference_dims. destruct Hds as [->|[-> _]]; [exact Nds|]. apply NoDup_filter, W. }
  assert (forall d, In d rds <-> In d ds) as Eds.
  { intros d. unfold rds, reference_dims. destruct Hds as [->|[-> Q]]; [reflexivity|]. rewrite filter_In, has_coord_iff. symmetry. apply Q. }
  assert (exists args, dim_args rds r = Ok args /\ map fst args = rds /\ forall d t, In (d, t) args -> In d rds /\ reference_coord r d = Ok t) as (args & Ea & Na & Ha).
  { unfold dim_args. assert (forall d, In d rds -> has_coordinate r d) as Hc. { intros d H. apply Eds in H. now apply Hd. } clear -Hc Wr.
    induction rds as [|d rds IH]; [exists []; split; [reflexivity|split; [reflexivity|intros d t []]]|].
    destruct IH as (args & E1 & E2 & E3); [intros d' H'; apply Hc; now right|]. destruct (reference_coord_Ok r d Wr (Hc d (or_introl eq_refl))) as (t & Et & _).
    exists ((d, t) :: args). cbn [mapM]. rewrite Et. cbn [bind]. rewrite E1. cbn [bind]. split; [reflexivity|]. split; [cbn; now rewrite E2|].
    intros d' t' [[= <- <-]|I]; [split; [now left|exact Et]|]. destruct (E3 d' t' I). split; [now right|assumption]. }
  rewrite Ea. cbn [bind]. rewrite Em.
  assert (forall d t, In (d, t) args -> In d ds /\ (forall e, t_get t e = coordinate_value r d e) /\ incl (t_dims t) (dims r) /\ NoDup (map fst (t_dims t)) /\ forall k, In k (map fst (t_dims t)) <-> In k (coordinate_dims r d)) as T.
  { intros d t H. destruct (Ha d t H) as [H1 H2]. apply Eds in H1. destruct (reference_coord_Ok r d Wr) as (t' & E' & A1 & A2 & A3 & A4); [now apply Hd|]. assert (t' = t) as -> by congruence. exact (conj H1 (conj A1 (conj A2 (conj A3 (A4 Lr))))). }
  assert (target_grid args a (dims r)) as TG.
  { split; [now rewrite Na|]. split; [apply Wr|]. split.
    - intros d t H. destruct (T d t H) as (I & A1 & A2 & A3 & A4). split; [exact A2|]. split; [exact A3|]. split.
      + intros d' H' N' Q. apply A4 in Q. rewrite Na in H'. apply Eds in H'. exact (Hi d d' I H' N' Q).
      + intros e e' He. rewrite !A1. apply coordinate_local; [exact Lr|]. intros k Hk. apply He. now apply A4.
    - intros k m m' H Nk. apply Hs; [exact H|]. rewrite Na in Nk. intros I. apply Nk. now apply Eds. }
  assert (targets_inside args a) as TI.
  { intros d t H. destruct (T d t H) as (I & A1 & A2 & A3 & A4). destruct (Hd d I) as (_ & ls & B1 & B2 & B3 & B4 & B5). exists ls. repeat split; auto.
    all: destruct (extend_point r e (t_dims t) (proj1 Wr) Sz A2 H0) as (e' & P' & Q'); assert (t_get t e = coordinate_value r d e') as -> by (rewrite A1; apply coordinate_local; [exact Lr|]; intros k Hk; symmetry; apply Q'; now apply A4); now apply B5. }
  destruct (several_dims (rc_extrapolate c) (dims r) args a) as (out & Eo & D1 & D2 & K); auto; [apply W|intros d t ls _ H'; now apply (wf_NoDup_labels a d)|].
  assert (forall k, In k (map fst args) <-> In k ds) as Ek by (intros k; rewrite Na; apply Eds).
  exists out. split; [exact Eo|]. split; [intros k m H; rewrite <- Ek; now apply D1|]. split; [intros k m H Nk; rewrite <- Ek in Nk; now apply D2|].
  destruct (K (fun y => lo <= y <= hi)) as [K1 K2]; [intros x y w Hx Hy Hw; nra|exact V|].
  intros e P. split; [now apply K1|]. intros g Hg. rewrite (K2 e g P).
  - f_equal. apply FunctionalExtensionality.functional_extensionality. intros k. unfold at_labels. assert (memb k (map fst args) = memb k ds) as ->; [|reflexivity]. apply eq_true_iff_eq. now rewrite !memb_In.
  - intros d t H. destruct (T d t H) as (I & A1 & _). rewrite A1. now apply Hg.
Qed.
Print Assumptions C47_to_reference.

(** A reference without elements gives a result without elements, with the dimensions of the
    reference and those of the array that are not interpolated. *)
Theorem C47_empty_reference : forall c name a r,
  rc_wrap_longitude c = false -> rc_clip c = None -> da_size r = 0%nat ->
  let ds := match rc_dims c with None => filter (has_coord r) (dnames a) | Some ds => ds end in
  (forall k, In k (dnames a) -> ~ In k ds -> ~ In k (dnames r)) ->
  exists out, InterpolateToReferenceCoords c name a (Some r) = Ok out /\ da_size out = 0%nat /\
  forall k m, In (k, m) (dims out) <-> (In (k, m) (dims a) /\ ~ In k ds) \/ In (k, m) (dims r).
Proof.
  intros c name a r Ew Ec Sz ds H. unfold InterpolateToReferenceCoords. rewrite Ew, Ec. cbn [bind]. rewrite Sz. cbn [Nat.eqb]. change (reference_dims c a r) with ds.
  unfold expand_reference. destruct (existsb _ _) eqn:E.
  - exfalso. apply existsb_exists in E. destruct E as ([k m] & I & M). apply keep_In in I. destruct I as [I N]. cbn [fst] in M. apply memb_In in M. apply negb_true_iff, memb_false in N.
    apply (H k); auto. apply in_map_iff. now exists (k, m).
  - eexists. split; [reflexivity|]. split.
    + unfold da_size in *. cbn [dims]. rewrite map_app, fold_right_app. rewrite Sz. clear. induction (map _ (keep _ _)) as [|n l IH]; [reflexivity|]. cbn [fold_right]. rewrite IH. lia.
    + intros k m. cbn [dims]. rewrite in_app_iff, keep_In, negb_true_iff, memb_false. reflexivity.
Qed.
Print Assumptions C47_empty_reference.

(** ** Clipping the reference *)
Lemma take_while_filter f ls : (forall x y zs us, ls = us ++ x :: zs -> In y zs -> f y = true -> f x = true) -> take_while f ls = filter f ls.
Proof.
  induction ls as [|x ls IH]; intros H; [reflexivity|]. cbn [take_while filter]. destruct (f x) eqn:E.
  - f_equal. apply IH. intros y z zs us Eq. apply (H y z zs (x :: us)). cbn. now rewrite Eq.
  - assert (filter f ls = []) as ->; [|reflexivity]. destruct (filter f ls) as [|y l] eqn:F; [reflexivity|]. exfalso. assert (In y (filter f ls)) as I by (rewrite F; now left). apply filter_In in I. destruct I as [I1 I2]. rewrite (H x y ls [] eq_refl I1 I2) in E. discriminate.
Qed.
(** Clipping an ascending reference keeps exactly its labels within the range of the array. *)
Theorem C47_clip_ascending : forall ls lo hi, StronglySorted (fun x y => number x <= number y) ls ->
  exists kept, slice_labels lo hi ls = Ok kept /\ StronglySorted (fun x y => number x <= number y) kept /\
  forall l, In l kept <-> In l ls /\ Q2R lo <= number l <= Q2R hi.
Proof.
  intros ls lo hi S. unfold slice_labels. rewrite (sorted_ascendingb ls S). eexists. split; [reflexivity|]. split; [now apply StronglySorted_filter|].
  intros l. rewrite filter_In, andb_true_iff, !Qle_bool_R. reflexivity.
Qed.
Print Assumptions C47_clip_ascending.
Lemma descending_not_ascending ls : StronglySorted (fun x y => number y < number x) ls -> (2 <= length ls)%nat -> ascendingb ls = false.
Proof.
  intros S L. destruct ls as [|x [|y ls]]; [cbn in L; lia|cbn in L; lia|]. cbn [ascendingb]. apply StronglySorted_inv in S. destruct S as [_ F]. rewrite Forall_forall in F. specialize (F y (or_introl eq_refl)).
  apply (proj2 (Qle_bool_number_false x y)) in F. now rewrite F.
Qed.
Lemma rev_ascending ls : StronglySorted (fun x y => number y < number x) ls -> StronglySorted (fun x y => number x <= number y) (rev ls).
Proof.
  induction 1 as [|x xs S IH F]; [constructor|]. cbn [rev]. rewrite Forall_forall in F.
  assert (forall y, In y (rev xs) -> number y <= number x) as Q. { intros y Hy. apply in_rev in Hy. left. now apply F. }
  clear -IH Q. induction IH as [|y ys S IH' F]; [constructor; constructor|]. cbn [app]. constructor; [apply IH'; intros z Hz; apply Q; now right|].
  apply Forall_app. split; [exact F|]. constructor; [apply Q; now left|constructor].
Qed.
Lemma slice_descending ls lo hi : StronglySorted (fun x y => number y < number x) ls -> (2 <= length ls)%nat -> Q2R lo < Q2R hi -> slice_labels lo hi ls = Ok [].
Proof.
  intros S L H. unfold slice_labels. rewrite (descending_not_ascending ls S L), (sorted_ascendingb _ (rev_ascending ls S)). f_equal.
  assert (length (take_while (fun l => Qle_bool hi (lnum l)) ls) <= length (take_while (fun l => negb (Qle_bool (lnum l) lo)) ls))%nat as Le.
  { clear -H. induction ls as [|x ls IH]; [reflexivity|]. cbn [take_while]. destruct (Qle_bool hi (lnum x)) eqn:E1; [|cbn; lia].
    assert (Qle_bool (lnum x) lo = false) as ->. { destruct (Qle_bool (lnum x) lo) eqn:E2; [|reflexivity]. apply Qle_bool_R in E1, E2. lra. } cbn [negb length]. lia. }
  replace (length _ - length _)%nat with 0%nat by lia. reflexivity.
Qed.
(** A reference with descending labels (say, latitudes from 90 to -90) loses all its points when it is
    clipped, although all of them may be within the range of the array: the result is empty. *)
Theorem C47_clip_descending_refuted : forall c name a r d ls rs,
  rc_wrap_longitude c = false -> rc_clip c = Some [d] ->
  dget (dims a) d = Some ls -> (exists x y, In x ls /\ In y ls /\ number x < number y) ->
  NoDup (dnames r) -> dget (dims r) d = Some rs -> (2 <= length rs)%nat -> StronglySorted (fun x y => number y < number x) rs ->
  forall out, InterpolateToReferenceCoords c name a (Some r) = Ok out -> da_size out = 0%nat.
Proof.
  intros c name a r d ls rs Ew Ec Da (x & y & Ix & Iy & Lxy) Nr Dr Lr Sr out H. unfold InterpolateToReferenceCoords in H. rewrite Ew, Ec in H. cbn [bind clip_reference] in H. rewrite Da in H.
  unfold extent in H. destruct (sort_labels ls) as [|l rest] eqn:Es; [discriminate|]. cbn [bind fst snd] in H. unfold sel_slice in H. rewrite Dr in H.
  assert (Q2R (lnum l) < Q2R (lnum (last rest l))) as Lt.
  { pose proof (sort_labels_sorted ls) as S. rewrite Es in S. assert (forall z, In z (l :: rest) -> number l <= number z <= number (last rest l)) as B.
    { clear -S. intros z Hz. apply StronglySorted_inv in S. destruct S as [S F]. rewrite Forall_forall in F. split; [destruct Hz as [<-|Hz]; [lra|now apply F]|].
      destruct rest as [|u us]; [destruct Hz as [<-|[]]; cbn; lra|]. destruct Hz as [<-|Hz]; [apply F; apply last_In; discriminate|]. clear F. revert z Hz. induction S as [|v vs S IH G]; intros z Hz; [destruct Hz|]. rewrite Forall_forall in G.
      destruct vs as [|w ws]; [destruct Hz as [<-|[]]; cbn; lra|]. change (last (v :: w :: ws) l) with (last (w :: ws) l). destruct Hz as [<-|Hz]; [apply G, last_In; discriminate|now apply IH]. }
    assert (In x (l :: rest)) as Qx by (rewrite <- Es; now apply sort_labels_In). assert (In y (l :: rest)) as Qy by (rewrite <- Es; now apply sort_labels_In).
    pose proof (B x Qx). pose proof (B y Qy). unfold number in *. lra. }
  rewrite (slice_descending rs _ _ Sr Lr Lt) in H. cbn [bind] in H.
  assert (da_size (restrict [(d, [])] r) = 0%nat) as Z.
  { unfold da_size, restrict. cbn [dims]. assert (forall (l' : dimlist) k, In (k, []) l' -> fold_right Nat.mul 1%nat (map (fun p => length (snd p)) l') = 0%nat) as Q.
    { induction l' as [|[k m] l' IH]; intros k' I; [destruct I|]. cbn [map snd fold_right]. destruct I as [[= -> ->]|I]; [reflexivity|]. rewrite (IH _ I). lia. }
    apply (Q _ d). apply in_map_iff. exists (d, rs). split; [|now apply dget_In]. cbn [fst dget]. now destruct (eq_dec d d). }
  revert H Z. generalize (restrict [(d, [])] r). intros r' H Z.
  rewrite Z in H. cbn [Nat.eqb] in H. unfold expand_reference in H. destruct (existsb _ _); [discriminate|]. injection H as <-.
  unfold da_size in *. cbn [dims]. rewrite map_app, fold_right_app. rewrite Z. clear. induction (map _ (keep _ _)) as [|n l0 IH]; [reflexivity|]. cbn [fold_right]. rewrite IH. lia.
Qed.
Print Assumptions C47_clip_descending_refuted.
