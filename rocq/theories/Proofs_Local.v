(** Shipped weightings and binnings look at each time separately (Spec_Beam.time_local). *)
From Coq Require Import String ZArith QArith Qround Qcanon Bool List Lia.
Import ListNotations.
From Verif Require Import Prelude Values Model_XArray Spec_XArray Proofs_XArray Model_Deterministic Model_Aggregation Model_TimeChunks Model_Beam Spec_Beam
  Model_Calendar Model_Binning Spec_Binning Proofs_Binning Proofs_Binning2 Proofs_Binning3 Proofs_Binning4 Model_Weighting.
From Coq Require Import Reals.
Local Open Scope string_scope.
Local Open Scope list_scope.

Lemma in_chunkb_iff I L d l : in_chunkb I L d l = true <-> in_chunk I L d l.
Proof.
  unfold in_chunkb, in_chunk. destruct (String.eqb_spec d "init_time") as [->|N1].
  - rewrite memb_In. split; [intros H; split; [auto|discriminate]|intros [H _]; auto].
  - destruct (String.eqb_spec d "lead_time") as [->|N2]; [rewrite memb_In; split; [intros H; split; [congruence|auto]|intros [_ H]; auto]|].
    split; auto. intros _. split; congruence.
Qed.
Lemma chunk_no_time I L d ls : ~ time_dim d -> filter (in_chunkb I L d) ls = ls.
Proof.
  intros H. apply filter_true. intros l _. apply in_chunkb_iff. unfold time_dim in H. split; intros ->; exfalso; apply H; auto.
Qed.
Lemma chunk_names I L ds : map fst (chunk_dims I L ds) = map fst ds.
Proof. unfold chunk_dims. rewrite map_map. reflexivity. Qed.
Lemma chunk_dget I L (ds : dimlist) d : dget (chunk_dims I L ds) d = match dget ds d with Some ls => Some (filter (in_chunkb I L d) ls) | None => None end.
Proof.
  induction ds as [|[k ls] ds IH]; auto. cbn [chunk_dims map fst snd]. cbn [dget]. destruct (eq_dec d k) as [->|]; auto.
Qed.
Lemma chunk_filter I L (ds : dimlist) (P : string -> bool) : chunk_dims I L (filter (fun p => P (fst p)) ds) = filter (fun p => P (fst p)) (chunk_dims I L ds).
Proof. induction ds as [|[k ls] ds IH]; auto. cbn [filter chunk_dims map fst snd]. destruct (P k); cbn [map fst snd]; fold (chunk_dims I L ds) (chunk_dims I L (filter (fun p => P (fst p)) ds)); rewrite IH; reflexivity. Qed.
Lemma chunk_In I L ds k ls : In (k, ls) (chunk_dims I L ds) <-> exists ls0, In (k, ls0) ds /\ ls = filter (in_chunkb I L k) ls0.
Proof.
  unfold chunk_dims. rewrite in_map_iff. split.
  - intros ([k' ls'] & [= <- <-] & I'). eauto.
  - intros (ls0 & I' & ->). exists (k, ls0). auto.
Qed.
Lemma chunk_nothing I L ds : (forall d, In d (map fst ds) -> ~ time_dim d) -> chunk_dims I L ds = ds.
Proof.
  induction ds as [|[k ls] ds IH]; intros H; auto. cbn [chunk_dims map fst snd]. rewrite chunk_no_time by (apply H; left; auto). f_equal. apply IH. intros d Hd. apply H. right. auto.
Qed.

(** The coordinate array of a chunk. *)
Lemma coord_array_chunk I L a c name ds f : time_slice I L a c -> coord_array a name = Some (ds, f) -> coord_array c name = Some (chunk_dims I L ds, f).
Proof.
  intros (Dc & Ac & _) H. unfold coord_array, coord_of in *. rewrite Dc, Ac, chunk_dget. destruct (dget (dims a) name) as [ls|].
  - injection H as <- <-. reflexivity.
  - destruct (dget (aux a) name) as [co|]; [|discriminate]. injection H as <- <-. f_equal.
    rewrite (chunk_filter I L (dims a) (fun k => memb k (c_dims co))). f_equal.
    unfold project. rewrite <- (chunk_filter I L (dims a) (fun k => memb k (c_dims co))), chunk_names. reflexivity.
Qed.
Lemma get_coord_chunk k I L a c name ds f : time_slice I L a c -> get_coord k a name = Ok (ds, f) -> get_coord k c name = Ok (chunk_dims I L ds, f).
Proof.
  intros S H. unfold get_coord in *. destruct (coord_array a name) as [[ds0 f0]|] eqn:E; [|discriminate]. injection H as <- <-.
  rewrite (coord_array_chunk _ _ _ _ _ _ _ S E). reflexivity.
Qed.

(** ** Masks with fixed labels over part of the dimensions *)
Record stacked (d : string) (labels : list label) (f : da -> result da) (a : da) (x : da) (ds : dimlist) (parts : list (label * (env -> val))) : Prop := {
  sk_incl : incl ds (dims a);
  sk_nodup : NoDup (map fst ds);
  sk_labels : map fst parts = labels;
  sk_only : Forall (fun p => forall e e', (forall k, In k (map fst ds) -> e k = e' k) -> snd p e = snd p e') parts;
  sk_x : stack_parts d ds parts = Ok x;
  sk_chunk : forall I L c, wf c -> time_slice I L a c -> f c = stack_parts d (chunk_dims I L ds) parts }.

Lemma stack_wf d ds labels parts x : NoDup labels -> NoDup (map fst ds) -> (forall k ls, In (k, ls) ds -> NoDup ls) -> map fst parts = labels ->
  Forall (fun p => forall e e' : env, (forall k, In k (map fst ds) -> e k = e' k) -> snd p e = snd p e') parts ->
  stack_parts d ds parts = Ok x -> wf x /\ dims x = (d, labels) :: ds /\ ~ In d (map fst ds).
Proof.
  intros NL ND NB El O H. unfold stack_parts in H. destruct (memb d (map fst ds)) eqn:E; [discriminate|]. injection H as <-. apply memb_false in E.
  split; [|split; [cbn [dims]; rewrite El; reflexivity|auto]]. split; [|split].
  - unfold dnames. cbn [dims map fst]. constructor; auto.
  - intros k ls [[= <- <-]|I]; [rewrite El; auto|apply (NB _ _ I)].
  - intros e e' He. cbn [get dnames dims map fst] in *. rewrite (He d) by (left; auto). destruct (dget parts (e' d)) as [g|] eqn:G; auto.
    apply dget_In in G. rewrite Forall_forall in O. apply (O _ G). intros k Hk. apply He. right. auto.
Qed.

Lemma stacked_local d labels f : ~ time_dim d -> NoDup labels ->
  (forall a x, wf a -> f a = Ok x -> exists ds parts, stacked d labels f a x ds parts) -> time_local [] f.
Proof.
  intros Hd NL H a x Wa Ha. destruct (H a x Wa Ha) as (ds & parts & K). destruct K.
  assert (forall k ls, In (k, ls) ds -> NoDup ls) as NB. { intros k ls I. destruct Wa as (_ & B & _). apply (B k). apply sk_incl0, I. }
  destruct (stack_wf d ds labels parts x NL sk_nodup0 NB sk_labels0 sk_only0 sk_x0) as (Wx & Dx & Nd).
  split; auto. split.
  { intros k l Hk Ik Il. unfold dnames in Ik. rewrite Dx in Ik. cbn [map fst] in Ik. destruct Ik as [<-|Ik]; [contradiction|].
    apply in_map_iff in Ik. destruct Ik as ([k' ls] & <- & Ik). cbn [fst] in *. unfold labels_of in *.
    assert (dget (dims a) k' = Some ls) as Ga by (destruct Wa as (N & _); apply In_dget; auto; apply sk_incl0; auto).
    rewrite Ga in Il. rewrite (@In_dget string (list label) _ (dims x) k' ls); auto; [apply Wx|rewrite Dx; right; auto]. }
  intros I L c Wc S. rewrite (sk_chunk0 I L c Wc S).
  assert (~ In d (map fst (chunk_dims I L ds))) as Nd' by (rewrite chunk_names; auto).
  destruct (proj2 (stack_parts_iff d (chunk_dims I L ds) parts) Nd') as [y Hy]. exists y. split; auto.
  assert (forall k ls, In (k, ls) (chunk_dims I L ds) -> NoDup ls) as NB'. { intros k ls Ik. apply chunk_In in Ik. destruct Ik as (ls0 & I0 & ->). apply NoDup_filter, (NB _ _ I0). }
  assert (NoDup (map fst (chunk_dims I L ds))) as ND' by (rewrite chunk_names; auto).
  destruct (stack_wf d (chunk_dims I L ds) labels parts y NL ND' NB' sk_labels0) as (Wy & Dy & _); auto; [rewrite chunk_names; auto|].
  assert (forall k, labels_of (dims y) k = if eq_dec k d then labels else filter (in_chunkb I L k) (labels_of ds k)) as Ly.
  { intros k. unfold labels_of. rewrite Dy. cbn [dget]. destruct (eq_dec k d); auto. rewrite chunk_dget. destruct (dget ds k); reflexivity. }
  assert (forall k, labels_of (dims x) k = if eq_dec k d then labels else labels_of ds k) as Lx.
  { intros k. unfold labels_of. rewrite Dx. cbn [dget]. destruct (eq_dec k d); auto. }
  split; auto.
  - intros k. unfold dnames. rewrite Dx, Dy. cbn [map fst]. rewrite chunk_names. reflexivity.
  - intros k l. rewrite Ly, Lx. destruct (eq_dec k d) as [->|].
    + intros Il. split; auto. unfold in_chunk, time_dim in *. split; intros ->; exfalso; apply Hd; auto.
    + rewrite filter_In, in_chunkb_iff. tauto.
  - intros k l _. rewrite Ly, Lx. destruct (eq_dec k d) as [->|]; auto. rewrite filter_In, in_chunkb_iff. tauto.
  - intros e _. unfold stack_parts in sk_x0, Hy. destruct (memb d (map fst ds)); [discriminate|]. destruct (memb d (map fst (chunk_dims I L ds))); [discriminate|].
    injection sk_x0 as <-. injection Hy as <-. reflexivity.
Qed.
(** Masks not depending on the chunk at all. *)
Lemma const_local f : (forall a x, wf a -> f a = Ok x -> wf x /\ (forall d, In d (dnames x) -> ~ time_dim d) /\
    forall I L c, wf c -> time_slice I L a c -> f c = Ok x) -> time_local [] f.
Proof.
  intros H a x Wa Ha. destruct (H a x Wa Ha) as (Wx & NT & C). split; auto. split; [intros d l T I; exfalso; apply (NT d I T)|].
  intros I L c Wc S. exists x. split; [apply (C I L c Wc S)|]. split; auto.
  - intros d. reflexivity.
  - intros d l Il. split; auto. assert (In d (dnames x)) as Id. { unfold labels_of in Il. destruct (dget (dims x) d) as [ls|] eqn:E; [|destruct Il]. apply dget_In in E. apply (in_map fst _ _ E). }
    specialize (NT d Id). unfold time_dim, in_chunk in *. split; intros ->; exfalso; apply NT; auto.
Qed.

(** ** The shipped components *)
Lemma bits_fst parts : map fst (bits parts) = map fst parts.
Proof. unfold bits. rewrite map_map. reflexivity. Qed.
Lemma bits_only ds parts : Forall (fun p => only ds (snd p)) parts ->
  Forall (fun p => forall e e' : env, (forall k, In k (map fst ds) -> e k = e' k) -> snd p e = snd p e') (bits parts).
Proof. intros F. unfold bits. apply Forall_map. eapply Forall_impl; [|exact F]. intros [l g] O e e' He. cbn [fst snd]. cbn [snd] in O. rewrite (O e e' He). reflexivity. Qed.

(** One coordinate, fixed boolean parts. *)
Lemma one_coord_local k d name labels (P : (env -> label) -> list (label * (env -> bool))) f :
  ~ time_dim d -> NoDup labels -> (forall g, map fst (P g) = labels) ->
  (forall ds g, only ds g -> Forall (fun p => only ds (snd p)) (P g)) ->
  (forall st, f st = (do c <- get_coord k st name; stack_parts d (fst c) (bits (P (snd c))))) -> time_local [] f.
Proof.
  intros Hd NL El O F. apply (stacked_local d labels); auto. intros a x Wa Ha. rewrite F in Ha.
  destruct (get_coord k a name) as [[ds g]|] eqn:Ec; [|discriminate]. cbn [bind fst snd] in Ha. pose proof Ec as Ec'. apply get_coord_Ok in Ec'.
  pose proof (coord_array_ok _ _ _ _ Wa Ec') as C. exists ds, (bits (P g)). split; auto.
  - apply C.
  - apply C.
  - rewrite bits_fst. apply El.
  - apply bits_only, O, C.
  - intros I L c Wc S. rewrite F, (get_coord_chunk _ _ _ _ _ _ _ _ S Ec). reflexivity.
Qed.
(** The same, over all dimensions of the statistic. *)
Lemma broadcast_local k d name labels (P : (env -> label) -> list (label * (env -> bool))) f :
  ~ time_dim d -> NoDup labels -> (forall g, map fst (P g) = labels) ->
  (forall ds g, only ds g -> Forall (fun p => only ds (snd p)) (P g)) ->
  (forall st, f st = (do c <- get_coord k st name; stack_parts d (dims st) (bits (P (snd c))))) -> time_local [] f.
Proof.
  intros Hd NL El O F. apply (stacked_local d labels); auto. intros a x Wa Ha. rewrite F in Ha.
  destruct (get_coord k a name) as [[ds g]|] eqn:Ec; [|discriminate]. cbn [bind fst snd] in Ha. pose proof Ec as Ec'. apply get_coord_Ok in Ec'.
  pose proof (coord_array_ok _ _ _ _ Wa Ec') as C. exists (dims a), (bits (P g)). split; auto.
  - apply incl_refl.
  - apply Wa.
  - rewrite bits_fst. apply El.
  - apply bits_only, O. intros e e' He. apply (co_only _ _ _ _ C). intros q Hq. apply He. apply in_map_iff in Hq. destruct Hq as (p & <- & Ip). apply in_map, (co_sub _ _ _ _ C), Ip.
  - intros I L c Wc S. rewrite F, (get_coord_chunk _ _ _ _ _ _ _ _ S Ec). cbn [bind snd]. destruct S as (-> & _). reflexivity.
Qed.
