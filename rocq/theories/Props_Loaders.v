(** C41: targets and persistence; C42: climatologies. *)
From Coq Require Import String ZArith List Bool Lia.
Import ListNotations.
From Verif Require Import Prelude Values Model_XArray Spec_XArray Proofs_XArray Model_MetricsBase Model_Calendar Model_TimeChunks Model_Deterministic
  Model_Ensemble Proofs_Ensemble2 Model_Binning Model_Loaders Spec_Loaders Proofs_Loaders Proofs_Loaders2 Spec_Calendar Proofs_Calendar Proofs_Calendar2 Proofs_Beam9 Proofs_AggState Spec_Binning Props_TimeBins Proofs_Seeps2.
Local Open Scope Z_scope.
Local Open Scope string_scope.
Local Open Scope list_scope.

Definition init_lead_labels (inits leads : list Z) : dimlist := [("init_time", map LZ inits); ("lead_time", map LZ leads)].

(** ** C41 *)
(** TargetsFromXarray: the value at (init time t, lead time l) is the one of the data set at
    valid time t + l, all other coordinates equal; variables without a valid time are unchanged. *)
Theorem C41_targets_at_valid_time : forall ds inits leads out, dataset ds -> NoDup inits -> NoDup leads ->
  TargetsFromXarray ds inits (Some (ChunkArr leads)) = Ok out ->
  chunk_of ds (fun a => In "valid_time" (dnames a))
    (answers ["valid_time"] (init_lead_labels inits leads)
       (fun e e' => exists t l, at_time e t l /\ e' "valid_time" = LZ (t + l) /\ same_except ["valid_time"] e e')) out.
Proof.
  intros ds inits leads out D Ni Nl H. destruct (init_lead_ok inits leads Ni Nl) as [A B]. cbn [TargetsFromXarray] in H.
  refine (sel_one_chunk _ _ _ _ _ _ D A B _ _ H).
  - intros e e' He. f_equal. apply (valid_local inits leads). exact He.
  - intros e e' _ (t & l & At & E1 & E2). split; auto. rewrite E1, (at_valid _ _ _ At). reflexivity.
Qed.
(** It fails (with KeyError) exactly if a valid time is missing. *)
Theorem C41_targets_all_or_nothing : forall ds inits leads, NoDup inits -> NoDup leads ->
  ((exists out, TargetsFromXarray ds inits (Some (ChunkArr leads)) = Ok out) <->
   dataset_dim ds "valid_time" /\
   forall v a t l, In (v, a) ds -> In "valid_time" (dnames a) -> In t inits -> In l leads -> In (LZ (t + l)) (labels_of (dims a) "valid_time")) /\
  (forall err, TargetsFromXarray ds inits (Some (ChunkArr leads)) = Err err -> err = KeyError).
Proof.
  intros ds inits leads Ni Nl. split; [|intros err H; apply (sel_arrays_err _ _ _ _ H)]. cbn [TargetsFromXarray]. rewrite sel_one_ok. split; intros [A B]; split; auto.
  - intros v a t l I Id It Il. destruct (envs_exists inits leads t l Ni Nl It Il) as (e & Ie & At). rewrite <- (at_valid _ _ _ At). apply (B v a e I Id Ie).
  - intros v a e I Id Ie. destruct (envs_init_lead _ _ _ Ni Nl Ie) as (t & l & It & Il & At). rewrite (at_valid _ _ _ At). eauto.
Qed.
(** A slice of lead times is rejected; without lead times the init times are valid times. *)
Theorem C41_targets_slice : forall ds inits a b, TargetsFromXarray ds inits (Some (ChunkSlice a b)) = Err ValueError.
Proof. reflexivity. Qed.
Theorem C41_targets_without_lead_times : forall ds inits out, dataset ds -> NoDup inits ->
  TargetsFromXarray ds inits None = Ok out ->
  chunk_of ds (fun a => In "valid_time" (dnames a)) (answers [] [("valid_time", map LZ inits)] (same_except [])) out.
Proof. intros ds inits out D N H. apply sel_labels_chunk; auto. apply times_NoDup, N. Qed.

(** PersistenceFromXarray: at any lead time the value at valid time = init time; variables without
    a valid time are repeated along the lead times. *)
Definition persistence (inits leads : list Z) (a b : da) : Prop :=
  (In "valid_time" (dnames a) ->
   answers ["valid_time"] (init_lead_labels inits leads)
     (fun e e' => e' "valid_time" = e "init_time" /\ same_except ["valid_time"] e e') a b) /\
  (~ In "valid_time" (dnames a) -> answers [] [("lead_time", map LZ leads)] (same_except []) a b).
Lemma expand_dims_spec d ls ds out : expand_dims d ls ds = Ok out ->
  (forall v a, In (v, a) ds -> ~ In d (dnames a)) /\ out = map (fun kv => (fst kv, mkDa ((d, ls) :: dims (snd kv)) (get (snd kv)) (aux (snd kv)))) ds.
Proof.
  unfold expand_dims. destruct (has_dim ds d) eqn:E; [discriminate|]. intros [= <-]. split; auto. intros v a I Id.
  assert (has_dim ds d = true); [|congruence]. apply has_dim_iff. exists v, a. auto.
Qed.
Lemma dget_map_snd_val (f : da -> da) (ds : vars da) v a : dget ds v = Some a -> dget (map (fun kv => (fst kv, f (snd kv))) ds) v = Some (f a).
Proof. induction ds as [|[k x] ds IH]; [discriminate|]. cbn [map fst snd dget]. destruct (eq_dec v k); [intros [= <-]; reflexivity|auto]. Qed.
Lemma ds_rename_fst d d2 : forall kv r : string * da, (if memb d (dnames (snd kv)) then do a <- rename_dim d d2 (snd kv); Ok (fst kv, a) else Ok kv) = Ok r -> fst r = fst kv.
Proof. intros [k a] r. cbn [fst snd]. destruct (memb d (dnames a)); [|intros [= <-]; auto]. destruct (rename_dim d d2 a); [|discriminate]. cbn [bind]. intros [= <-]. auto. Qed.
Lemma rename_get d d2 a r : rename_dim d d2 a = Ok r -> wf a ->
  wf r /\ (forall k, dget (dims r) k = if eq_dec k d2 then dget (dims a) d else if eq_dec k d then None else dget (dims a) k) /\ (forall e, get r e = get a (upd e d (e d2))) .
Proof.
  intros H W. destruct (rename_Ok _ _ _ _ H W) as (I1 & N2 & W' & I2 & Nd & _). split; [exact W'|]. revert H. unfold rename_dim. destruct (negb _ || _ || _); [discriminate|]. intros [= <-].
  split; [|reflexivity]. clear W' I2 Nd. intros k. cbn [dims]. assert (d <> d2) as Hn by (intros ->; contradiction). unfold dnames in I1, N2. revert I1 N2. destruct W as (Na & _). unfold dnames in Na. revert Na.
  induction (dims a) as [|[k0 l0] ds IH]; intros Na I1 N2; [destruct I1|]. cbn [map fst snd dget] in *. inversion Na as [|? ? Nk Na']; subst.
  destruct (eqb k0 d) eqn:E.
  - unfold eqb in E. destruct (eq_dec k0 d) as [->|]; [|discriminate]. destruct (eq_dec k d2) as [->|Nk2]; [destruct (eq_dec d d); [reflexivity|congruence]|].
    assert (forall ds', ~ In d (map fst ds') -> @dget string (list label) _ (map (fun p : string * list label => (if eqb (fst p) d then d2 else fst p, snd p)) ds') k = if eq_dec k d then None else dget ds' k) as Q.
    { intros ds'. induction ds' as [|[k1 l1] ds' IHd]; intros N; [cbn; destruct (eq_dec k d); reflexivity|]. cbn [map fst snd dget]. cbn [map fst] in N. unfold eqb. destruct (eq_dec k1 d) as [->|]; [exfalso; apply N; left; auto|].
      destruct (eq_dec k k1) as [->|]; [destruct (eq_dec k1 d); [congruence|reflexivity]|]. apply IHd. intros I. apply N. right. auto. }
    rewrite (Q ds Nk). destruct (eq_dec k d); reflexivity.
  - unfold eqb in E. destruct (eq_dec k0 d) as [->|Hk0]; [discriminate|]. destruct (eq_dec k k0) as [->|].
    + destruct (eq_dec k0 d2) as [->|]; [exfalso; apply N2; left; auto|]. destruct (eq_dec k0 d); [congruence|reflexivity].
    + rewrite (IH Na'); [|destruct I1 as [I1|I1]; [congruence|exact I1]|intros Ix; apply N2; right; exact Ix]. destruct (eq_dec d k0); [congruence|]. reflexivity.
Qed.
Theorem C41_persistence_at_init_time : forall ds inits leads out, dataset ds -> NoDup inits -> NoDup leads ->
  PersistenceFromXarray ds inits (Some (ChunkArr leads)) = Ok out -> chunk_of ds (fun _ => True) (persistence inits leads) out.
Proof.
  intros ds inits leads out D Ni Nl H. cbn [PersistenceFromXarray] in H. destruct (sel_labels _ _ ds) as [c1|] eqn:E1; [|discriminate]. cbn [bind] in H.
  destruct (expand_dims _ _ c1) as [c2|] eqn:E2; [|discriminate]. cbn [bind] in H. pose proof (dataset_sel _ _ _ _ D (times_NoDup _ Ni) E1) as D1.
  destruct (sel_labels_spec _ _ _ _ E1) as [K1 S1]. destruct (expand_dims_spec _ _ _ _ E2) as [S2 ->]. unfold ds_rename in H. destruct (has_dim _ _ && _); [|discriminate].
  pose proof (mapM_keys _ _ _ (ds_rename_fst _ _) H) as K3. split; [unfold keys; rewrite K3, map_map, <- K1; cbn [fst]; reflexivity|]. intros v a G.
  destruct (S1 v a G) as (b & Gb & Sn & Sy). pose proof (dget_map_snd_val (fun a => mkDa (("lead_time", times leads) :: dims a) (get a) (aux a)) _ _ _ Gb) as Gc. cbn beta in Gc.
  destruct (mapM_dget _ _ _ _ _ (ds_rename_fst _ _) H Gc) as (r & Er & Gr). exists r. split; auto. split; [|intros N; exfalso; apply N; exact I]. intros _. cbn [fst snd] in Er.
  pose proof (dataset_get _ _ _ D G) as W. pose proof (dataset_get _ _ _ D1 Gb) as Wb. pose proof (S2 _ _ (dget_In _ _ Gb)) as Nb.
  set (c := mkDa (("lead_time", times leads) :: dims b) (get b) (aux b)) in *.
  assert (wf c) as Wc. { destruct Wb as (A & B & C). split; [constructor; auto|]. split; [|intros e e' He; apply C; intros d Hd; apply He; right; auto]. intros d ls [[= <- <-]|I]; [apply times_NoDup, Nl|eauto]. }
  split; intros Iv.
  - destruct (Sy Iv) as [_ ->]. assert (memb "valid_time" (dnames c) = true) as M by (apply memb_In; right; change (In "valid_time" (dnames (restrict [("valid_time", times inits)] a))); rewrite restrict_names; exact Iv).
    rewrite M in Er. destruct (rename_dim _ _ c) as [r'|] eqn:Er'; [|discriminate]. cbn [bind] in Er. injection Er as ->. destruct (rename_get _ _ _ _ Er' Wc) as (Wr & Dr & Vr).
    assert (forall k, dget (dims c) k = if eq_dec k "lead_time" then Some (times leads) else if eq_dec k "valid_time" then Some (times inits) else dget (dims a) k) as Dc.
    { intros k. cbn [c dims dget]. destruct (eq_dec k "lead_time"); auto. rewrite dget_restrict. destruct (eq_dec k "valid_time"); auto. apply keys_dget in Iv. destruct Iv as [x ->]. reflexivity. }
    rewrite restrict_names in Nb. split; auto.
    + intros d ls [[= <- <-]|[[= <- <-]|[]]]; rewrite Dr; [destruct (eq_dec "init_time" "init_time"); [|congruence]|destruct (eq_dec "lead_time" "init_time"); [discriminate|]; destruct (eq_dec "lead_time" "valid_time"); [discriminate|]]; rewrite Dc; reflexivity.
    + intros d [<-|[]] _ Id. apply keys_dget in Id. destruct Id as [x Ex]. rewrite Dr in Ex. cbn in Ex. discriminate.
    + intros d Nd Nn. rewrite Dr. cbn [map fst init_lead_labels] in Nn. destruct (eq_dec d "init_time") as [->|]; [exfalso; apply Nn; left; auto|]. destruct (eq_dec d "valid_time") as [->|]; [exfalso; apply Nd; left; auto|].
      rewrite Dc. destruct (eq_dec d "lead_time") as [->|]; [exfalso; apply Nn; right; left; auto|]. destruct (eq_dec d "valid_time"); [congruence|reflexivity].
    + intros e e' P [Ev Es]. rewrite Vr. cbn [c get restrict]. destruct W as (_ & _ & L). apply L. intros d Hd. unfold upd. destruct (string_dec d "valid_time") as [->|Nd].
      * symmetry. exact Ev.
      * symmetry. apply Es. intros [<-|[]]. congruence.
  - pose proof (Sn Iv) as Eb. assert (memb "valid_time" (dnames c) = false) as M. { apply memb_false. intros [Hx|Hx]; [discriminate|]. apply Iv. rewrite <- Eb. exact Hx. }
    rewrite M in Er. injection Er as <-. split; [exact Wc| | | |].
    + intros d ls [[= <- <-]|[]]. reflexivity.
    + intros d [].
    + intros d _ Nd. cbn [c dims dget]. destruct (eq_dec d "lead_time") as [->|]; [exfalso; apply Nd; left; auto|]. rewrite Eb. reflexivity.
    + intros e e' _ Es. destruct W as (_ & _ & L). cbn [c get]. rewrite Eb. apply L. intros d _. symmetry. apply Es. intros [].
Qed.
Theorem C41_persistence_needs_lead_times : forall ds inits a b,
  PersistenceFromXarray ds inits (Some (ChunkSlice a b)) = Err ValueError /\ PersistenceFromXarray ds inits None = Err ValueError.
Proof. split; reflexivity. Qed.

(** PredictionsFromXarray: the requested init and lead times, values unchanged. *)
Theorem C41_predictions_are_the_requested_part : forall ds inits leads out, dataset ds -> NoDup inits -> NoDup leads ->
  PredictionsFromXarray ds inits (Some (ChunkArr leads)) = Ok out ->
  keys out = keys ds /\
  forall v a, dget ds v = Some a -> exists b, dget out v = Some b /\
    answers [] (filter (fun p => if in_dec string_dec (fst p) (dnames a) then true else false) (init_lead_labels inits leads)) (same_except []) a b.
Proof.
  intros ds inits leads out D Ni Nl H. cbn [PredictionsFromXarray] in H. destruct (sel_labels _ _ ds) as [c|] eqn:E; [|discriminate]. cbn [bind] in H.
  destruct (sel_labels_spec _ _ _ _ E) as [K1 S1]. destruct (sel_labels_spec _ _ _ _ H) as [K2 S2]. split; [unfold keys; congruence|]. intros v a G.
  destruct (S1 v a G) as (b1 & G1 & A1 & A2). destruct (S2 v b1 G1) as (b & Gb & B1 & B2). exists b. split; auto. pose proof (dataset_get _ _ _ D G) as W.
  pose proof (times_NoDup _ Ni) as N1. pose proof (times_NoDup _ Nl) as N2. change (map LZ) with times.
  assert (b1 = restrict [("init_time", times inits)] a \/ b1 = a) as _ by (destruct (in_dec string_dec "init_time" (dnames a)); [left; apply A2|right]; auto).
  assert (dnames b1 = dnames a) as Nm by (destruct (in_dec string_dec "init_time" (dnames a)) as [i|n]; [rewrite (proj2 (A2 i)); apply restrict_names|rewrite (A1 n); reflexivity]).
  unfold init_lead_labels. cbn [filter fst]. rewrite Nm in B1, B2.
  destruct (in_dec string_dec "init_time" (dnames a)) as [I1|I1]; destruct (in_dec string_dec "lead_time" (dnames a)) as [I2|I2].
  - destruct (A2 I1) as [_ E1]. destruct (B2 I2) as [_ E2]. subst b1. subst b. split.
    + apply wf_restrict; auto. apply wf_restrict; auto.
    + intros d ls [[= <- <-]|[[= <- <-]|[]]]; rewrite dget_restrict.
      * destruct (eq_dec "init_time" "lead_time"); [discriminate|]. rewrite dget_restrict. destruct (eq_dec "init_time" "init_time"); [|congruence]. apply keys_dget in I1. destruct I1 as [x ->]. reflexivity.
      * destruct (eq_dec "lead_time" "lead_time"); [|congruence]. rewrite dget_restrict. destruct (eq_dec "lead_time" "init_time"); [discriminate|]. apply keys_dget in I2. destruct I2 as [x ->]. reflexivity.
    + intros d [].
    + intros d _ Nd. rewrite !dget_restrict. destruct (eq_dec d "lead_time") as [->|]; [exfalso; apply Nd; right; left; auto|]. destruct (eq_dec d "init_time") as [->|]; [exfalso; apply Nd; left; auto|reflexivity].
    + intros e e' _ Es. destruct W as (_ & _ & L). apply L. intros d _. symmetry. apply Es. intros [].
  - destruct (A2 I1) as [_ E1]. subst b1. rewrite (B1 I2). apply restrict_answers; auto.
  - pose proof (A1 I1). subst b1. rewrite (proj2 (B2 I2)). apply restrict_answers; auto.
  - pose proof (A1 I1). subst b1. rewrite (B1 I2). split; auto.
    + intros d ls [].
    + intros e e' _ Es. destruct W as (_ & _ & L). apply L. intros d _. symmetry. apply Es. intros [].
Qed.
Theorem C41_predictions_all_or_nothing : forall ds inits leads,
  (exists out, PredictionsFromXarray ds inits (Some (ChunkArr leads)) = Ok out) <->
  dataset_dim ds "init_time" /\ dataset_dim ds "lead_time" /\
  (forall v a t, In (v, a) ds -> In "init_time" (dnames a) -> In t inits -> In (LZ t) (labels_of (dims a) "init_time")) /\
  (forall v a l, In (v, a) ds -> In "lead_time" (dnames a) -> In l leads -> In (LZ l) (labels_of (dims a) "lead_time")).
Proof.
  intros ds inits leads. cbn [PredictionsFromXarray].
  assert (forall c, sel_labels "init_time" (times inits) ds = Ok c ->
    (dataset_dim c "lead_time" <-> dataset_dim ds "lead_time") /\
    ((forall v b l, In (v, b) c -> In "lead_time" (dnames b) -> In l (times leads) -> In l (labels_of (dims b) "lead_time")) <->
     (forall v a l, In (v, a) ds -> In "lead_time" (dnames a) -> In l leads -> In (LZ l) (labels_of (dims a) "lead_time")))) as Q.
  { intros c E. unfold sel_labels in E. destruct (has_dim ds "init_time"); [|discriminate].
    assert (Forall2 (fun kv kv' => fst kv' = fst kv /\ dnames (snd kv') = dnames (snd kv) /\ labels_of (dims (snd kv')) "lead_time" = labels_of (dims (snd kv)) "lead_time") ds c) as F.
    { revert c E. generalize ds. clear. induction ds as [|[v a] ds IH]; intros c E; cbn [mapM fst snd] in E; [injection E as <-; constructor|].
      assert (forall r, (match dget (dims a) "init_time" with Some have => if forallb (fun l => memb l have) (times inits) then Ok (v, restrict [("init_time", times inits)] a) else Err KeyError | None => Ok (v, a) end) = Ok r ->
        fst r = v /\ dnames (snd r) = dnames a /\ labels_of (dims (snd r)) "lead_time" = labels_of (dims a) "lead_time") as P.
      { intros r. destruct (dget (dims a) "init_time") as [have|]; [destruct (forallb _ _); [|discriminate]|]; intros [= <-]; cbn [fst snd]; auto. split; auto. split; [apply restrict_names|].
        unfold labels_of. rewrite dget_restrict. reflexivity. }
      match type of E with (do b <- ?x; _) = _ => destruct x as [r|] eqn:Er end; [|discriminate]. cbn [bind] in E. destruct (mapM _ ds) as [rs|]; [|discriminate]. cbn [bind] in E. injection E as <-.
      constructor; [apply P; auto|]. apply IH. reflexivity. }
    split.
    - unfold dataset_dim. split; intros (v & b & I & Id).
      + destruct (Forall2_flip_in _ _ _ F _ I) as ([v' a] & Ia & (E1 & E2 & E3)). cbn [fst snd] in *. exists v', a. split; auto. rewrite <- E2. exact Id.
      + destruct (Forall2_in _ _ _ F _ I) as ([v' a] & Ia & (E1 & E2 & E3)). cbn [fst snd] in *. exists v', a. split; auto. rewrite E2. exact Id.
    - split; intros A v b l I Id Il.
      + destruct (Forall2_in _ _ _ F _ I) as ([v' a] & Ia & (E1 & E2 & E3)). cbn [fst snd] in *. rewrite <- E3. apply (A v' a _ Ia); [rewrite E2; exact Id|apply in_map, Il].
      + destruct (Forall2_flip_in _ _ _ F _ I) as ([v' a] & Ia & (E1 & E2 & E3)). cbn [fst snd] in *. rewrite E3. unfold times in Il. apply in_map_iff in Il. destruct Il as (x & <- & Ix). apply (A v' a x Ia); auto. rewrite <- E2. exact Id. }
  pose proof (sel_labels_ok "init_time" (times inits) ds) as O1.
  assert ((forall v a t, In (v, a) ds -> In "init_time" (dnames a) -> In t inits -> In (LZ t) (labels_of (dims a) "init_time")) <->
          (forall v a l, In (v, a) ds -> In "init_time" (dnames a) -> In l (times inits) -> In l (labels_of (dims a) "init_time"))) as Ti.
  { split; intros A v a l I Id Il; [unfold times in Il; apply in_map_iff in Il; destruct Il as (x & <- & Ix); eauto|apply (A v a (LZ l) I Id), in_map, Il]. }
  destruct (sel_labels "init_time" (times inits) ds) as [c|] eqn:E.
  - cbn [bind]. destruct (Q c eq_refl) as [Q1 Q2]. rewrite sel_labels_ok, Q1, Q2. destruct (proj1 O1 (ex_intro _ c eq_refl)) as [A B]. rewrite Ti. tauto.
  - cbn [bind]. split; [intros [o Ho]; discriminate|]. intros (A & _ & B & _). destruct (proj2 O1) as [o Ho]; [|discriminate]. split; auto. apply Ti, B.
Qed.
(** A slice of lead times: all the lead times between its ends, both included. *)
Theorem C41_predictions_slice : forall ds inits start stop out, dataset ds -> NoDup inits ->
  PredictionsFromXarray ds inits (Some (ChunkSlice start stop)) = Ok out ->
  forall v a, dget ds v = Some a -> In "init_time" (dnames a) -> (forall l, In l (labels_of (dims a) "lead_time") -> exists z, l = LZ z) ->
  exists b, dget out v = Some b /\ wf b /\ labels_of (dims b) "init_time" = map LZ inits /\
    (forall z, In (LZ z) (labels_of (dims b) "lead_time") <-> In (LZ z) (labels_of (dims a) "lead_time") /\ start <= z <= stop) /\
    (forall d, d <> "init_time" -> d <> "lead_time" -> dget (dims b) d = dget (dims a) d) /\
    (forall e, get b e = get a e).
Proof.
  intros ds inits start stop out D Ni H v a G I1 Lz. cbn [PredictionsFromXarray] in H. destruct (sel_labels _ _ ds) as [c|] eqn:E; [|discriminate]. cbn [bind] in H.
  destruct (sel_labels_spec _ _ _ _ E) as [K1 S1]. destruct (S1 v a G) as (b1 & G1 & _ & A2). destruct (A2 I1) as [_ Eb1]. pose proof (dataset_get _ _ _ D G) as W.
  unfold sel_slice in H. destruct (has_dim c "lead_time"); [|discriminate]. apply Ok_inj in H.
  set (sl := filter (fun l => Z.leb start (time_value l) && Z.leb (time_value l) stop)) in *.
  set (f := fun a : da => match dget (dims a) "lead_time" with None => a | Some have => restrict [("lead_time", sl have)] a end).
  assert (out = map (fun kv => (fst kv, f (snd kv))) c) as Eo. { rewrite <- H. apply map_ext. intros [k x]. unfold f. cbn [fst snd]. destruct (dget (dims x) "lead_time"); reflexivity. }
  exists (f b1). split; [rewrite Eo; apply dget_map_snd_val, G1|]. subst b1.
  assert (wf (restrict [("init_time", times inits)] a)) as W1 by (apply wf_restrict; auto; apply times_NoDup, Ni).
  assert (labels_of (dims (restrict [("init_time", times inits)] a)) "init_time" = times inits) as L1.
  { unfold labels_of. rewrite dget_restrict. destruct (eq_dec "init_time" "init_time"); [|congruence]. apply keys_dget in I1. destruct I1 as [x ->]. reflexivity. }
  assert (dget (dims (restrict [("init_time", times inits)] a)) "lead_time" = dget (dims a) "lead_time") as L2 by (rewrite dget_restrict; reflexivity).
  unfold f. rewrite L2. destruct (dget (dims a) "lead_time") as [have|] eqn:Eh.
  - assert (NoDup have) as Nh by (destruct W as (_ & B & _); apply (B "lead_time"), dget_In, Eh). split; [apply wf_restrict; auto; unfold sl; apply NoDup_filter, Nh|]. split; [|split; [|split]].
    + unfold labels_of. rewrite dget_restrict. destruct (eq_dec "init_time" "lead_time"); [discriminate|]. exact L1.
    + intros z. unfold labels_of. rewrite dget_restrict. destruct (eq_dec "lead_time" "lead_time"); [|congruence]. rewrite L2, Eh. unfold sl. rewrite filter_In, andb_true_iff, !Z.leb_le. cbn [time_value]. tauto.
    + intros d Nd1 Nd2. rewrite !dget_restrict. destruct (eq_dec d "lead_time"); [congruence|]. destruct (eq_dec d "init_time"); [congruence|reflexivity].
    + reflexivity.
  - split; auto. split; auto. split; [|split].
    + intros z. unfold labels_of. rewrite L2, Eh. cbn [In]. tauto.
    + intros d Nd1 Nd2. rewrite !dget_restrict. destruct (eq_dec d "init_time"); [congruence|reflexivity].
    + reflexivity.
Qed.

(** ** C42 *)
(** ClimatologyFromXarray: at (t, l) the climatology at the calendar components (day of the year,
    hour, ...) of t + l. *)
Theorem C42_climatology_of_the_valid_time : forall coords ds inits leads out, dataset ds -> NoDup inits -> NoDup leads ->
  ClimatologyFromXarray coords ds inits (Some (ChunkArr leads)) = Ok out ->
  chunk_of ds (fun a => exists c, In c coords /\ In c (dnames a))
    (fun a => answers coords (init_lead_labels inits leads)
       (fun e e' => exists t l, at_time e t l /\ same_except coords e e' /\
                    forall c, In c coords -> In c (dnames a) -> unit_value false c (t + l) (e' c)) a) out.
Proof.
  intros coords ds inits leads out D Ni Nl H. destruct (init_lead_ok inits leads Ni Nl) as [A B]. cbn [ClimatologyFromXarray] in H.
  fold (clim_index valid_time coords) in H. destruct (clim_index valid_time coords) as [idx|] eqn:Ei; [|discriminate]. cbn [bind] in H.
  refine (clim_chunk _ _ _ _ _ _ _ D A B _ _ Ei H).
  - apply valid_local.
  - intros a e e' _ (t & l & At & Es & U). split; auto. rewrite (at_valid _ _ _ At). exact U.
Qed.
Theorem C42_climatology_all_or_nothing : forall coords ds inits leads, NoDup inits -> NoDup leads -> (forall c, In c coords -> unit_known false c) ->
  ((exists out, ClimatologyFromXarray coords ds inits (Some (ChunkArr leads)) = Ok out) <->
   (forall c, In c coords -> dataset_dim ds c) /\
   forall v a c t l x, In (v, a) ds -> In c coords -> In c (dnames a) -> In t inits -> In l leads -> unit_value false c (t + l) x -> In x (labels_of (dims a) c)) /\
  (forall err, ClimatologyFromXarray coords ds inits (Some (ChunkArr leads)) = Err err -> err = KeyError).
Proof.
  intros coords ds inits leads Ni Nl K. cbn [ClimatologyFromXarray]. fold (clim_index valid_time coords). destruct (clim_index_ok valid_time coords K) as [idx Ei]. rewrite Ei. cbn [bind].
  split; [|intros err; apply sel_arrays_err]. rewrite (clim_ok _ _ _ _ _ Ei). split; intros [A B]; split; auto.
  - intros v a c t l x I Ic Id It Il U. destruct (envs_exists inits leads t l Ni Nl It Il) as (e & Ie & At). apply (B v a e c x I Ic Id Ie). rewrite (at_valid _ _ _ At). exact U.
  - intros v a e c x I Ic Id Ie U. destruct (envs_init_lead _ _ _ Ni Nl Ie) as (t & l & It & Il & At). rewrite (at_valid _ _ _ At) in U. eapply B; eauto.
Qed.
(** Without lead times the init times are the valid times; slices are rejected. *)
Theorem C42_climatology_without_lead_times : forall coords ds inits out, dataset ds -> NoDup inits ->
  ClimatologyFromXarray coords ds inits None = Ok out ->
  chunk_of ds (fun a => exists c, In c coords /\ In c (dnames a))
    (fun a => answers coords [("init_time", map LZ inits)]
       (fun e e' => exists t, e "init_time" = LZ t /\ same_except coords e e' /\
                    forall c, In c coords -> In c (dnames a) -> unit_value false c t (e' c)) a) out.
Proof.
  intros coords ds inits out D Ni H. cbn [ClimatologyFromXarray] in H.
  change (mapM _ coords) with (clim_index (fun e => time_value (e "init_time")) coords) in H. destruct (clim_index (fun e => time_value (e "init_time")) coords) as [idx|] eqn:Ei; [|discriminate]. cbn [bind] in H.
  refine (clim_chunk [("init_time", times inits)] _ _ _ _ _ _ D _ _ _ _ Ei H).
  - repeat constructor. intros [].
  - intros n ls [[= <- <-]|[]]. apply times_NoDup, Ni.
  - intros e e' He. rewrite (He "init_time"); [reflexivity|left; reflexivity].
  - intros a e e' _ (t & At & Es & U). split; auto. rewrite At. exact U.
Qed.
Theorem C42_climatology_slice : forall coords ds inits a b, ClimatologyFromXarray coords ds inits (Some (ChunkSlice a b)) = Err ValueError.
Proof. reflexivity. Qed.

(** ProbabilisticClimatologyFromXarray: member k at (t, l) is the data set at the hour of t + l at
    the same day of the year in year start + k. *)
Theorem C42_members_are_years : forall start stop ens ds inits leads out, dataset ds -> NoDup inits -> NoDup leads ->
  ens <> "init_time" -> ens <> "lead_time" -> ens <> "valid_time" ->
  ProbabilisticClimatologyFromXarray start stop ens ds inits (Some (ChunkArr leads)) = Ok out ->
  start <= stop /\
  chunk_of ds (fun a => In "valid_time" (dnames a))
    (answers ["valid_time"] ((ens, map (fun k => LZ (Z.of_nat k)) (seq 0 (Z.to_nat (stop - start + 1)))) :: init_lead_labels inits leads)
       (fun e e' => exists k t l T, e ens = LZ k /\ at_time e t l /\ same_hour_in_year (start + k) (t + l) T /\
                    e' "valid_time" = LZ T /\ same_except ["valid_time"] e e')) out.
Proof.
  intros start stop ens ds inits leads out D Ni Nl N1 N2 N3 H. destruct (init_lead_ok inits leads Ni Nl) as [A B]. cbn [ProbabilisticClimatologyFromXarray] in H.
  destruct (zrange start (stop + 1)) as [|y0 ys] eqn:Ez; [discriminate|]. rewrite <- Ez in H. cbv zeta in H. assert (start <= stop) as Hs. { destruct (Z_le_gt_dec start stop); auto. assert (zrange start (stop + 1) = []) by (apply zrange_nil; lia). congruence. }
  split; auto. rewrite zrange_length in H. unfold times at 1 in H. rewrite map_map in H. replace (stop + 1 - start) with (stop - start + 1) in H by ring.
  refine (sel_one_chunk _ _ _ _ _ _ D _ _ _ _ H).
  - cbn [map fst]. constructor; auto. cbn. intuition congruence.
  - intros n ls [[= <- <-]|I]; [|apply (B _ _ I)]. apply FinFun.Injective_map_NoDup; [intros x y [=]; lia|apply seq_NoDup].
  - intros e e' He. f_equal. rewrite (He ens (or_introl eq_refl)). f_equal. apply (valid_local inits leads). intros k Ik. apply He. right. exact Ik.
  - intros e e' P (k & t & l & T & Ek & At & Sh & Ev & Es). split; auto. rewrite Ev. f_equal. rewrite Ek, (at_valid _ _ _ At). cbn [time_value].
    assert (In (e ens) (map (fun k => LZ (Z.of_nat k)) (seq 0 (Z.to_nat (stop - start + 1))))) as Ie by (apply P; left; reflexivity). rewrite Ek in Ie. apply in_map_iff in Ie. destruct Ie as (j & Ej & Ij).
    apply in_seq in Ij. assert (k = Z.of_nat j) as -> by congruence. rewrite zrange_nth by lia. apply cat_time_iff. exact Sh.
Qed.
Theorem C42_members_all_or_nothing : forall start stop ens ds inits leads, NoDup inits -> NoDup leads ->
  ens <> "init_time" -> ens <> "lead_time" -> start <= stop ->
  ((exists out, ProbabilisticClimatologyFromXarray start stop ens ds inits (Some (ChunkArr leads)) = Ok out) <->
   dataset_dim ds "valid_time" /\
   forall v a y t l T, In (v, a) ds -> In "valid_time" (dnames a) -> start <= y <= stop -> In t inits -> In l leads -> same_hour_in_year y (t + l) T ->
     In (LZ T) (labels_of (dims a) "valid_time")) /\
  (forall err, ProbabilisticClimatologyFromXarray start stop ens ds inits (Some (ChunkArr leads)) = Err err -> err = KeyError).
Proof.
  intros start stop ens ds inits leads Ni Nl N1 N2 Hs. cbn [ProbabilisticClimatologyFromXarray]. cbv zeta.
  destruct (zrange start (stop + 1)) as [|y0 ys] eqn:Ez; [apply zrange_nil in Ez; lia|]. rewrite <- Ez. clear Ez y0 ys.
  split; [|intros err; apply sel_arrays_err]. rewrite sel_one_ok. rewrite zrange_length. unfold times at 1. rewrite map_map.
  set (ids := (ens, map (fun x => LZ (Z.of_nat x)) (seq 0 (Z.to_nat (stop + 1 - start)))) :: init_lead inits leads).
  assert (NoDup (map fst ids)) as Nd. { cbn [ids map fst]. constructor; [cbn; intuition congruence|]. apply init_lead_ok; auto. }
  split; intros [A B]; split; auto.
  - intros v a y t l T I Id Hy It Il Sh. set (e := upd (upd (upd env0 ens (LZ (y - start))) "init_time" (LZ t)) "lead_time" (LZ l)).
    assert (e ens = LZ (y - start)) as Ee. { unfold e, upd. destruct (string_dec ens "lead_time"); [congruence|]. destruct (string_dec ens "init_time"); [congruence|]. destruct (string_dec ens ens); [reflexivity|congruence]. }
    assert (at_time e t l) as At by (split; reflexivity).
    specialize (B v a e I Id). rewrite Ee, (at_valid _ _ _ At) in B. cbn [time_value] in B. rewrite zrange_nth in B by lia. apply cat_time_iff in Sh. replace (start + (y - start)) with y in B by ring. rewrite Sh. apply B.
    apply envs_spec; auto. split.
    + intros d ls [[= <- <-]|[[= <- <-]|[[= <- <-]|[]]]].
      * rewrite Ee. apply in_map_iff. exists (Z.to_nat (y - start)). split; [f_equal; lia|]. apply in_seq. lia.
      * change (In (LZ t) (times inits)). apply in_map, It.
      * change (In (LZ l) (times leads)). apply in_map, Il.
    + intros d Hd. cbn [ids map fst] in Hd. cbn in Hd. unfold e, upd. destruct (string_dec d "lead_time") as [->|]; [exfalso; tauto|]. destruct (string_dec d "init_time") as [->|]; [exfalso; tauto|]. destruct (string_dec d ens) as [->|]; [exfalso; tauto|reflexivity].
  - intros v a e I Id Ie. apply envs_spec in Ie; auto. destruct Ie as [P _]. assert (exists t l, In t inits /\ In l leads /\ at_time e t l) as (t & l & It & Il & At) by (apply in_box_init_lead; intros n ls J; apply P; right; exact J).
    assert (In (e ens) (map (fun x => LZ (Z.of_nat x)) (seq 0 (Z.to_nat (stop + 1 - start))))) as Ie by (apply P; left; reflexivity). apply in_map_iff in Ie. destruct Ie as (k & Ek & Ik). apply in_seq in Ik.
    rewrite <- Ek, (at_valid _ _ _ At). cbn [time_value]. rewrite zrange_nth by lia. apply (B v a (start + Z.of_nat k) t l); auto; [lia|]. apply cat_time_iff. reflexivity.
Qed.
Theorem C42_members_errors : forall start stop ens ds inits leads a b,
  (stop < start -> ProbabilisticClimatologyFromXarray start stop ens ds inits (Some (ChunkArr leads)) = Err ValueError) /\
  ProbabilisticClimatologyFromXarray start stop ens ds inits (Some (ChunkSlice a b)) = Err ValueError /\
  ProbabilisticClimatologyFromXarray start stop ens ds inits None = Err ValueError.
Proof.
  intros start stop ens ds inits leads a b. split; [|split; reflexivity]. intros H. cbn [ProbabilisticClimatologyFromXarray]. assert (zrange start (stop + 1) = []) as -> by (apply zrange_nil; lia). reflexivity.
Qed.
(** The hour selected in year y: exactly one; the day of the year and the hour of the query
    (minutes and seconds dropped) if year y has that day, else the hour on 1 January of y + 1. *)
Theorem C42_the_hour_in_another_year : forall y t,
  (exists! T, same_hour_in_year y t T) /\
  forall T y0 mo d doy day h mi s, same_hour_in_year y t T -> civil t y0 mo d doy day h mi s ->
    (doy <= 365 \/ leap y -> exists mo' d' day', civil T y mo' d' doy day' h 0 0) /\
    (doy = 366 -> ~ leap y -> exists day', civil T (y + 1) 1 1 1 day' h 0 0).
Proof.
  intros y t. split.
  - exists (cat_time y t). split; [apply cat_time_iff; reflexivity|]. intros T H. symmetry. apply cat_time_iff, H.
  - intros T y0 mo d doy day h mi s Sh C. pose proof (civil_hour _ _ _ _ _ _ _ _ _ C) as Eh. destruct (civil_date _ _ _ _ _ _ _ _ _ C) as (Ey & Ed & _). apply cat_time_iff in Sh.
    pose proof (dayofyear_range t) as Rd. rewrite Ed in Rd. pose proof (cv_h _ _ _ _ _ _ _ _ _ C) as Rh.
    assert (forall D, T = D * ns_day + h * ns_hour + 0 -> forall y1 mo1 d1 doy1 day1 h1 mi1 s1, civil T y1 mo1 d1 doy1 day1 h1 mi1 s1 -> day1 = D /\ h1 = h /\ mi1 = 0 /\ s1 = 0) as Q.
    { intros D ET y1 mo1 d1 doy1 day1 h1 mi1 s1 C1. destruct C1 as [_ R1 R2 R3 (r & Rr & E1)]. unfold ns_day, ns_hour in ET. rewrite ET in E1. lia. }
    destruct (civil_exists T) as (y1 & mo1 & d1 & doy1 & day1 & h1 & mi1 & s1 & C1).
    assert (T = (year_start y + doy - 1) * ns_day + h * ns_hour + 0) as ET by (rewrite Sh; unfold cat_time; rewrite Ed, Eh; unfold ns_day, ns_hour; ring).
    destruct (Q _ ET _ _ _ _ _ _ _ _ C1) as (-> & -> & -> & ->). destruct (civil_date _ _ _ _ _ _ _ _ _ C1) as (Ey1 & Ed1 & Em1 & Edm1). pose proof (civil_day _ _ _ _ _ _ _ _ _ C1) as Ec1.
    split.
    + intros Hf. assert (year_start y <= year_start y + doy - 1 < year_start (y + 1)) as Ry. { rewrite year_start_next. destruct (is_leap y) eqn:El; [destruct (is_leap (year_of t)); lia|]. destruct Hf as [Hf|Hf]; [lia|]. apply leap_iff in Hf. congruence. }
      apply year_unique in Ry. assert (y1 = y) as ->. { rewrite <- Ey1. unfold year_of. rewrite Ec1. exact Ry. }
      assert (doy1 = doy) as ->. { destruct C1 as [(D & n & len & J & M & _ & E1 & E2) _ _ _ _]. apply jan1_start in J. subst D. lia. }
      eauto.
    + intros Hd Hl. assert (is_leap y = false) as El by (destruct (is_leap y) eqn:El; auto; apply leap_iff in El; contradiction). pose proof (year_start_next y) as Yn. rewrite El in Yn.
      pose proof (year_start_next (y + 1)) as Yn2. assert (year_start (y + 1) <= year_start y + doy - 1 < year_start (y + 1 + 1)) as Ry by (destruct (is_leap (y + 1)); lia).
      apply year_unique in Ry. assert (y1 = y + 1) as ->. { rewrite <- Ey1. unfold year_of. rewrite Ec1. exact Ry. }
      exists (year_start y + doy - 1). destruct C1 as [(D & n & len & J & M & Rd1 & E1 & E2) R1 R2 R3 R4]. apply jan1_start in J. subst D.
      assert (doy1 = 1) as Hd1 by lia. split; auto. exists (year_start (y + 1)), 0, 31. split; [apply start_jan1|]. split; [constructor|]. lia.
Qed.

(** ** Examples: four analysis times, six hours apart *)
Definition h6 : Z := 6 * 3600 * 1000000000.
Definition ex_times : list Z := [0; h6; 2 * h6; 3 * h6].
Definition ex_ds : vars da :=
  [("t", mkDa [("valid_time", map LZ ex_times); ("latitude", [LZ 0; LZ 1])] (fun e => if eqb (e "valid_time") (LZ (2 * h6)) then PInf else NaN) []);
   ("orography", mkDa [("latitude", [LZ 0; LZ 1])] (fun _ => NaN) [])].
Lemma ex_dataset : dataset ex_ds.
Proof.
  split; [repeat constructor; cbn; intuition discriminate|]. intros v a [[= <- <-]|[[= <- <-]|[]]].
  - split; [repeat constructor; cbn; intuition discriminate|]. split.
    + intros d ls [[= <- <-]|[[= <- <-]|[]]]; repeat constructor; cbn; unfold h6; intuition discriminate.
    + intros e e' H. cbn [get]. rewrite (H "valid_time"); [reflexivity|left; reflexivity].
  - split; [repeat constructor; cbn; intuition discriminate|]. split; [|reflexivity]. intros d ls [[= <- <-]|[]]. repeat constructor; cbn; intuition discriminate.
Qed.
(** The dimensions of a loaded variable. *)
Definition loads (r : result (vars da)) (v : string) : option (list string) :=
  match r with Ok out => match dget out v with Some b => Some (dnames b) | None => None end | Err _ => None end.
Lemma ex_nodup : NoDup [0; h6].
Proof. repeat constructor; cbn; unfold h6; intuition discriminate. Qed.
(** The run started at 6 h, six hours ahead, is compared with 12 h. *)
Example C41_targets_example : exists out b, TargetsFromXarray ex_ds [0; h6] (Some (ChunkArr [0; h6])) = Ok out /\ dget out "t" = Some b /\
  labels_of (dims b) "init_time" = [LZ 0; LZ h6] /\
  forall e, e "init_time" = LZ h6 -> e "lead_time" = LZ h6 -> e "latitude" = LZ 1 -> get b e = PInf.
Proof.
  assert (loads (TargetsFromXarray ex_ds [0; h6] (Some (ChunkArr [0; h6]))) "t" = Some ["init_time"; "lead_time"; "latitude"]) as L by (vm_compute; reflexivity).
  destruct (TargetsFromXarray ex_ds [0; h6] (Some (ChunkArr [0; h6]))) as [out|] eqn:E; [|discriminate L]. destruct (C41_targets_at_valid_time _ _ _ _ ex_dataset ex_nodup ex_nodup E) as [_ H].
  destruct (H "t" _ eq_refl) as (b & G & A & _). specialize (A (or_introl eq_refl)). exists out, b. split; auto. split; auto. split.
  - unfold labels_of. rewrite (an_new _ _ _ _ _ A "init_time" _ (or_introl eq_refl)). reflexivity.
  - intros e E1 E2 E3. rewrite (an_value _ _ _ _ _ A e (upd e "valid_time" (LZ (h6 + h6)))).
    + cbn [get]. change (upd e "valid_time" (LZ (h6 + h6)) "valid_time") with (LZ (h6 + h6)). reflexivity.
    + cbn [TargetsFromXarray] in E. intros d ls I. pose proof (an_new _ _ _ _ _ A) as An. pose proof (an_kept _ _ _ _ _ A) as Ak.
      assert (dget (dims b) d = Some ls) as Eg by (apply In_dget; auto; apply (an_wf _ _ _ _ _ A)).
      destruct (string_dec d "init_time") as [->|]; [rewrite (An _ _ (or_introl eq_refl)) in Eg; injection Eg as <-; rewrite E1; right; left; reflexivity|].
      destruct (string_dec d "lead_time") as [->|]; [rewrite (An _ _ (or_intror (or_introl eq_refl))) in Eg; injection Eg as <-; rewrite E2; right; left; reflexivity|].
      destruct (string_dec d "valid_time") as [->|]; [exfalso; apply (an_gone _ _ _ _ _ A "valid_time"); [left; auto|cbn; intuition discriminate|apply (dget_Some_keys _ _ Eg)]|].
      rewrite Ak in Eg; [|cbn; intuition congruence|cbn; intuition congruence]. apply dget_In in Eg. destruct Eg as [Eg|[Eg|[]]]; [congruence|]. injection Eg as <- <-. rewrite E3. right. left. reflexivity.
    + exists h6, h6. split; [split; auto|]. split; [reflexivity|]. intros d Nd. unfold upd. destruct (string_dec d "valid_time"); [exfalso; apply Nd; left; auto|reflexivity].
Qed.
Example C41_missing_valid_time : TargetsFromXarray ex_ds [0; h6] (Some (ChunkArr [0; 3 * h6])) = Err KeyError.
Proof. vm_compute. reflexivity. Qed.
Example C41_persistence_example : loads (PersistenceFromXarray ex_ds [0; h6] (Some (ChunkArr [0; h6]))) "t" = Some ["lead_time"; "init_time"; "latitude"].
Proof. vm_compute. reflexivity. Qed.
Definition ex_clim : vars da := [("t", mkDa [("hour", [LZ 0; LZ 6; LZ 12; LZ 18]); ("dayofyear", [LZ 1; LZ 2])] (fun _ => NaN) [])].
Example C42_climatology_example : loads (ClimatologyFromXarray ["dayofyear"; "hour"] ex_clim [0; h6] (Some (ChunkArr [0; h6]))) "t" = Some ["init_time"; "lead_time"].
Proof. vm_compute. reflexivity. Qed.
(** 2020-12-31T06:00 (day 366): in 2021 the member is 2022-01-01T06:00. *)
Example C42_day_366 : cat_time 2021 (year_start 2021 * ns_day - ns_day + h6) = year_start 2022 * ns_day + h6.
Proof. vm_compute. reflexivity. Qed.
Definition ex_years : vars da := [("t", mkDa [("valid_time", map LZ [0; h6; 2 * h6; 365 * 4 * h6; (365 * 4 + 1) * h6; (365 * 4 + 2) * h6])] (fun _ => NaN) [])].
Example C42_members_example : loads (ProbabilisticClimatologyFromXarray 1970 1971 "number" ex_years [0; h6] (Some (ChunkArr [0; h6]))) "t" = Some ["number"; "init_time"; "lead_time"].
Proof. vm_compute. reflexivity. Qed.

Print Assumptions C41_targets_at_valid_time.
Print Assumptions C41_targets_all_or_nothing.
Print Assumptions C41_persistence_at_init_time.
Print Assumptions C41_predictions_are_the_requested_part.
Print Assumptions C41_predictions_all_or_nothing.
Print Assumptions C41_predictions_slice.
Print Assumptions C42_climatology_of_the_valid_time.
Print Assumptions C42_climatology_all_or_nothing.
Print Assumptions C42_climatology_without_lead_times.
Print Assumptions C42_members_are_years.
Print Assumptions C42_members_all_or_nothing.
Print Assumptions C42_the_hour_in_another_year.
