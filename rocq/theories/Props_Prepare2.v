(** C67: calls on a loader end to end, failed preparations, latency wrappers. *)
From Coq Require Import String Ascii ZArith List Bool Lia.
Import ListNotations.
From Verif Require Import Prelude Values Model_XArray Spec_XArray Proofs_XArray Model_MetricsBase Model_Aggregation Model_TimeChunks Model_Deterministic Proofs_Beam9 Proofs_AggState
  Model_Loaders Spec_Loaders Proofs_Loaders Proofs_Loaders2 Props_Loaders Model_Latency Model_Prepare Spec_Prepare Proofs_Prepare Proofs_Prepare2 Props_Prepare.
Local Open Scope Z_scope.
Local Open Scope string_scope.
Local Open Scope list_scope.

(** ** ECMWF files, default options *)
Definition default_options : loader_options := mkOptions None None None Ecmwf true None None.
Definition no_stages : loader_config := mkCfg None None true false.
(** The point [e'] of the file has the labels of [e] under the names of the file, time aside. *)
Definition file_space (raw : vars da) (e e' : env) : Prop :=
  (coordinate_of raw "lat" -> coordinate_of raw "lon" -> e' "lat" = e "latitude" /\ e' "lon" = e "longitude") /\
  (forall n, n <> "time" -> n <> "prediction_timedelta" -> (n = "lat" \/ n = "lon" -> ~ (coordinate_of raw "lat" /\ coordinate_of raw "lon")) -> e' n = e n).

Lemma load_prepared o so w r raw s out : loader_load_chunk o no_stages so w r (mkState (Some raw) false) = (s, Ok out) ->
  exists ds, prepared o raw = Ok ds /\ so ds (r_inits r) (r_leads r) = Ok out.
Proof.
  unfold loader_load_chunk. destruct (prepared o raw) as [ds|e] eqn:E.
  - rewrite (prepare_ok _ w _ _ E). cbn [st_ds]. intros [= _ H]. exists ds. split; auto. unfold load_chunk in H. destruct (so ds (r_inits r) (r_leads r)); [|discriminate]. cbn in H. exact H.
  - destruct (prepare_err _ w _ _ E) as [d ->]. discriminate.
Qed.
Lemma default_names raw ds : prepared default_options raw = Ok ds -> exists rho, renamed rho raw ds /\
  (coordinate_of raw "prediction_timedelta" -> rho "time" = "init_time" /\ rho "prediction_timedelta" = "lead_time") /\
  (~ coordinate_of raw "prediction_timedelta" -> rho "time" = "valid_time" /\ rho "prediction_timedelta" = "prediction_timedelta") /\
  forall n e e', n <> "time" -> n <> "prediction_timedelta" -> file_space raw e e' -> e' n = e (rho n).
Proof.
  unfold prepared. cbn [default_options o_preprocessing_fn o_variables o_sel_kwargs bind]. intros H.
  match type of H with bind ?x _ = _ => destruct x as [d2|] eqn:E; [|discriminate] end. injection H as ->. destruct (rename_dataset_spec default_options raw ds E) as (rho & (geo & time & var & Eq & G & T & V) & R).
  cbn [default_options o_rename_dimensions o_rename_variables o_convert_lat_lon] in *. exists rho. split; auto. destruct G as [G1 G2]. destruct T as (T1 & T2 & T3). unfold unchanged in V.
  assert (forall n, n <> "lat" -> n <> "lon" -> geo n = n) as G3 by (intros n A B; apply G2; auto). split; [|split].
  - intros P. rewrite !Eq, !V, !G3; try discriminate. apply T1, P.
  - intros P. rewrite !Eq, !V, !G3; try discriminate. split; [apply T2, P|]. apply T3; [discriminate|]. intros Q. contradiction.
  - intros n e e' Nt Np [S1 S2]. rewrite Eq, V.
    assert ((coordinate_of raw "lat" /\ coordinate_of raw "lon") \/ ~ (coordinate_of raw "lat" /\ coordinate_of raw "lon")) as [B|B].
    { destruct (is_coord raw "lat") eqn:E1, (is_coord raw "lon") eqn:E2; [left; rewrite is_coord_iff in E1, E2; auto| | |]; right; intros [C1 C2]; apply is_coord_iff in C1, C2; congruence. }
    + destruct (S1 (proj1 B) (proj2 B)) as [La Lo]. destruct (G1 (conj eq_refl B)) as [Ga Go]. destruct (string_dec n "lat") as [->|N1].
      * rewrite Ga, T3; [exact La|discriminate|discriminate].
      * destruct (string_dec n "lon") as [->|N2]; [rewrite Go, T3; [exact Lo|discriminate|discriminate]|]. rewrite G3, T3; auto. apply S2; auto. intros [|]; contradiction.
    + rewrite G2; [|intros (_ & C); contradiction]. rewrite T3; auto.
Qed.

Lemma dget_map_names (rho : string -> string) (l : dimlist) d ls : (forall n n', In n (map fst l) -> In n' (map fst l) -> rho n = rho n' -> n = n') ->
  dget l d = Some ls -> dget (map (fun p => (rho (fst p), snd p)) l) (rho d) = Some ls.
Proof.
  intros J Gd. pose proof (dget_Some_keys _ _ Gd) as Id. change (In d (map fst l)) in Id. induction l as [|[n x] l IH]; [discriminate|]. cbn [map fst snd dget] in *. destruct (eq_dec d n) as [->|Ne].
  - injection Gd as ->. destruct (eq_dec (rho n) (rho n)); congruence.
  - destruct (eq_dec (rho d) (rho n)) as [Er|_]; [exfalso; apply Ne, J; auto; left; reflexivity|]. apply IH; auto; [|apply (dget_Some_keys _ _ Gd)]. intros m m' I I'. apply J; right; auto.
Qed.
(** A forecast file: the loaded value at init time t and lead time l is the file's value at time t
    and prediction_timedelta l. *)
Theorem C67_ecmwf_forecast : forall raw inits leads w s out, dataset raw -> coordinate_of raw "prediction_timedelta" ->
  loader_load_chunk default_options no_stages PredictionsFromXarray w (mkRequest inits (Some (ChunkArr leads)) None) (mkState (Some raw) false) = (s, Ok out) ->
  exists rho, keys out = map rho (keys raw) /\ (forall v, v <> "time" -> v <> "prediction_timedelta" -> v <> "lat" -> v <> "lon" -> rho v = v) /\
  forall v a, dget raw v = Some a -> In "time" (dnames a) -> In "prediction_timedelta" (dnames a) ->
    exists b, dget out (rho v) = Some b /\
      dget (dims b) "init_time" = Some (map LZ inits) /\ dget (dims b) "lead_time" = Some (map LZ leads) /\
      (forall t, In t inits -> In (LZ t) (labels_of (dims a) "time")) /\
      (forall l, In l leads -> In (LZ l) (labels_of (dims a) "prediction_timedelta")) /\
      forall e e', file_space raw e e' -> e' "time" = e "init_time" -> e' "prediction_timedelta" = e "lead_time" -> get b e = get a e'.
Proof.
  intros raw inits leads w s out D P H. destruct (load_prepared _ _ _ _ _ _ _ H) as (ds & E & L). cbn [r_inits r_leads] in L. destruct (default_names _ _ E) as (rho & R & T1 & _ & Rs). destruct (T1 P) as [Rt Rp].
  unfold PredictionsFromXarray in L. destruct (sel_labels "init_time" (times inits) ds) as [c1|] eqn:E1; [|discriminate]. cbn [bind] in L.
  destruct (sel_labels_spec _ _ _ _ E1) as [K1 S1]. destruct (sel_labels_spec _ _ _ _ L) as [K2 S2]. exists rho. split; [unfold keys; rewrite K2, K1; apply (keys_renamed _ _ _ R)|]. split.
  { intros v N1 N2 N3 N4. pose (e := fun n : string => LS n). pose (e' := fun n : string => LS (if string_dec n "lat" then if is_coord raw "lat" && is_coord raw "lon" then "latitude" else n else if string_dec n "lon" then if is_coord raw "lat" && is_coord raw "lon" then "longitude" else n else n)).
    assert (file_space raw e e') as F. { split.
      - intros C1 C2. apply is_coord_iff in C1, C2. unfold e', e. rewrite C1, C2. split; reflexivity.
      - intros n _ _ Hn. unfold e', e. f_equal. destruct (string_dec n "lat") as [->|]; [|destruct (string_dec n "lon") as [->|]; [|reflexivity]]; (destruct (is_coord raw "lat") eqn:C1, (is_coord raw "lon") eqn:C2; try reflexivity; exfalso; apply Hn; auto; split; apply is_coord_iff; auto). }
    specialize (Rs v e e' N1 N2 F). unfold e', e in Rs. destruct (string_dec v "lat"); [contradiction|]. destruct (string_dec v "lon"); [contradiction|]. injection Rs as Rs. auto. }
  intros v a G It Ip. pose proof (dget_renamed _ _ _ _ _ R G) as G1. destruct (S1 _ _ G1) as (b1 & Gb1 & _ & Q1). destruct Q1 as [Q1 ->]; [rewrite dnames_ren, <- Rt; apply in_map, It|].
  destruct (S2 _ _ Gb1) as (b & Gb & _ & Q2). destruct Q2 as [Q2 ->]; [rewrite restrict_names, dnames_ren, <- Rp; apply in_map, Ip|]. exists (restrict [("lead_time", times leads)] (restrict [("init_time", times inits)] (ren rho a))). split; auto.
  assert (forall d ls, dget (dims a) d = Some ls -> dget (dims (ren rho a)) (rho d) = Some ls) as Dr.
  { intros d ls Gd. destruct R as [J _]. cbn [ren dims]. apply dget_map_names; auto. intros n n' I I' Eq. apply J; auto; right; exists v, a; (split; [apply dget_In, G|left; auto]). }
  destruct (keys_dget _ _ It) as [lt Gt]. destruct (keys_dget _ _ Ip) as [lp Gp]. pose proof (Dr _ _ Gt) as Dt. pose proof (Dr _ _ Gp) as Dp. rewrite Rt in Dt. rewrite Rp in Dp.
  assert (forall c, dget (dims (restrict [("init_time", times inits)] c)) "lead_time" = dget (dims c) "lead_time") as Di by (intros c; rewrite dget_restrict; destruct (eq_dec "lead_time" "init_time"); [discriminate|reflexivity]).
  split; [rewrite dget_restrict; destruct (eq_dec "init_time" "lead_time"); [discriminate|]; rewrite dget_restrict; destruct (eq_dec "init_time" "init_time"); [|congruence]; rewrite Dt; reflexivity|].
  split; [rewrite dget_restrict, Di; destruct (eq_dec "lead_time" "lead_time"); [|congruence]; rewrite Dp; reflexivity|].
  split; [intros t I; specialize (Q1 (LZ t) (in_map LZ _ _ I)); unfold labels_of in *; rewrite Dt in Q1; rewrite Gt; exact Q1|].
  split; [intros l I; specialize (Q2 (LZ l) (in_map LZ _ _ I)); unfold labels_of in *; rewrite Di, Dp in Q2; rewrite Gp; exact Q2|].
  intros e e' F Et Ep. cbn [restrict get ren]. apply (dataset_get _ _ _ D G). intros d I. destruct (string_dec d "time") as [->|Nt]; [rewrite Rt; auto|]. destruct (string_dec d "prediction_timedelta") as [->|Np]; [rewrite Rp; auto|]. symmetry. apply Rs; auto.
Qed.

(** An analysis file: the loaded target at init time t and lead time l is the file's value at time
    t + l. *)
Theorem C67_ecmwf_analysis : forall raw inits leads w s out, dataset raw -> ~ coordinate_of raw "prediction_timedelta" -> NoDup inits -> NoDup leads ->
  loader_load_chunk default_options no_stages TargetsFromXarray w (mkRequest inits (Some (ChunkArr leads)) None) (mkState (Some raw) false) = (s, Ok out) ->
  exists rho, keys out = map rho (keys raw) /\ rho "time" = "valid_time" /\
  forall v a, dget raw v = Some a -> In "time" (dnames a) ->
    exists b, dget out (rho v) = Some b /\
      dget (dims b) "init_time" = Some (map LZ inits) /\ dget (dims b) "lead_time" = Some (map LZ leads) /\
      forall e e' t l, point_of (dims b) e -> at_time e t l -> file_space raw e e' -> e' "time" = LZ (t + l) -> get b e = get a e'.
Proof.
  intros raw inits leads w s out D P Ni Nl H. destruct (load_prepared _ _ _ _ _ _ _ H) as (ds & E & L). cbn [r_inits r_leads] in L. destruct (default_names _ _ E) as (rho & R & _ & T2 & Rs). destruct (T2 P) as [Rt Rp].
  pose proof (dataset_renamed _ _ _ D R) as D2. destruct (C41_targets_at_valid_time _ _ _ _ D2 Ni Nl L) as [K S]. exists rho. split; [rewrite K; apply (keys_renamed _ _ _ R)|]. split; auto.
  intros v a G It. pose proof (dget_renamed _ _ _ _ _ R G) as G1. destruct (S _ _ G1) as (b & Gb & An & _). assert (In "valid_time" (dnames (ren rho a))) as Iv by (rewrite dnames_ren, <- Rt; apply in_map, It). specialize (An Iv). exists b. split; auto.
  split; [apply (an_new _ _ _ _ _ An "init_time"); left; reflexivity|]. split; [apply (an_new _ _ _ _ _ An "lead_time"); right; left; reflexivity|].
  intros e e' t l Pe At F Et. rewrite (an_value _ _ _ _ _ An e (upd e "valid_time" (LZ (t + l))) Pe).
  - cbn [ren get]. apply (dataset_get _ _ _ D G). intros d I. destruct (string_dec d "time") as [->|Nt]; [rewrite Rt, Et; reflexivity|].
    assert (rho d <> "valid_time") as Nv. { intros Er. apply Nt. destruct R as [J _]. apply J; [right; exists v, a; split; [apply dget_In, G|auto]|right; exists v, a; split; [apply dget_In, G|auto]|congruence]. }
    unfold upd. destruct (string_dec (rho d) "valid_time"); [contradiction|]. destruct (string_dec d "prediction_timedelta") as [->|Np]; [|symmetry; apply Rs; auto].
    exfalso. apply P. exists v, a. split; [apply dget_In, G|auto].
  - exists t, l. split; auto. split; [reflexivity|]. intros d Nd. unfold upd. destruct (string_dec d "valid_time") as [->|]; [exfalso; apply Nd; left; reflexivity|reflexivity].
Qed.
