(** C67: failed preparations, latency wrappers, examples. *)
From Coq Require Import String Ascii ZArith List Bool Lia Reals.
Import ListNotations.
From Verif Require Import Prelude Values Model_XArray Spec_XArray Proofs_XArray Model_MetricsBase Model_Aggregation Model_TimeChunks Model_Deterministic Proofs_Beam9 Proofs_AggState
  Model_Loaders Spec_Loaders Proofs_Loaders Proofs_Loaders2 Props_Loaders Model_Latency Model_Prepare Spec_Prepare Proofs_Prepare Proofs_Prepare2 Props_Prepare Props_Prepare2.
Local Open Scope Z_scope.
Local Open Scope string_scope.
Local Open Scope list_scope.

(** ** Failed preparations *)
Lemma name_of_sub (d d' : vars da) n : (forall v a, In (v, a) d' -> In (v, a) d) -> name_of d' n -> name_of d n.
Proof.
  intros S [I|(v & a & I & J)]; [left; unfold keys in *; apply in_map_iff in I; destruct I as ([v a] & <- & I); apply (in_map fst _ _ (S _ _ I))|right; exists v, a; auto].
Qed.
Lemma select_In names ds out v a : select_variables names ds = Ok out -> In (v, a) out -> In (v, a) ds.
Proof.
  intros H I. destruct (select_variables_spec _ _ _ H) as [K _]. apply dget_In. apply (select_variables_sub _ _ _ _ _ H). apply In_dget; auto. rewrite K. apply NoDup_nodup.
Qed.
(** The dataset left behind by a preparation that failed after the renaming. *)
Lemma prepare_err_after o w raw d2 e : o_preprocessing_fn o = None -> rename_dataset raw (o_rename_dimensions o) (o_rename_variables o) (o_convert_lat_lon o) = Ok d2 ->
  prepared o raw = Err e -> e = KeyError /\ exists d, maybe_prepare_dataset o w (mkState (Some raw) false) = (mkState (Some d) false, Err e) /\
    (d = d2 \/ exists l, o_variables o = Some l /\ select_variables l d2 = Ok d).
Proof.
  intros P R H. unfold prepared in H. rewrite P in H. cbn [bind] in H. rewrite R in H. cbn [bind] in H. unfold maybe_prepare_dataset. cbn [st_done st_ds and_then]. rewrite P. cbn [optional and_then assign st_ds]. rewrite R. cbn [and_then].
  destruct (o_variables o) as [l|]; cbn [optional assign st_ds st_done and_then].
  - destruct (select_variables l d2) as [d3|e3] eqn:E3; cbn [bind] in H; cbn [and_then].
    + destruct (o_sel_kwargs o) as [kw|]; [|discriminate]. cbn [optional assign st_ds st_done]. rewrite H. split; [apply (sel_kwargs_err _ _ _ H)|]. exists d3. split; [reflexivity|]. right. eauto.
    + injection H as <-. split; [apply (select_variables_err _ _ _ E3)|]. exists d2. auto.
  - cbn [bind] in H. destruct (o_sel_kwargs o) as [kw|]; [|discriminate]. cbn [optional assign st_ds st_done and_then]. rewrite H. split; [apply (sel_kwargs_err _ _ _ H)|]. exists d2. auto.
Qed.
Lemma run_failing o cfg so (Q : vars da -> Prop) e calls : (forall w d, Q d -> exists d', maybe_prepare_dataset o w (mkState (Some d) false) = (mkState (Some d') false, Err e) /\ Q d') ->
  forall d, Q d -> run_loads o cfg so calls (mkState (Some d) false) = map (fun _ => Err e) calls.
Proof.
  intros H. induction calls as [|[w r] calls IH]; intros d Hd; [reflexivity|]. cbn [run_loads map]. unfold loader_load_chunk. destruct (H w d Hd) as (d' & -> & Hd'). cbn [fst snd]. rewrite (IH d' Hd'). reflexivity.
Qed.
Lemma no_time_err d rv c : ~ name_of d "time" -> rename_dataset d Ecmwf rv c = Err ValueError.
Proof.
  intros N. unfold rename_dataset. assert (forall x, ~ name_of x "time" -> (if is_coord x "prediction_timedelta" then rename_ds [("time", "init_time"); ("prediction_timedelta", "lead_time")] x else rename_ds [("time", "valid_time")] x) = Err ValueError) as Q.
  { intros x Nx. assert (memb "time" (ds_names x) = false) as M by (apply memb_false; rewrite in_ds_names; auto). unfold rename_ds. cbn [keys map fst forallb]. rewrite M. cbn [andb]. destruct (is_coord x _); reflexivity. }
  destruct (c && _) eqn:B; [|cbn [bind]; rewrite Q; auto]. destruct (rename_ds [("lat", "latitude"); ("lon", "longitude")] d) as [d1|e1] eqn:E1; cbn [bind].
  - rewrite Q; [reflexivity|]. intros N1. apply rename_ds_spec in E1. destruct E1 as [_ R1]. apply (proj1 (name_of_renamed _ _ _ R1 _)) in N1. destruct N1 as (n & Nn & E). revert E. unfold new_name. cbn [dget].
    destruct (eq_dec n "lat"); [discriminate|]. destruct (eq_dec n "lon"); [discriminate|]. intros <-. contradiction.
  - rewrite (rename_ds_err _ _ _ E1). reflexivity.
Qed.
Lemma ecmwf_no_time o raw d2 : o_rename_dimensions o = Ecmwf -> o_rename_variables o = None ->
  rename_dataset raw (o_rename_dimensions o) (o_rename_variables o) (o_convert_lat_lon o) = Ok d2 -> ~ name_of d2 "time".
Proof.
  intros A B H N. destruct (rename_dataset_spec o raw d2 H) as (rho & (geo & time & var & Eq & G & T & V) & R). rewrite A in T. rewrite B in V. apply (proj1 (name_of_renamed _ _ _ R _)) in N. destruct N as (n & _ & E).
  rewrite Eq, V in E. destruct T as (T1 & T2 & T3). destruct (is_coord raw "prediction_timedelta") eqn:C; [apply is_coord_iff in C|apply is_coord_false in C].
  - destruct (T1 C) as [Ta Tb]. destruct (string_dec (geo n) "time") as [Et|Nt]; [rewrite Et, Ta in E; discriminate|]. destruct (string_dec (geo n) "prediction_timedelta") as [Ep|Np]; [rewrite Ep, Tb in E; discriminate|]. rewrite T3 in E; auto.
  - specialize (T2 C). destruct (string_dec (geo n) "time") as [Et|Nt]; [rewrite Et, T2 in E; discriminate|]. rewrite T3 in E; auto.
Qed.
(** With the default names, a preparation that fails after the renaming (a variable or a label is
    missing) raises KeyError once; every later call on the loader raises ValueError instead, because
    the renamed dataset is kept and renamed again. *)
Theorem C67_failed_preparation_hides_error : forall o cfg source_of raw d2 w r calls,
  o_preprocessing_fn o = None -> o_rename_dimensions o = Ecmwf -> o_rename_variables o = None ->
  rename_dataset raw (o_rename_dimensions o) (o_rename_variables o) (o_convert_lat_lon o) = Ok d2 ->
  (forall ds, ~ prepared_from o raw ds) ->
  run_loads o cfg source_of ((w, r) :: calls) (mkState (Some raw) false) = Err KeyError :: map (fun _ => Err ValueError) calls.
Proof.
  intros o cfg so raw d2 w r calls P A B R Np. destruct (prepared o raw) as [ds|e'] eqn:E; [exfalso; apply (Np ds), prepared_iff, E|].
  destruct (prepare_err_after o w raw d2 e' P R E) as (-> & d & Hd & Sub). cbn [run_loads]. unfold loader_load_chunk. rewrite Hd. f_equal.
  apply (run_failing o cfg so (fun d => ~ name_of d "time")).
  - intros w' x Nx. exists x. split; auto. unfold maybe_prepare_dataset. cbn [st_done st_ds and_then]. rewrite P. cbn [optional and_then assign st_ds]. rewrite A, no_time_err; auto.
  - pose proof (ecmwf_no_time o raw d2 A B R) as N2. destruct Sub as [->|(l & _ & Sl)]; auto. intros N. apply N2. apply (name_of_sub d2 d); auto. intros v a. apply (select_In _ _ _ _ _ Sl).
Qed.

(** Without renaming of dimensions or variables and without preprocessing, a failed preparation can
    be repeated: every call raises the same error. *)
Lemma idle_rename d : ~ (coordinate_of d "lat" /\ coordinate_of d "lon") -> forall c, rename_dataset d RenameNone None c = Ok d.
Proof.
  intros N c. unfold rename_dataset. destruct (is_coord d "lat" && is_coord d "lon") eqn:E; [|rewrite andb_false_r; reflexivity].
  exfalso. apply N. apply andb_true_iff in E. rewrite !is_coord_iff in E. exact E.
Qed.
Lemma rename_idle raw c d2 : rename_dataset raw RenameNone None c = Ok d2 -> (forall d, (forall n, coordinate_of d n -> coordinate_of d2 n) -> rename_dataset d RenameNone None c = Ok d).
Proof.
  unfold rename_dataset at 1. destruct c; cbn [andb]; [|intros _ d _; reflexivity]. destruct (is_coord raw "lat" && is_coord raw "lon") eqn:E; intros H d S.
  - destruct (rename_ds [("lat", "latitude"); ("lon", "longitude")] raw) as [d1|] eqn:E1; [|discriminate]. cbn [bind] in H. injection H as ->. apply idle_rename. intros [C _]. apply S in C. apply rename_ds_spec in E1. destruct E1 as [_ R1].
    apply (proj1 (coord_of_renamed _ _ _ R1 _)) in C. destruct C as (n & _ & En). revert En. unfold new_name. cbn [dget]. destruct (eq_dec n "lat"); [discriminate|]. destruct (eq_dec n "lon"); [discriminate|]. congruence.
  - cbn [bind] in H. injection H as ->. apply idle_rename. intros [C1 C2]. apply S in C1, C2. apply is_coord_iff in C1, C2. rewrite C1, C2 in E. discriminate.
Qed.
Lemma mapM_self (l : list string) : forall (d3 : vars da), (forall v, In v l -> exists a, dget d3 v = Some a) -> forall out, keys out = l -> (forall v a, In (v, a) out -> dget d3 v = Some a) ->
  mapM (fun v => do a <- dgetE d3 v; Ok (v, a)) l = Ok out.
Proof.
  induction l as [|v l IH]; intros d3 H out K S.
  - destruct out; [reflexivity|discriminate].
  - destruct out as [|[k a] out]; [discriminate|]. change (k :: keys out = v :: l) in K. injection K as -> K. cbn [mapM]. unfold dgetE at 1. rewrite (S v a (or_introl eq_refl)). cbn [bind]. rewrite (IH d3) with (out := out); auto.
    + intros u I. apply H. right. auto.
    + intros u x I. apply S. right. auto.
Qed.
Lemma select_again l d2 d3 : select_variables l d2 = Ok d3 -> select_variables l d3 = Ok d3.
Proof.
  intros H. destruct (select_variables_spec _ _ _ H) as [K S]. unfold select_variables. apply mapM_self; auto.
  - intros v I. rewrite <- K in I. apply keys_dget, I.
  - intros v a I. apply In_dget; auto. rewrite K. apply NoDup_nodup.
Qed.
Theorem C67_retry_same_error : forall o cfg source_of raw calls e,
  o_preprocessing_fn o = None -> o_rename_dimensions o = RenameNone -> o_rename_variables o = None ->
  prepared o raw = Err e ->
  run_loads o cfg source_of calls (mkState (Some raw) false) = map (fun _ => Err e) calls.
Proof.
  intros o cfg so raw calls e P A B H. apply (run_failing o cfg so (fun d => prepared o d = Err e)); auto. clear raw H. intros w d H. unfold prepared in *. rewrite P, A, B in *. cbn [bind] in *.
  destruct (rename_dataset d RenameNone None (o_convert_lat_lon o)) as [d2|e2] eqn:R.
  2: { cbn [bind] in H. injection H as <-. exists d. unfold maybe_prepare_dataset. cbn [st_done st_ds and_then]. rewrite P, A, B. cbn [optional and_then assign st_ds]. rewrite R. split; reflexivity. }
  cbn [bind] in H. pose proof (rename_idle _ _ _ R) as Id. unfold maybe_prepare_dataset. cbn [st_done st_ds and_then]. rewrite P, A, B. cbn [optional and_then assign st_ds]. rewrite R. cbn [and_then].
  destruct (o_variables o) as [l|]; cbn [optional assign st_ds st_done and_then].
  - destruct (select_variables l d2) as [d3|e3] eqn:E3; cbn [bind and_then] in *.
    + destruct (o_sel_kwargs o) as [kw|]; [|discriminate]. cbn [optional assign st_ds st_done]. rewrite H. exists d3. split; [reflexivity|]. rewrite Id; [cbn [bind]; rewrite (select_again _ _ _ E3); exact H|].
      intros n (v & a & I & J). exists v, a. split; auto. apply (select_In _ _ _ _ _ E3 I).
    + injection H as <-. exists d2. split; [reflexivity|]. rewrite Id; auto. cbn [bind]. rewrite E3. reflexivity.
  - cbn [bind] in H. destruct (o_sel_kwargs o) as [kw|]; [|discriminate]. cbn [optional assign st_ds st_done and_then]. rewrite H. exists d2. split; [reflexivity|]. rewrite Id; auto.
Qed.

(** In general a failed call is not without effect: here the first call fails, and a second, equal
    call succeeds with data that are not a preparation of the given dataset (they were preprocessed
    twice). *)
Definition shift_day (ds : vars da) : result (vars da) :=
  mapM (fun kv => do a <- shift_coord "valid_time" 1 (snd kv); Ok (fst kv, a)) ds.
Definition one_day : vars da := [("t", mkDa [("valid_time", [LZ 0])] (fun _ => Fin 1) [])].
Definition retry_options : loader_options := mkOptions None None (Some [("valid_time", IxList [LZ 2])]) RenameNone true None (Some shift_day).
Theorem C67_failed_call_has_no_effect_refuted : exists o cfg source_of raw w r out,
  run_loads o cfg source_of [(w, r); (w, r)] (mkState (Some raw) false) = [Err KeyError; Ok out] /\ (forall ds, ~ prepared_from o raw ds).
Proof.
  exists retry_options, no_stages, (fun ds _ _ => Ok ds), one_day, (mkFiles (fun _ => Err FileNotFoundError) (fun _ => Err FileNotFoundError)), (mkRequest [] None None).
  eexists. split; [reflexivity|]. intros ds H. apply prepared_iff in H. discriminate.
Qed.

(** ** Latency wrappers *)
(** Calls on the latency wrapper, on the loader it wraps, and for available times, in any order, are
    all answered from the dataset prepared once, with the init times of that dataset. *)
Definition wrapper_of (cfg : loader_config) (source_of : vars da -> source) (wo : wrapper_options) (ds : vars da) : wrapped_loader :=
  XarrayConstantLatencyWrapper (wo_latency wo) (wo_init_dim wo) (wo_concat_dim wo) ds (source_of ds) cfg.
Definition answered (cfg : loader_config) (source_of : vars da -> source) (wo : wrapper_options) (ds : vars da) (c : call) : answer :=
  let wl := wrapper_of cfg source_of wo ds in
  match c with
  | CallWrapper r => Chunk (wrapped_load_chunk wl (r_inits r) (r_leads r) (r_reference r))
  | CallLoader r => Chunk (load_from cfg (source_of ds) r)
  | CallAvailable t => Time (get_available_init_time (wl_nominal wl) (wl_latency wl) t)
  end.
Theorem C67_latency_history : forall o cfg source_of wo given s w c after raw ds,
  init_loader (o_path o) given = Ok s -> reading o given w = Ok raw -> prepared_from o raw ds -> dataset_dim ds (wo_init_dim wo) ->
  run_calls o cfg source_of wo ((w, c) :: after) (mkWState s None) = map (fun wc => answered cfg source_of wo ds (snd wc)) ((w, c) :: after).
Proof.
  intros o cfg so wo given s w c after raw ds I Rd P Dd. apply prepared_iff in P. destruct (init_loader_ok _ _ _ I) as (-> & _).
  assert (maybe_prepare_dataset o w (mkState given false) = (mkState (Some ds) true, Ok tt)) as E.
  { destruct given as [d|]; [injection Rd as ->; apply prepare_ok, P|]. rewrite (prepare_read _ _ _ Rd). apply prepare_ok, P. }
  assert (nominal_times (wo_init_dim wo) ds = Ok (wl_nominal (wrapper_of cfg so wo ds))) as Nt.
  { unfold nominal_times, wrapper_of, XarrayConstantLatencyWrapper. cbn [wl_nominal]. destruct (find _ ds) as [kv|] eqn:F; [reflexivity|]. exfalso. destruct Dd as (v & a & Ia & Id). pose proof (find_none _ _ F _ Ia) as Q. cbn [snd] in Q. apply memb_false in Q. contradiction. }
  set (ts := wl_nominal (wrapper_of cfg so wo ds)) in *.
  (* a state in which the dataset is prepared answers, and stays so *)
  assert (forall w' c' n, n = None \/ n = Some ts -> exists n', (n' = None \/ n' = Some ts) /\
     run_call o cfg so wo w' c' (mkWState (mkState (Some ds) true) n) = (mkWState (mkState (Some ds) true) n', answered cfg so wo ds c')) as Done.
  { intros w' c' n Hn. destruct c' as [r|r|t]; cbn [run_call].
    - unfold wrapper_load_chunk, maybe_set_nominal_init_times. cbn [ws_nominal ws_loader]. exists (Some ts). split; [right; reflexivity|]. destruct Hn as [->| ->].
      + rewrite prepare_done. cbn [st_ds]. rewrite Nt. cbn [ws_loader ws_nominal]. rewrite prepare_done. reflexivity.
      + cbn [ws_loader ws_nominal]. rewrite prepare_done. reflexivity.
    - exists n. split; [exact Hn|]. unfold loader_load_chunk. cbn [ws_loader ws_nominal]. rewrite prepare_done. reflexivity.
    - unfold wrapper_available, maybe_set_nominal_init_times. cbn [ws_nominal ws_loader]. exists (Some ts). split; [right; reflexivity|]. destruct Hn as [->| ->]; [rewrite prepare_done; cbn [st_ds]; rewrite Nt|]; reflexivity. }
  assert (exists n', (n' = None \/ n' = Some ts) /\ run_call o cfg so wo w c (mkWState (mkState given false) None) = (mkWState (mkState (Some ds) true) n', answered cfg so wo ds c)) as (n1 & Hn1 & First).
  { destruct c as [r|r|t]; cbn [run_call].
    - unfold wrapper_load_chunk, maybe_set_nominal_init_times. cbn [ws_nominal ws_loader]. exists (Some ts). split; [right; reflexivity|]. rewrite E. cbn [st_ds]. rewrite Nt. cbn [ws_loader ws_nominal]. rewrite prepare_done. reflexivity.
    - exists None. split; [left; reflexivity|]. unfold loader_load_chunk. cbn [ws_loader ws_nominal]. rewrite E. reflexivity.
    - unfold wrapper_available, maybe_set_nominal_init_times. cbn [ws_nominal ws_loader]. exists (Some ts). split; [right; reflexivity|]. rewrite E. cbn [st_ds]. rewrite Nt. reflexivity. }
  cbn [run_calls map snd]. rewrite First. f_equal. clear First. revert n1 Hn1. induction after as [|[w' c'] after IH]; intros n Hn; [reflexivity|]. cbn [run_calls map snd]. destruct (Done w' c' n Hn) as (n' & Hn' & ->). f_equal. apply IH, Hn'.
Qed.

(** ** Examples *)
Definition no_files : files := mkFiles (fun _ => Err FileNotFoundError) (fun _ => Err FileNotFoundError).
Definition grid4 : dimlist := [("time", [LZ 0; LZ 12]); ("prediction_timedelta", [LZ 6; LZ 12]); ("lat", [LZ 1; LZ 2]); ("lon", [LZ 3])].
Definition forecast_file : vars da :=
  [("2t", mkDa grid4 (fun e => Fin (IZR (time_value (e "time") * 100 + time_value (e "prediction_timedelta") * 10 + time_value (e "lat")))) [])].
Example forecast_file_dataset : dataset forecast_file.
Proof.
  split; [repeat constructor; intros []|]. intros v a [[= <- <-]|[]]. split; [|split].
  - repeat (constructor; [cbn; intuition discriminate|]). constructor.
  - intros d ls I. repeat (destruct I as [[= <- <-]|I]; [repeat (constructor; [cbn; intuition discriminate|]); constructor|]). destruct I.
  - intros e e' H. cbn [get]. rewrite !(H _); [reflexivity| | |]; cbn; tauto.
Qed.
(** The hypotheses of [C67_ecmwf_forecast] hold for a real call, and its value is the file's. *)
Example forecast_loaded : exists s out b,
  loader_load_chunk default_options no_stages PredictionsFromXarray no_files (mkRequest [12] (Some (ChunkArr [6; 12])) None) (mkState (Some forecast_file) false) = (s, Ok out) /\
  st_done s = true /\ dget out "2t" = Some b /\ map fst (dims b) = ["init_time"; "lead_time"; "latitude"; "longitude"] /\
  forall e, e "init_time" = LZ 12 -> e "lead_time" = LZ 6 -> e "latitude" = LZ 2 -> get b e = Fin 1262.
Proof.
  eexists. eexists. eexists. split; [reflexivity|]. split; [reflexivity|]. split; [reflexivity|]. split; [reflexivity|]. intros e A B C. cbn. rewrite A, B, C. reflexivity.
Qed.
Definition analysis_file : vars da :=
  [("2t", mkDa [("time", [LZ 6; LZ 12]); ("lat", [LZ 1]); ("lon", [LZ 3])] (fun e => Fin (IZR (time_value (e "time")))) [])].
Example analysis_loaded : exists s out b,
  loader_load_chunk default_options no_stages TargetsFromXarray no_files (mkRequest [0; 6] (Some (ChunkArr [6])) None) (mkState (Some analysis_file) false) = (s, Ok out) /\
  dget out "2t" = Some b /\ forall e, e "init_time" = LZ 6 -> e "lead_time" = LZ 6 -> get b e = Fin 12.
Proof. eexists. eexists. eexists. split; [reflexivity|]. split; [reflexivity|]. intros e A B. cbn. unfold valid_time. rewrite A, B. reflexivity. Qed.
(** Two calls, the file having changed in between, and a first call before it existed. *)
Definition path_options : loader_options := mkOptions (Some "gs://bucket/a.zarr//") None (Some [("latitude", IxLabel (LZ 2)); ("lead_time", IxSlice (LZ 0) (LZ 6))]) Ecmwf true (Some [("2t", "t2m")]) None.
Definition with_zarr (d : vars da) : files := mkFiles (fun _ => Ok d) (fun _ => Err ValueError).
Example loaded_from_first_version : forall r1 r2 r3, exists s ds,
  init_loader (o_path path_options) None = Ok s /\ prepared_from path_options forecast_file ds /\ keys ds = ["t2m"] /\
  run_loads path_options no_stages PredictionsFromXarray [(no_files, r1); (with_zarr forecast_file, r2); (with_zarr [], r3)] s =
    [Err FileNotFoundError; load_from no_stages (PredictionsFromXarray ds) r2; load_from no_stages (PredictionsFromXarray ds) r3].
Proof.
  intros r1 r2 r3. eexists. eexists. split; [reflexivity|]. split; [apply prepared_iff; reflexivity|]. split; [reflexivity|].
  apply (C67_prepared_once path_options no_stages PredictionsFromXarray None _ [(no_files, r1)] (with_zarr forecast_file) r2 [(with_zarr [], r3)] forecast_file).
  - reflexivity.
  - intros w' r' [[= <- <-]|[]]. eexists. reflexivity.
  - reflexivity.
  - apply prepared_iff. reflexivity.
Qed.
(** A missing variable: KeyError, then ValueError for ever. *)
Example missing_variable : let o := mkOptions None (Some ["msl"]) None Ecmwf true None None in forall w r,
  run_loads o no_stages PredictionsFromXarray [(w, r); (w, r); (w, r)] (mkState (Some forecast_file) false) = [Err KeyError; Err ValueError; Err ValueError].
Proof.
  intros o w r. eapply (C67_failed_preparation_hides_error o no_stages PredictionsFromXarray forecast_file _ w r [(w, r); (w, r)]); try reflexivity. intros ds H. apply prepared_iff in H. discriminate.
Qed.
(** The same without renaming: KeyError every time. *)
Example missing_variable_repeated : let o := mkOptions None (Some ["msl"]) None RenameNone true None None in forall w r,
  run_loads o no_stages PredictionsFromXarray [(w, r); (w, r); (w, r)] (mkState (Some forecast_file) false) = [Err KeyError; Err KeyError; Err KeyError].
Proof. intros o w r. apply (C67_retry_same_error o no_stages PredictionsFromXarray forecast_file [(w, r); (w, r); (w, r)] KeyError); reflexivity. Qed.
(** A latency wrapper with a latency of 5: at time 16 the run of 0 is the latest, at 17 the one of 12. *)
Example latency_calls : forall r, let wo := mkWOptions 5 "init_time" "init_time" in exists ds,
  prepared_from default_options forecast_file ds /\
  run_calls default_options no_stages PredictionsFromXarray wo [(no_files, CallAvailable 16); (no_files, CallLoader r); (no_files, CallAvailable 17)] (mkWState (mkState (Some forecast_file) false) None) =
    [Time (Ok 0); Chunk (load_from no_stages (PredictionsFromXarray ds) r); Time (Ok 12)].
Proof.
  intros r wo. eexists. split; [apply prepared_iff; reflexivity|].
  rewrite (C67_latency_history default_options no_stages PredictionsFromXarray wo (Some forecast_file) _ no_files (CallAvailable 16) _ forecast_file _ eq_refl eq_refl (proj2 (prepared_iff default_options forecast_file _) eq_refl)); [reflexivity|].
  eexists. eexists. split; [left; reflexivity|]. cbn. tauto.
Qed.

Print Assumptions C67_one_source.
Print Assumptions C67_zarr_by_name.
Print Assumptions C67_prepared_values.
Print Assumptions C67_prepared_once.
Print Assumptions C67_ecmwf_forecast.
Print Assumptions C67_ecmwf_analysis.
Print Assumptions C67_failed_preparation_hides_error.
Print Assumptions C67_retry_same_error.
Print Assumptions C67_failed_call_has_no_effect_refuted.
Print Assumptions C67_latency_history.
