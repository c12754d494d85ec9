(** C71: what a run of the benchmark script evaluates and where it writes. *)
From Coq Require Import String Ascii ZArith Lia List Bool Sorting.Sorted Permutation.
Import ListNotations.
From Verif Require Import Prelude Values Model_XArray Spec_XArray Model_MetricsBase Model_Calendar Model_TimeChunks Model_Loaders Model_Prepare Model_Select
  Model_Combine Model_Benchmark Spec_Calendar Spec_TimeChunks Spec_Loaders Spec_Benchmark Spec_Combine Proofs_Calendar Proofs_Calendar2 Proofs_Benchmark Proofs_Benchmark2
  Props_TimeChunks Props_Loaders Props_Combine Proofs_Select.
Local Open Scope Z_scope.
Local Open Scope string_scope.
Local Open Scope list_scope.

(** ** Times *)
(** With the default window of a year: exactly the documented initialisation times, in order. *)
Theorem C71_init_times datetime64 f y : f_time_start f = None -> f_time_stop f = None -> f_time_frequency f = None -> four_digits (f_year f) y ->
  exists ts, init_times datetime64 f = Ok (ts, f_year f) /\ StronglySorted Z.lt ts /\ forall t, In t ts <-> evaluated_init (f_prediction f) y t.
Proof.
  intros H1 H2 H3 Hy. destruct (init_window datetime64 f y (conj H1 H2) H3 Hy) as (a & b & ts & E & Ev & Ea & Eb). exists ts. split; [exact E|]. split; [apply (every_sorted _ _ _ _ (spacing_pos _) Ev)|].
  apply (init_members _ _ _ _ _ Ev Ea Eb).
Qed.
(** In 2022, and for fuxi and excarta, forecasts of up to 15 days are verified within the year. *)
Theorem C71_valid_times prediction y t lead : y = 2022 \/ prediction = "fuxi" \/ prediction = "excarta" ->
  evaluated_init prediction y t -> 0 <= lead <= days 15 -> in_year y 0 0 (t + lead).
Proof.
  intros H [(d0 & d1 & J0 & J1 & B) _] L. exists d0, d1. split; [exact J0|]. split; [exact J1|].
  assert (early_end prediction y = days 16) as E. { unfold early_end. destruct H as [->|[->| ->]]; [reflexivity| |]; rewrite ?orb_true_r; reflexivity. }
  assert (0 <= late_start prediction y) by (unfold late_start, hours; destruct (_ && _); lia). rewrite E in B. unfold days, hours in *. lia.
Qed.
(** With an own window: from the start on, before the stop. *)
Theorem C71_own_window datetime64 f a b ta tb ts s : f_time_start f = Some a -> f_time_stop f = Some b -> datetime64 a = Ok ta -> datetime64 b = Ok tb ->
  let step := match f_time_frequency f with Some n => hours n | None => spacing (f_prediction f) end in
  0 < step -> init_times datetime64 f = Ok (ts, s) -> every ta tb step ts /\ s = (a ++ "_" ++ b)%string.
Proof.
  intros H1 H2 Ea Eb step Hs H. unfold init_times, window in H. rewrite H1, H2, Ea in H. cbn [bind] in H. rewrite Eb in H. cbn [bind] in H.
  assert (frequency f = step) as Ef by (unfold frequency, step, spacing, hours, ns_hour; destruct (f_time_frequency f); [reflexivity|]; destruct (String.eqb _ _); reflexivity). rewrite Ef in H.
  destruct (arange ta tb step) as [l|] eqn:E; [|discriminate]. cbn [bind] in H. injection H as <- <-. split; [apply (arange_every _ _ _ _ Hs E)|reflexivity].
Qed.
(** Lead times: every 6 hours up to 15 days for the baselines, else those of the forecast file; with
    own limits from the start on, before the stop. *)
Theorem C71_lead_times f file_leads ls : lead_times f file_leads = Ok ls -> 0 < f_lead_frequency f ->
  (exists a b, f_lead_start f = Some a /\ f_lead_stop f = Some b /\ every (hours a) (hours b) (hours (f_lead_frequency f)) ls)
  \/ (f_lead_start f = None /\ f_lead_stop f = None /\
      ((In (f_prediction f) ["persistence"; "climatology"; "probabilistic_climatology"] /\ every 0 (hours 361) (hours 6) ls)
       \/ (~ In (f_prediction f) ["persistence"; "climatology"; "probabilistic_climatology"] /\ file_leads = Ok ls))).
Proof.
  intros H Hf. unfold lead_times in H. destruct (f_lead_start f) as [a|], (f_lead_stop f) as [b|]; try discriminate.
  - left. exists a, b. split; [reflexivity|]. split; [reflexivity|]. apply arange_every; [unfold hours; lia|exact H].
  - right. split; [reflexivity|]. split; [reflexivity|]. destruct (memb (f_prediction f) _) eqn:E.
    + left. split; [apply memb_In, E|]. apply arange_every in H; [|reflexivity]. change (6 * ns_hour) with (hours 6) in H. intros k t. rewrite (H k t). unfold hours. split; intros [A B]; (split; [exact A|]); rewrite A in B |- *; clear A H; change ns_hour with 3600000000000 in *; lia.
    + right. split; [apply memb_false, E|exact H].
Qed.
(** A start without a stop, or the other way round, is refused. *)
Theorem C71_both_or_neither datetime64 cs f leads p : run datetime64 cs f leads = Ok p ->
  (f_time_start f = None <-> f_time_stop f = None) /\ (f_lead_start f = None <-> f_lead_stop f = None).
Proof.
  intros H. apply run_inv in H. destruct H as (pc & tc & cc & it & ls & times & ec & _ & _ & _ & E4 & E5 & _). split.
  - unfold init_times, window in E4. destruct (f_time_start f), (f_time_stop f); try discriminate; split; congruence.
  - unfold lead_times in E5. destruct (f_lead_start f), (f_lead_stop f); try discriminate; split; congruence.
Qed.
(** Every pair of an initialisation and a lead time is in exactly one chunk. *)
Theorem C71_all_pairs datetime64 cs f leads p : run datetime64 cs f leads = Ok p ->
  exists ts s ls, init_times datetime64 f = Ok (ts, s) /\ lead_times f leads = Ok ls /\
    Permutation (flat_map (fun c => list_prod (fst c) (match snd c with ChunkArr l => l | ChunkSlice _ _ => [] end)) (tc_iter (p_times p))) (list_prod ts ls).
Proof.
  intros H. apply run_inv in H. destruct H as (pc & tc & cc & it & ls & times & ec & _ & _ & _ & E4 & E5 & E6 & _ & ->). exists (fst it), (snd it), ls. split; [rewrite <- surjective_pairing; exact E4|]. split; [exact E5|].
  destruct (C01_chunks_partition_pairs _ _ _ _ _ E6) as (ics & lcs & _ & _ & _ & Pm). exact Pm.
Qed.

(** ... of at most the sizes asked for. *)
Theorem C71_chunk_sizes datetime64 cs f leads p : run datetime64 cs f leads = Ok p -> 0 < f_init_chunk f -> 0 < f_lead_chunk f ->
  forall inits lead, In (inits, lead) (tc_iter (p_times p)) ->
    Z.of_nat (length inits) <= f_init_chunk f /\ exists ls, lead = ChunkArr ls /\ Z.of_nat (length ls) <= f_lead_chunk f.
Proof.
  intros H H1 H2 inits lead I. apply run_inv in H. destruct H as (pc & tc & cc & it & ls & times & ec & _ & _ & _ & E4 & E5 & E6 & _ & ->). cbn [p_times] in I.
  destruct (C01_chunks_partition_pairs _ _ _ _ _ E6) as (ics & lcs & Ei & (_ & P1 & _) & (_ & P2 & _) & _). rewrite Ei in I. apply in_prod_iff in I. destruct I as [I1 I2]. apply in_map_iff in I2. destruct I2 as (l & <- & I2).
  rewrite Forall_forall in P1, P2. specialize (P1 _ I1). specialize (P2 _ I2). destruct (f_init_chunk f); try lia. destruct (f_lead_chunk f); try lia. split; [lia|]. exists l. split; [reflexivity|lia].
Qed.
(** The results are averaged over latitude and longitude and, unless a time series is asked for, over the initialisation
    times; missing values are skipped for keisler only; the levels are the prediction's own or 500, 700 and 850. *)
Theorem C71_settings datetime64 cs f leads p : run datetime64 cs f leads = Ok p ->
  (forall d, In d (p_reduce_dims p) <-> d = "latitude" \/ d = "longitude" \/ (d = "init_time" /\ f_temporal f = false)) /\
  (p_skipna p = true <-> f_prediction f = "keisler") /\
  exists pc, prediction_config cs f = Ok pc /\
    (forall l, c_levels (fst pc) = Some l -> p_levels p = l) /\ (c_levels (fst pc) = None -> p_levels p = [500; 700; 850]).
Proof.
  intros H. apply run_inv in H. destruct H as (pc & tc & cc & it & ls & times & ec & E1 & _ & _ & _ & _ & _ & _ & ->). cbn [p_reduce_dims p_skipna p_levels]. split; [|split].
  - intros d. destruct (f_temporal f); cbn [In]; intuition congruence.
  - apply String.eqb_eq.
  - exists pc. split; [exact E1|]. destruct (c_levels (fst pc)); split; try discriminate; [intros l0 [= <-]|]; reflexivity.
Qed.

(** ** Files *)
Lemma default_str datetime64 f ts s : f_time_start f = None -> f_time_stop f = None -> init_times datetime64 f = Ok (ts, s) -> s = f_year f.
Proof.
  intros H1 H2 E. unfold init_times, window in E. rewrite H1, H2 in E. destruct (year_number (f_year f)); [|discriminate]. cbn [bind] in E.
  destruct (_ || _); [|destruct (String.eqb (f_year f) "2020" && _)]; cbn [bind] in E; match type of E with bind ?x _ = _ => destruct x end; try discriminate; injection E as <- <-; reflexivity.
Qed.
(** The file a run over a year writes is the one combine_results reads for it; the variables are
    those both sides have. *)
Theorem C71_file datetime64 cs f leads p : run datetime64 cs f leads = Ok p -> f_time_start f = None -> f_temporal f = false ->
  p_file p = file_of (f_prediction f ++ "_vs_" ++ f_target f) (f_year f) (f_resolution f).
Proof.
  intros H Hs Ht. destruct (C71_both_or_neither _ _ _ _ _ H) as [[B _] _]. specialize (B Hs). apply run_inv in H. destruct H as (pc & tc & cc & it & ls & times & ec & _ & _ & _ & E4 & _ & _ & _ & ->). cbn [p_file].
  assert (snd it = f_year f) as -> by (apply (default_str datetime64 f (fst it)); [exact Hs|exact B|rewrite <- surjective_pairing; exact E4]).
  unfold out_file, file_of. rewrite Ht. cbn [append]. rewrite !append_assoc_s. reflexivity.
Qed.
Theorem C71_variables datetime64 cs f leads p : run datetime64 cs f leads = Ok p ->
  exists pc tc, prediction_config cs f = Ok pc /\ dget (target cs) (f_target f ++ "_" ++ f_resolution f)%string = Some tc /\
    p_path p = c_path (fst pc) /\ p_target_path p = c_path tc /\ NoDup (p_variables p) /\ forall v, In v (p_variables p) <-> In v (c_variables (fst pc)) /\ In v (c_variables tc).
Proof.
  intros H. apply run_inv in H. destruct H as (pc & tc & cc & it & ls & times & ec & E1 & E2 & _ & _ & _ & _ & _ & ->). exists pc, tc. split; [exact E1|]. split; [unfold dgetE in E2; destruct (dget _ _); [congruence|discriminate]|].
  cbn [p_path p_target_path p_variables]. split; [reflexivity|]. split; [reflexivity|]. unfold intersect. split; [apply NoDup_nodup|]. intros v. rewrite nodup_In, filter_In, memb_In. reflexivity.
Qed.

(** ** The public configurations *)
Definition run_name (x : string * string * string * string) (temporal : bool) : string :=
  match x with (p, t, r, y) => (p ++ "_vs_" ++ t ++ "_" ++ r ++ "_" ++ y ++ (if temporal then "_temporal" else "") ++ ".nc")%string end.
Definition run_names : list string := map (fun xb => run_name (fst xb) (snd xb)) (list_prod admitted_list [false; true]).
Lemma run_names_NoDup : NoDup run_names.
Proof. apply Proofs_Combine2.nodups_NoDup. vm_compute. reflexivity. Qed.
Lemma run_file datetime64 f leads p : run datetime64 pub f leads = Ok p -> f_time_start f = None ->
  p_file p = run_name (f_prediction f, f_target f, f_resolution f, f_year f) (f_temporal f).
Proof.
  intros H Hs. destruct (C71_both_or_neither _ _ _ _ _ H) as [[B _] _]. specialize (B Hs). apply run_inv in H. destruct H as (pc & tc & cc & [ts s] & ls & times & ec & _ & _ & _ & E4 & _ & _ & _ & ->). cbn [p_file snd].
  rewrite (default_str _ _ _ _ Hs B E4). reflexivity.
Qed.
(** No two runs over a year write the same file. *)
Theorem C71_distinct_files datetime64 cs f f' leads leads' p p' : public_configs = Ok cs ->
  run datetime64 cs f leads = Ok p -> run datetime64 cs f' leads' = Ok p' -> f_time_start f = None -> f_time_start f' = None -> p_file p = p_file p' ->
  f_prediction f = f_prediction f' /\ f_target f = f_target f' /\ f_resolution f = f_resolution f' /\ f_year f = f_year f' /\ f_temporal f = f_temporal f'.
Proof.
  intros Hc H H' Hs Hs' E. rewrite public_is in Hc. injection Hc as <-. rewrite (run_file _ _ _ _ H Hs), (run_file _ _ _ _ H' Hs') in E. apply run_admitted in H, H'.
  assert (forall (x : string * string * string * string) b, In x admitted_list -> In (x, b) (list_prod admitted_list [false; true])) as Q by (intros x b I; apply in_prod; [exact I|destruct b; cbn; auto]).
  pose proof (Proofs_Prepare.NoDup_map_inj _ _ run_names_NoDup (_, f_temporal f) (_, f_temporal f') (Q _ _ H) (Q _ _ H') E) as K. injection K as -> -> -> -> ->. auto 10.
Qed.
(** A run is read in the mode of combine_results that knows its metrics. *)
Definition mode_of (x : string * string * string * string) : option bool :=
  match x with (p, t, r, y) =>
    let f := mkFlags p t r y None None None None None 6 1 12 false in
    match prediction_config pub f with Ok pc => Some (snd pc) | Err _ => None end end.
Definition listed (m : mode) (s : string) : bool := memb s (map fst (displayed_systems m)).
Lemma modes_agree : forallb (fun x => match x with (p, t, r, y) =>
    let s := (p ++ "_vs_" ++ t)%string in
    match mode_of x with
    | Some true => negb (listed Deterministic s) | Some false => negb (listed Probabilistic s) | None => true end end) admitted_list = true.
Proof. vm_compute. reflexivity. Qed.
Lemma config_vars : forallb (fun kc => forallb (fun v => memb v config_variables) (c_variables (snd kc))) (target pub) = true.
Proof. vm_compute. reflexivity. Qed.
Lemma prediction_config_flags cs f f' : f_prediction f = f_prediction f' -> f_resolution f = f_resolution f' -> f_year f = f_year f' -> prediction_config cs f = prediction_config cs f'.
Proof. intros A B C. unfold prediction_config. rewrite A, B, C. reflexivity. Qed.
Lemma run_mode datetime64 f leads p m M : run datetime64 pub f leads = Ok p -> shown_model m (f_prediction f ++ "_vs_" ++ f_target f)%string M -> p_probabilistic p = probabilistic m.
Proof.
  intros H HM. pose proof (run_admitted _ _ _ _ H) as Ha. apply run_inv in H. destruct H as (pc & tc & cc & it & ls & times & ec & E1 & _ & _ & _ & _ & _ & _ & ->). cbn [p_probabilistic].
  pose proof modes_agree as C. rewrite forallb_forall in C. specialize (C _ Ha). cbv beta iota zeta in C. unfold mode_of in C. cbv zeta in C.
  rewrite (prediction_config_flags pub _ f) in C by reflexivity. rewrite E1 in C.
  assert (listed m (f_prediction f ++ "_vs_" ++ f_target f)%string = true) as L. { unfold listed. apply memb_In, in_map_iff. exists ((f_prediction f ++ "_vs_" ++ f_target f)%string, M). split; [reflexivity|exact HM]. }
  destruct (snd pc), m; try reflexivity; rewrite L in C; discriminate.
Qed.
Theorem C71_mode datetime64 cs f leads p m M : public_configs = Ok cs -> run datetime64 cs f leads = Ok p ->
  shown_model m (f_prediction f ++ "_vs_" ++ f_target f)%string M ->
  p_probabilistic p = probabilistic m /\
  forall ds : vars da, ds <> [] -> NoDup (keys ds) ->
    (forall n, In n (keys ds) -> exists k vs v, In (k, vs) (p_metrics p) /\ In v vs /\ n = (k ++ "." ++ v)%string) ->
    (forall n a, dget ds n = Some a -> wf a /\ In "region" (dnames a) /\ (forall l, In l (labels_of (dims a) "region") -> In l region_labels)
       /\ forall d, In d (dnames a) -> In d ["region"; "lead_time"; "level"; "init_time"]) ->
    result_dataset m ds.
Proof.
  intros Hc H HM. rewrite public_is in Hc. injection Hc as <-. pose proof (run_mode _ _ _ _ _ _ H HM) as E. split; [exact E|]. intros ds Hne N Hn Ha.
  apply (C70_benchmark_files m (p_variables p)); auto.
  - destruct (C71_variables _ _ _ _ _ H) as (pc & tc & _ & G & _ & _ & _ & Hv). intros v Iv. apply Hv in Iv. destruct Iv as [_ Iv]. pose proof config_vars as C. rewrite forallb_forall in C. specialize (C _ (dget_In _ _ G)). cbn [snd] in C. rewrite forallb_forall in C. apply memb_In, C, Iv.
  - intros n I. destruct (Hn n I) as (k & vs & v & Ik & Iv & ->). assert (p_metrics p = all_metrics (p_probabilistic p) (p_variables p)) as Em by (apply run_inv in H; destruct H as (pc & tc & cc & it & ls & times & ec & _ & _ & _ & _ & _ & _ & _ & ->); reflexivity).
    rewrite Em, E in Ik. unfold result_names. apply in_flat_map. exists (k, vs). split; [exact Ik|]. cbn [fst snd]. apply in_map_iff. exists v. auto.
Qed.

(** ** A run meets the hypotheses *)
Definition no_datetime (s : string) : result Z := Err ValueError.
Definition hres_2020 : flags := mkFlags "hres" "era5" "64x32" "2020" None None None None None 6 1 12 false.
Example C71_year : four_digits "2020" 2020.
Proof. exists 2%nat, 0%nat, 2%nat, 0%nat. repeat split; lia. Qed.
Example C71_a_run : exists cs p, public_configs = Ok cs /\ run no_datetime cs hres_2020 (Ok (map hours [0; 6; 12])) = Ok p /\
  p_file p = "hres_vs_era5_64x32_2020.nc" /\ p_probabilistic p = false /\ p_levels p = [500; 700; 850] /\ length (tc_iter (p_times p)) = 732%nat /\
  In "2m_temperature" (p_variables p) /\ shown_model Deterministic (f_prediction hres_2020 ++ "_vs_" ++ f_target hres_2020)%string "IFS HRES vs ERA5".
Proof.
  exists pub. assert (match run no_datetime pub hres_2020 (Ok (map hours [0; 6; 12])) with
    | Ok p => Some (p_file p, p_probabilistic p, p_levels p, length (tc_iter (p_times p)), memb "2m_temperature" (p_variables p)) | Err _ => None end
    = Some ("hres_vs_era5_64x32_2020.nc", false, [500; 700; 850], 732%nat, true)) as H by (vm_compute; reflexivity).
  destruct (run no_datetime pub hres_2020 _) as [p|]; [|discriminate]. exists p. injection H as H1 H2 H3 H4 H5. split; [apply public_is|]. split; [reflexivity|]. repeat (split; [assumption|]). split; [apply memb_In, H5|].
  apply memb_In. vm_compute. reflexivity.
Qed.
(** 2020 has 366 days with two forecasts each; the evaluation of 2022 stops after those of 15 December. *)
Example C71_times_of_2020 : evaluated_init "hres" 2020 (hours 12) -> False.
Proof. intros [(d0 & d1 & J0 & J1 & B) _]. apply jan1_start in J0, J1. subst d0 d1. vm_compute in B. destruct B as [B _]. apply B. reflexivity. Qed.
Example C71_last_of_2022 : evaluated_init "hres" 2022 (days 19341 + hours 12) /\ ~ evaluated_init "hres" 2022 (days 19342).
Proof.
  split.
  - split; [|exists (19341 * 2 + 1); reflexivity]. exists (year_start 2022), (year_start 2023). split; [apply start_jan1|]. split; [apply start_jan1|]. vm_compute. split; [discriminate|reflexivity].
  - intros [(d0 & d1 & J0 & J1 & B) _]. apply jan1_start in J0, J1. subst d0 d1. vm_compute in B. destruct B as [_ B]. discriminate.
Qed.

Print Assumptions C71_init_times.
Print Assumptions C71_valid_times.
Print Assumptions C71_own_window.
Print Assumptions C71_lead_times.
Print Assumptions C71_both_or_neither.
Print Assumptions C71_all_pairs.
Print Assumptions C71_chunk_sizes.
Print Assumptions C71_settings.
Print Assumptions C71_file.
Print Assumptions C71_variables.
Print Assumptions C71_distinct_files.
Print Assumptions C71_mode.
