(** C74: the example evaluation script, from stored forecasts and targets to the metrics file. *)
From Coq Require Import String Ascii ZArith QArith Qreals Reals List Bool DecimalString Decimal DecimalZ Permutation FunctionalExtensionality Lia Lra.
Import ListNotations.
From Verif Require Import Prelude Values Model_XArray Spec_XArray Proofs_XArray Model_Tree Model_MetricsBase Spec_Metrics Model_Calendar Model_TimeChunks Spec_TimeChunks Model_Deterministic Model_Aggregation
  Model_Beam Spec_Beam Spec_RoundTrip Model_BeamWrite Spec_BeamWrite Proofs_BeamWrite Proofs_BeamWrite6 Proofs_BeamWrite7 Proofs_Deterministic Model_AtomicWrite Props_AtomicWrite Props_BeamWrite
  Model_Loaders Proofs_Loaders Model_Prepare Spec_Prepare Proofs_Prepare Proofs_Prepare2 Model_Binning Spec_Binning Model_Weighting Spec_Weighting Proofs_Weighting Spec_EndToEnd Proofs_EndToEnd Proofs_EndToEnd2 Props_EndToEnd
  Model_Benchmark Spec_Benchmark Proofs_Benchmark Model_ExampleEvaluation Spec_ExampleEvaluation Proofs_ExampleEvaluation Proofs_ExampleEvaluation2 Proofs_ExampleEvaluation3 Proofs_ExampleEvaluation4 Proofs_ExampleEvaluation5.
Local Open Scope string_scope.
Local Open Scope list_scope.

Section Script.
  Variable datetime64 : string -> result Z.

  (** ** The times *)
  (** The initialisation times run from --time_start up to, not including, --time_stop, every
      --time_frequency hours. *)
  Theorem C74_init_times f ts : (0 < e_time_frequency f)%Z -> example_inits datetime64 f = Ok ts ->
    exists a b, datetime64 (e_time_start f) = Ok a /\ datetime64 (e_time_stop f) = Ok b /\ every a b (e_time_frequency f * ns_hour) ts.
  Proof.
    intros P H. unfold example_inits in H. destruct (datetime64 (e_time_start f)) as [a|]; [|discriminate]. cbn [bind] in H.
    destruct (datetime64 (e_time_stop f)) as [b|]; [|discriminate]. cbn [bind] in H. exists a, b. split; [reflexivity|]. split; [reflexivity|]. apply arange_every; [unfold ns_hour; lia|exact H].
  Qed.
  (** The lead times are the hours from --lead_time_start up to, not including, --lead_time_stop,
      every --lead_time_frequency hours. *)
  Theorem C74_lead_times f ls : (0 < e_lead_frequency f)%Z -> example_leads f = Ok ls ->
    every (e_lead_start f * ns_hour) (e_lead_stop f * ns_hour) (e_lead_frequency f * ns_hour) ls.
  Proof.
    intros P H. unfold example_leads in H. destruct (arange _ _ _) as [hs|] eqn:E; [|discriminate]. cbn [bind] in H. injection H as <-. apply arange_every in E; [|exact P].
    intros k t. rewrite nth_error_map. unfold every in E. destruct (nth_error hs k) as [h|] eqn:Eh; cbn [option_map].
    - apply E in Eh. destruct Eh as [-> L]. unfold ns_hour. split.
      + intros [= <-]. split; [ring|lia].
      + intros [-> _]. f_equal. ring.
    - split; [discriminate|]. intros [-> L]. assert (nth_error hs k = Some (e_lead_start f + Z.of_nat k * e_lead_frequency f)%Z) as C; [|congruence]. apply E. split; [reflexivity|]. unfold ns_hour in L. nia.
  Qed.
  Lemma arange_NoDup a b step ts : arange a b step = Ok ts -> NoDup ts.
  Proof.
    unfold arange. destruct (Z.eqb_spec step 0) as [|N]; [discriminate|]. intros [= <-]. apply FinFun.Injective_map_NoDup; [|apply seq_NoDup].
    intros x y E. nia.
  Qed.
  (** No time is evaluated twice. *)
  Theorem C74_times_distinct f inits leads : example_inits datetime64 f = Ok inits -> example_leads f = Ok leads -> NoDup inits /\ NoDup leads.
  Proof.
    intros H1 H2. split.
    - unfold example_inits in H1. destruct (datetime64 (e_time_start f)); [|discriminate]. cbn [bind] in H1. destruct (datetime64 (e_time_stop f)); [|discriminate]. cbn [bind] in H1. eapply arange_NoDup, H1.
    - unfold example_leads in H2. destruct (arange _ _ _) as [hs|] eqn:E; [|discriminate]. cbn [bind] in H2. injection H2 as <-. apply FinFun.Injective_map_NoDup; [|eapply arange_NoDup, E].
      intros x y. unfold ns_hour. lia.
  Qed.

  Lemma run_inv f pl : example_run datetime64 f = Ok pl -> exists inits leads times sel,
    example_inits datetime64 f = Ok inits /\ example_leads f = Ok leads /\ make_time_chunks inits (LeadArr leads) (e_time_chunk f) (e_lead_chunk f) = Ok times /\ example_sel f = Ok sel /\
    e_target_path f <> None /\ e_prediction_path f <> None /\ (e_output f <> None \/ e_state_output f <> None) /\
    pl = mkExamplePlan times (example_options (e_prediction_path f) (e_variables f) sel) (example_options (e_target_path f) (e_variables f) sel) (example_aggregator (e_reduce_dims f)).
  Proof.
    unfold example_run. intros H. destruct (example_inits datetime64 f) as [inits|] eqn:E1; [|discriminate]. cbn [bind] in H. destruct (example_leads f) as [leads|] eqn:E2; [|discriminate]. cbn [bind] in H.
    destruct (make_time_chunks _ _ _ _) as [times|] eqn:E3; [|discriminate]. cbn [bind] in H. destruct (example_sel f) as [sel|] eqn:E4; [|discriminate]. cbn [bind] in H.
    destruct (e_target_path f) as [p1|]; [|discriminate]. destruct (e_prediction_path f) as [p2|]; [|discriminate]. cbn [init_loader bind] in H.
    destruct (sinks (e_output f) (e_state_output f)) as [ks|] eqn:E5; [|discriminate]. cbn [bind] in H. injection H as <-. exists inits, leads, times, sel. repeat split; auto; try discriminate.
    destruct (e_output f), (e_state_output f); cbn in E5; try discriminate; [left|left|right]; discriminate.
  Qed.
  (** The script goes ahead only with an output, both paths, frequencies other than 0, times and
      levels that can be read. *)
  Theorem C74_goes_ahead f : (exists pl, example_run datetime64 f = Ok pl) ->
    e_target_path f <> None /\ e_prediction_path f <> None /\ (e_output f <> None \/ e_state_output f <> None) /\ e_time_frequency f <> 0%Z /\ e_lead_frequency f <> 0%Z /\
    (exists a, datetime64 (e_time_start f) = Ok a) /\ (exists b, datetime64 (e_time_stop f) = Ok b) /\
    forall levels l, e_levels f = Some levels -> In l levels -> exists n, int_of l = Ok n.
  Proof.
    intros [pl H]. destruct (run_inv f pl H) as (inits & leads & times & sel & H1 & H2 & H3 & H4 & H5 & H6 & H7 & _). do 3 (split; [assumption|]). unfold example_inits in H1.
    destruct (datetime64 (e_time_start f)) as [a|]; [|discriminate]. cbn [bind] in H1. destruct (datetime64 (e_time_stop f)) as [b|]; [|discriminate]. cbn [bind] in H1. unfold arange in H1.
    unfold example_leads, arange in H2. split; [|split; [|split; [eauto|split; [eauto|]]]].
    - intros E. rewrite E in H1. discriminate.
    - intros E. rewrite E in H2. discriminate.
    - intros levels l El Il. unfold example_sel in H4. rewrite El in H4. destruct (mapM int_of levels) as [ns|] eqn:Em; [|discriminate]. clear - Em Il.
      revert ns Em. induction levels as [|x levels IH]; intros ns Em; [destruct Il|]. cbn [mapM] in Em. destruct (int_of x) as [n|] eqn:En; [|discriminate]. cbn [bind] in Em.
      destruct (mapM int_of levels) as [ms|]; [|discriminate]. destruct Il as [->|Il]; [eauto|]. apply (IH Il ms eq_refl).
  Qed.

  (** ** The data *)
  (** What a loader serves: the variables asked for, each once, of the dataset read from the path,
      renamed as C67 says, at the pressure levels asked for if any are. *)
  Theorem C74_prepared f pl w : example_run datetime64 f = Ok pl ->
    forall o path d, (o, path) = (x_predictions pl, e_prediction_path f) \/ (o, path) = (x_targets pl, e_target_path f) -> prepared_dataset o w = Ok d ->
    (exists p raw, path = Some p /\ open_path w p = Ok raw /\ prepared_from o raw d) /\ keys d = nodup string_dec (e_variables f) /\
    o_variables o = Some (e_variables f) /\ o_rename_dimensions o = Ecmwf /\ o_convert_lat_lon o = true /\ o_rename_variables o = None /\ o_preprocessing_fn o = None /\
    match e_levels f with
    | None => o_sel_kwargs o = Some []
    | Some levels => exists ns, Forall2 (fun s n => int_of s = Ok n) levels ns /\ o_sel_kwargs o = Some [("level", IxList (map LZ ns))]
    end.
  Proof.
    intros H o path d Ho Hd. destruct (run_inv f pl H) as (inits & leads & times & sel & _ & _ & _ & Hs & _ & _ & _ & ->). cbn [x_predictions x_targets] in Ho.
    assert (o = example_options path (e_variables f) sel) as -> by (destruct Ho as [[= -> ->]|[= -> ->]]; reflexivity). clear Ho.
    set (o := example_options path (e_variables f) sel) in *.
    assert (exists p raw, path = Some p /\ open_path w p = Ok raw /\ prepared_from o raw d) as (p & raw & Ep & Er & Pf).
    { unfold prepared_dataset in Hd. destruct path as [p|]; [|discriminate]. destruct (open_path w p) as [raw|e] eqn:Er.
      - exists p, raw. split; [reflexivity|]. split; [exact Er|]. assert (reading o None w = Ok raw) as Rd by exact Er. rewrite (prepare_read o w raw Rd) in Hd. destruct (prepared o raw) as [ds|e] eqn:Pr.
        + rewrite (prepare_ok o w raw ds Pr) in Hd. cbn [st_ds] in Hd. injection Hd as <-. apply prepared_iff, Pr.
        + destruct (prepare_err o w raw e Pr) as [d' E]. rewrite E in Hd. discriminate.
      - assert (reading o None w = Err e) as Rd by exact Er. rewrite (prepare_unreadable o w e Rd) in Hd. discriminate. }
    split; [eauto 10|]. split.
    { destruct Pf as (d1 & d2 & d3 & _ & _ & S3 & S4). cbn [step o o_variables o_sel_kwargs example_options] in S3, S4. destruct (select_variables_spec _ _ _ S3) as [K _]. rewrite <- K. clear - S4 Hs.
      unfold example_sel in Hs. destruct (e_levels f) as [levels|].
      - destruct (mapM int_of levels) as [ns|]; [|discriminate]. cbn [bind] in Hs. injection Hs as <-. cbn [sel_kwargs sel_indexer] in S4. destruct (sel_labels "level" (map LZ ns) d3) as [d4|] eqn:E; [|discriminate]. cbn [bind] in S4. injection S4 as <-.
        apply (sel_labels_spec _ _ _ _ E).
      - injection Hs as <-. cbn [sel_kwargs] in S4. injection S4 as <-. reflexivity. }
    cbn [o o_variables o_rename_dimensions o_convert_lat_lon o_rename_variables o_preprocessing_fn o_sel_kwargs example_options]. do 5 (split; [reflexivity|]). unfold example_sel in Hs. destruct (e_levels f) as [levels|].
    - destruct (mapM int_of levels) as [ns|] eqn:Em; [|discriminate]. cbn [bind] in Hs. injection Hs as <-. exists ns. split; [|reflexivity]. clear - Em.
      revert ns Em. induction levels as [|x levels IH]; intros ns Em; cbn [mapM] in Em; [injection Em as <-; constructor|]. destruct (int_of x) as [n|] eqn:En; [|discriminate]. cbn [bind] in Em.
      destruct (mapM int_of levels) as [ms|]; [|discriminate]. injection Em as <-. constructor; auto.
    - injection Hs as <-. reflexivity.
  Qed.
End Script.

Ltac digit := match goal with |- context [digit_value ?c] => let v := eval vm_compute in (digit_value c) in change (digit_value c) with v end; cbv iota beta.
Lemma digits_pos d : forall p, digits (NilEmpty.string_of_uint d) (Z.pos p) = Ok (Z.pos (Pos.of_uint_acc d p)).
Proof.
  induction d as [|d IH|d IH|d IH|d IH|d IH|d IH|d IH|d IH|d IH|d IH]; intros p; [reflexivity|..]; cbn [NilEmpty.string_of_uint digits Pos.of_uint_acc]; digit; rewrite <- IH; f_equal; lia.
Qed.
Lemma digits_zero d : digits (NilEmpty.string_of_uint d) 0 = Ok (Z.of_uint d).
Proof.
  unfold Z.of_uint. induction d as [|d IH|d IH|d IH|d IH|d IH|d IH|d IH|d IH|d IH|d IH]; try reflexivity; [exact IH|..]; exact (digits_pos d _).
Qed.
Lemma int_of_digits d : int_of (NilZero.string_of_uint d) = Ok (Z.of_uint d).
Proof. destruct d; [reflexivity|..]; exact (digits_zero _). Qed.
(** The levels are read as the numbers they stand for in decimal. *)
Theorem C74_level_numerals n : int_of (NilZero.string_of_int (Z.to_int n)) = Ok n.
Proof.
  rewrite <- (DecimalZ.of_to n) at 2. destruct (Z.to_int n) as [u|u]; cbn [NilZero.string_of_int Z.of_int]; [apply int_of_digits|].
  transitivity (do k <- digits (NilZero.string_of_uint u) 0; Ok (- k)%Z); [destruct u; reflexivity|].
  assert (digits (NilZero.string_of_uint u) 0 = Ok (Z.of_uint u)) as ->; [|reflexivity]. destruct u; [reflexivity|..]; exact (digits_zero _).
Qed.

Lemma length_app_s s t : String.length (s ++ t)%string = (String.length s + String.length t)%nat.
Proof. induction s as [|c s IH]; cbn; [reflexivity|now rewrite IH]. Qed.
Lemma target_not_tmp (c : Model_AtomicWrite.call) : Model_AtomicWrite.target c <> tmp_path c.
Proof.
  intros E. apply (f_equal snd) in E. unfold tmp_path in E. cbn [snd] in E. apply (f_equal String.length) in E. rewrite !length_app_s in E. cbn in E. lia.
Qed.
(** A single call. *)
Definition only (c : Model_AtomicWrite.call) (i : nat) : option Model_AtomicWrite.call := match i with O => Some c | _ => None end.
Lemma only_fresh (c : Model_AtomicWrite.call) (fs0 : filesystem) : fs0 (tmp_path c) = None -> fresh (only c) fs0 /\ not_tmp (only c) (Model_AtomicWrite.target c).
Proof.
  intros H. split.
  - split; intros; repeat match goal with H : only _ ?i = Some _ |- _ => destruct i; cbn in H; [injection H as <-|discriminate] end; auto; try congruence. apply target_not_tmp.
  - intros i k Hi. destruct i; cbn in Hi; [|discriminate]. injection Hi as <-. apply target_not_tmp.
Qed.

Section File.
  Variable datetime64 : string -> result Z.
  Variables (f : example_flags) (pl : example_plan) (inits leads : list Z) (w : files) (pd td : vars da) (lats : list R).
  Hypothesis Run : example_run datetime64 f = Ok pl.
  Hypothesis Inits : example_inits datetime64 f = Ok inits.
  Hypothesis Leads : example_leads f = Ok leads.
  Hypothesis Prepared : prepared_dataset (x_predictions pl) w = Ok pd /\ prepared_dataset (x_targets pl) w = Ok td.
  Hypothesis Some_times : inits <> [] /\ leads <> [].
  Hypothesis Some_variables : e_variables f <> [].
  Hypothesis EV : evaluable inits leads pd td lats.
  Hypothesis Over : forall v P, dget pd v = Some P -> incl (e_reduce_dims f) (dnames P).
  Variables (to_netcdf : dict string da -> result (list nat)) (open_netcdf : list nat -> result (dict string da)).
  Hypothesis Law : netcdf_law to_netcdf open_netcdf.
  Variables (calls : nat -> option Model_AtomicWrite.call) (fs0 fs : filesystem) (ph : nat -> phase).
  Hypothesis Fresh : fresh calls fs0.
  Hypothesis Reach : reachable calls fs0 (fs, ph).

  Lemma both_keys : keys pd = nodup string_dec (e_variables f) /\ keys td = nodup string_dec (e_variables f).
  Proof.
    destruct Prepared as [P1 P2]. split.
    - destruct (C74_prepared datetime64 f pl w Run (x_predictions pl) (e_prediction_path f) pd (or_introl eq_refl) P1) as (_ & K & _). exact K.
    - destruct (C74_prepared datetime64 f pl w Run (x_targets pl) (e_target_path f) td (or_intror eq_refl) P2) as (_ & K & _). exact K.
  Qed.
  Lemma served : make_time_chunks inits (LeadArr leads) (e_time_chunk f) (e_lead_chunk f) = Ok (x_times pl) /\ x_aggregator pl = example_aggregator (e_reduce_dims f) /\
    (forall I Lc ref, stored_loader (x_predictions pl) PredictionsFromXarray w I (ChunkArr Lc) ref = PredictionsFromXarray pd I (Some (ChunkArr Lc))) /\
    (forall I Lc ref, stored_loader (x_targets pl) TargetsFromXarray w I (ChunkArr Lc) ref = TargetsFromXarray td I (Some (ChunkArr Lc))).
  Proof.
    destruct (run_inv datetime64 f pl Run) as (i & l & times & sel & H1 & H2 & H3 & _ & _ & _ & _ & ->). rewrite Inits in H1. injection H1 as <-. rewrite Leads in H2. injection H2 as <-. cbn [x_times x_aggregator x_predictions x_targets] in *.
    split; [exact H3|]. split; [reflexivity|]. destruct Prepared as [P1 P2]. split; intros I Lc ref; apply stored_loader_prepared; assumption.
  Qed.
  Lemma variables_facts : keys pd = keys td /\ NoDup (keys pd) /\ pd <> [].
  Proof.
    destruct both_keys as [K1 K2]. split; [congruence|]. split; [rewrite K1; apply NoDup_nodup|]. intros E. rewrite E in K1. destruct (e_variables f) as [|v l] eqn:Ev; [congruence|].
    assert (In v (nodup string_dec (v :: l))) as I by (apply nodup_In; now left). rewrite <- K1 in I. destruct I.
  Qed.

  (** The file at --output_path, at any moment and wherever the runner was interrupted, is the old
      one, or holds for each variable "rmse.<variable>" and "mse.<variable>": at each region and
      point, the mean squared error (its root) of the stored forecasts against the stored targets at
      the times the forecasts hold for, over exactly the points of the region, weighted by area. *)
  Theorem C74_file path : example_writes datetime64 to_netcdf f w calls -> e_output f = Some path -> e_state_output f <> Some path -> not_tmp calls path ->
    (fs path = fs0 path /\ forall i k, calls i = Some k -> Model_AtomicWrite.target k = path -> ph i <> Returned) \/
    exists b d, fs path = Some b /\ open_netcdf b = Ok d /\
      forall name post v P T, In (name, post) example_scores -> dget pd v = Some P -> dget td v = Some T ->
        exists a, dget d (name ++ "." ++ v)%string = Some a /\
          forall label e, example_point inits leads (e_reduce_dims f) P label e ->
            (exists Q, example_sample inits leads (e_reduce_dims f) P label e Q) /\
            forall Q, example_sample inits leads (e_reduce_dims f) P label e Q ->
              (exists area, cell_areas lats Q area) /\
              forall area, cell_areas lats Q area -> get a e = post (area_mean Q area (squared_error_at P T)).
  Proof.
    intros (pl' & R' & PW) Eo Ns NT. rewrite Run in R'. injection R' as <-. destruct served as (Ch & Ag & S1 & S2). destruct variables_facts as (K1 & K2 & K3). rewrite Eo, Ag in PW.
    destruct (C74_times_distinct datetime64 f inits leads Inits Leads) as [Ni Nl].
    exact (file_result inits leads (e_reduce_dims f) pd td lats Ni Nl Some_times K1 K2 K3 EV Over (e_time_chunk f) (e_lead_chunk f) (x_times pl) _ _ Ch S1 S2 to_netcdf open_netcdf Law calls fs0 fs ph Fresh Reach path (e_state_output f) PW Ns NT).
  Qed.

  (** The evaluation of such data succeeds: there is a dataset of well-formed arrays that the branch
      for the metrics passes to NetCDF, and when its encoding to bytes succeeds there is an execution
      after which the write has returned. *)
  Theorem C74_completes path : e_output f = Some path ->
    exists ds, (forall n a, In (n, a) ds -> wf a) /\ forall to_netcdf b u fs0, to_netcdf ds = Ok b -> let call := mkCall path b u in fs0 (tmp_path call) = None ->
      exists fs ph, example_writes datetime64 to_netcdf f w (only call) /\ fresh (only call) fs0 /\ not_tmp (only call) path /\
        reachable (only call) fs0 (fs, ph) /\ ph 0%nat = Returned.
  Proof using Run Inits Leads Prepared Some_times Some_variables EV Over.
    clear to_netcdf open_netcdf Law calls fs0 fs ph Fresh Reach.
    intros Eo. destruct served as (Ch & Ag & S1 & S2). destruct variables_facts as (K1 & K2 & K3). destruct (C74_times_distinct datetime64 f inits leads Inits Leads) as [Ni Nl].
    destruct (example_chunked inits leads (e_reduce_dims f) pd td lats Ni Nl Some_times K1 K2 K3 EV Over (e_time_chunk f) (e_lead_chunk f) (x_times pl) _ _ Ch S1 S2) as (s & CE & Kept & L & HL & Tables).
    pose proof (regions_per_time example_regions None (e_reduce_dims f) true false false example_proper (x_times pl) [("SquaredError", all_errors inits leads pd td)]) as PT.
    assert (clean (tables L)) as Cl by (apply (example_clean inits leads (e_reduce_dims f) pd td lats); auto).
    assert (forall name m, In (name, m) example_metrics -> extensional m) as HM by (intros name m [[= <- <-]|[[= <- <-]|[]]]; [apply ext_RMSE|apply extensional_statistic]).
    destruct (agrees_states _ _ _ _ _ _ _ _ _ _ _ CE PT) as [(out & HP) A]. destruct (A out HP) as (_ & A2 & _).
    destruct A2 as [s' ->]; [destruct (Kept "SquaredError" (or_introl eq_refl)) as (v & x & E); exists SumWeights, "SquaredError", v, x; exact E|]. assert (In s' [s']) as I by (now left).
    destruct (state_metrics _ _ _ _ _ _ _ _ _ _ _ (tables L) [s'] s' CE PT Kept HM Tables Cl HP I) as (d & Ed' & Sd & Wd & Nd).
    exists d. split; [exact Wd|]. intros to_netcdf b u fs0 En call Ab. destruct (only_fresh call fs0 Ab) as [Fr NT].
    destruct (C16_can_complete (only call) fs0 fs0 (fun _ => Start) 0 call Fr (r_init _ _) eq_refl eq_refl) as (fs & ph & Rc & E1 & _).
    exists fs, ph. split; [|split; [exact Fr|split; [exact NT|split; [exact Rc|exact E1]]]]. exists pl. split; [exact Run|]. rewrite Eo, Ag.
    intros i c Hi. destruct i; cbn in Hi; [|discriminate]. injection Hi as <-.
    assert (exists ks, sinks (Some path) (e_state_output f) = Ok ks /\ In (MetricsSink path) ks) as (ks & Ek & Ik) by (cbn; destruct (e_state_output f); eexists; (split; [reflexivity|now left])).
    exists ks, (MetricsSink path), [s'], s', [(path, b)]. split; [exact Ek|]. split; [exact Ik|]. split; [exact HP|]. split; [exact I|]. split; [|now left].
    cbn [run_sink]. unfold Model_BeamWrite.compute_metrics. rewrite Ed'. cbn [bind mapM]. unfold write_metrics. rewrite En. reflexivity.
  Qed.
End File.

(** ** An evaluation *)
Section Example.
  (** Times in hours since the epoch, in nanoseconds. *)
  Definition H (n : Z) : label := LZ (n * ns_hour).
  Definition hours (l : label) : R := match l with LZ t => IZR (t / ns_hour) | _ => 0%R end.
  (** Stored forecasts of temperature, with time and prediction_timedelta, and a stored analysis. *)
  Definition ex_forecast : da := mkDa [("time", [H 0; H 12; H 24]); ("prediction_timedelta", [H 0; H 6; H 12]); ("latitude", [LZ (-60); LZ 0; LZ 60]); ("longitude", [LZ 0; LZ 180])]
    (fun e => Fin (hours (e "prediction_timedelta"))) [].
  Definition ex_analysis : da := mkDa [("time", [H 0; H 6; H 12; H 18; H 24]); ("latitude", [LZ (-60); LZ 0; LZ 60]); ("longitude", [LZ 0; LZ 180])]
    (fun e => Fin (hours (e "time"))) [].
  Definition ex_files : files := mkFiles (fun path => if String.eqb path "forecast.zarr" then Ok [("2m_temperature", ex_forecast)] else if String.eqb path "analysis.zarr" then Ok [("2m_temperature", ex_analysis)] else Err FileNotFoundError) (fun _ => Err FileNotFoundError).
  Definition ex_datetime64 (s : string) : result Z := if String.eqb s "1970-01-01" then Ok 0%Z else if String.eqb s "1970-01-02" then Ok (24 * ns_hour)%Z else Err ValueError.
  Definition ex_flags : example_flags := mkExample (Some "forecast.zarr") (Some "analysis.zarr") "1970-01-01" "1970-01-02" 12 (Some 1%Z) 0 12 6 None None ["2m_temperature"] ["init_time"; "latitude"; "longitude"] (Some ("d", "out.nc")) None.
  Definition ex_P : da := mkDa [("init_time", [H 0; H 12; H 24]); ("lead_time", [H 0; H 6; H 12]); ("latitude", [LZ (-60); LZ 0; LZ 60]); ("longitude", [LZ 0; LZ 180])]
    (fun e => Fin (hours (e "lead_time"))) [].
  Definition ex_T : da := mkDa [("valid_time", [H 0; H 6; H 12; H 18; H 24]); ("latitude", [LZ (-60); LZ 0; LZ 60]); ("longitude", [LZ 0; LZ 180])]
    (fun e => Fin (hours (e "valid_time"))) [].
  Example C74_example : exists pl, example_run ex_datetime64 ex_flags = Ok pl /\
    example_inits ex_datetime64 ex_flags = Ok [0; 12 * ns_hour]%Z /\ example_leads ex_flags = Ok [0; 6 * ns_hour]%Z /\
    prepared_dataset (x_predictions pl) ex_files = Ok [("2m_temperature", ex_P)] /\ prepared_dataset (x_targets pl) ex_files = Ok [("2m_temperature", ex_T)] /\
    evaluable [0; 12 * ns_hour]%Z [0; 6 * ns_hour]%Z [("2m_temperature", ex_P)] [("2m_temperature", ex_T)] [-60; 0; 60]%R /\
    (forall v P, dget [("2m_temperature", ex_P)] v = Some P -> incl (e_reduce_dims ex_flags) (dnames P)).
  Proof.
    eexists. split; [reflexivity|]. split; [reflexivity|]. split; [reflexivity|]. split; [reflexivity|]. split; [reflexivity|].
    assert (forall v P, dget [("2m_temperature", ex_P)] v = Some P -> v = "2m_temperature" /\ P = ex_P) as KP by (intros v P; cbn [dget]; destruct (eq_dec v "2m_temperature"); [intros [= <-]; auto|discriminate]).
    assert (forall v T, dget [("2m_temperature", ex_T)] v = Some T -> v = "2m_temperature" /\ T = ex_T) as KT by (intros v P; cbn [dget]; destruct (eq_dec v "2m_temperature"); [intros [= <-]; auto|discriminate]).
    split; [|intros v P E; destruct (KP v P E) as [_ ->]; intros d; cbn; tauto]. split.
    - intros v P E. destruct (KP v P E) as [_ ->]. split; [|split; [reflexivity|split; [intros d; cbn; tauto|split; [cbn; intuition discriminate|split; [cbn; intuition discriminate|split; intros l; cbn; tauto]]]]].
      split; [repeat constructor; cbn; intuition discriminate|]. split; [intros d ls I; cbn in I; repeat destruct I as [[= <- <-]|I]; try destruct I; repeat constructor; cbn; intuition discriminate|].
      intros e e' A. cbn [ex_P get]. rewrite (A "lead_time") by (cbn; auto). reflexivity.
    - intros v T E. destruct (KT v T E) as [_ ->]. split; [|split; [reflexivity|split; [cbn; auto|split; [cbn; intuition discriminate|split; [cbn; intuition discriminate|]]]]].
      + split; [repeat constructor; cbn; intuition discriminate|]. split; [intros d ls I; cbn in I; repeat destruct I as [[= <- <-]|I]; try destruct I; repeat constructor; cbn; intuition discriminate|].
        intros e e' A. cbn [ex_T get]. rewrite (A "valid_time") by (cbn; auto). reflexivity.
      + intros i l Ii Il. cbn in Ii, Il. destruct Ii as [<-|[<-|[]]], Il as [<-|[<-|[]]]; cbn; tauto.
    - intros v P T d E E' N1 N2 N3. destruct (KP v P E) as [_ ->], (KT v T E') as [_ ->]. unfold ex_P, ex_T. cbn [dims dget]. destruct (eq_dec d "init_time"), (eq_dec d "lead_time"), (eq_dec d "valid_time"); congruence || reflexivity.
    - intros v P E. destruct (KP v P E) as [_ ->]. exists [LZ (-60); LZ 0; LZ 60]. split; [reflexivity|]. repeat constructor; eexists; (split; [constructor|unfold Q2R; cbn; lra]).
    - split; [intros x [<-|[<-|[<-|[]]]]; lra|]. split; [left; repeat constructor; lra|cbn; lia].
    - intros v P l E I. destruct (KP v P E) as [_ ->]. cbn in I. destruct I as [<-|[<-|[]]]; eexists; constructor.
    - intros v P v' P' E E'. destruct (KP v P E) as [_ ->], (KP v' P' E') as [_ ->]. intros d _ _ l. reflexivity.
    - intros v P d E I. destruct (KP v P E) as [_ ->]. cbn in I. destruct I as [<-|[<-|[<-|[<-|[]]]]]; discriminate.
    - intros v P T q E E' _. destruct (KP v P E) as [_ ->], (KT v T E') as [_ ->]. split; reflexivity.
  Qed.
End Example.

(** Forecasts equal to their lead time in hours, against an analysis equal to its hour: they are
    right at the first initialisation and 12 hours off at the second, whatever the region. *)
Definition ex_over : list string := ["init_time"; "latitude"; "longitude"].
Definition other_init (q : env) : env := upd q "init_time" (if eq_dec (q "init_time") (H 0) then H 12 else H 0).
Lemma total_map g Q phi : total g (map phi Q) = total (fun q => g (phi q)) Q.
Proof. unfold total. rewrite map_map. reflexivity. Qed.
Lemma total_perm g Q Q' : Permutation Q Q' -> total g Q = total g Q'.
Proof. unfold total. induction 1; cbn; try congruence; lra. Qed.
Lemma total_twice (g h k : env -> R) c Q : (forall q, In q Q -> (g q + h q = c * k q)%R) -> (total g Q + total h Q = c * total k Q)%R.
Proof.
  unfold total. induction Q as [|q Q IH]; intros E; cbn; [lra|]. specialize (IH (fun x I => E x (or_intror I))). pose proof (E q (or_introl eq_refl)). lra.
Qed.
Lemma total_pos (g : env -> R) Q : Q <> [] -> (forall q, In q Q -> (0 < g q)%R) -> (0 < total g Q)%R.
Proof.
  unfold total. destruct Q as [|q Q]; [congruence|]. intros _ P. cbn. assert (0 <= fold_right Rplus 0 (map g Q))%R; [|pose proof (P q (or_introl eq_refl)); lra].
  assert (forall x, In x Q -> (0 < g x)%R) as P' by (intros; apply P; now right). clear P. induction Q as [|x Q IH]; cbn; [lra|]. pose proof (P' x (or_introl eq_refl)). specialize (IH (fun y I => P' y (or_intror I))). lra.
Qed.
Lemma ex_error q t l : q "init_time" = LZ (t * ns_hour) -> q "lead_time" = LZ (l * ns_hour) -> squared_error_at ex_P ex_T q = (IZR t * IZR t)%R.
Proof.
  intros E1 E2. unfold squared_error_at, truth, verification_time. rewrite E1, E2.
  change (get ex_P q) with (Fin (hours (q "lead_time"))). change (get ex_T (upd q "valid_time" (LZ (t * ns_hour + l * ns_hour)))) with (Fin (hours (LZ (t * ns_hour + l * ns_hour)))). rewrite E2. unfold real, hours.
  assert (ns_hour <> 0)%Z as N by discriminate. rewrite <- Z.mul_add_distr_r, !Z.div_mul by exact N. rewrite plus_IZR. ring.
Qed.
Example C74_example_score label e Q area : example_point [0; 12 * ns_hour]%Z [0; 6 * ns_hour]%Z ex_over ex_P label e ->
  example_sample [0; 12 * ns_hour]%Z [0; 6 * ns_hour]%Z ex_over ex_P label e Q -> cell_areas [-60; 0; 60]%R Q area ->
  area_mean Q area (squared_error_at ex_P ex_T) = Fin 72%R.
Proof.
  intros (Lb & Er & Pt) (ND & HQ) CA. set (sq := squared_error_at ex_P ex_T).
  assert (H 0 <> H 12) as N12 by (unfold H, ns_hour; intros C; injection C as C; discriminate C).
  assert (forall q, In q Q -> (q "init_time" = H 0 \/ q "init_time" = H 12) /\ (q "lead_time" = H 0 \/ q "lead_time" = H 6) /\ exists x, latitude (q "latitude") x /\ In x [-60; 0; 60]%R) as F.
  { intros q I. apply HQ in I. destruct I as (A & B & _). split; [|split].
    - pose proof (B "init_time" (or_introl eq_refl)) as K. change (eval_labels [0; 12 * ns_hour]%Z [0; 6 * ns_hour]%Z ex_P "init_time") with [LZ 0; H 12] in K. destruct K as [K|[K|[]]]; rewrite <- K; [left|right]; reflexivity.
    - pose proof (Pt "lead_time" ltac:(right; left; reflexivity) ltac:(intros [C|[C|[C|[]]]]; discriminate)) as K. rewrite <- (A "lead_time") in K by (intros [C|[C|[C|[]]]]; discriminate).
      change (eval_labels [0; 12 * ns_hour]%Z [0; 6 * ns_hour]%Z ex_P "lead_time") with [LZ 0; H 6] in K. destruct K as [K|[K|[]]]; rewrite <- K; [left|right]; reflexivity.
    - pose proof (B "latitude" ltac:(right; left; reflexivity)) as K. change (eval_labels [0; 12 * ns_hour]%Z [0; 6 * ns_hour]%Z ex_P "latitude") with [LZ (-60); LZ 0; LZ 60] in K.
      destruct K as [K|[K|[K|[]]]]; rewrite <- K; [exists (-60)%R; split; [exists (inject_Z (-60))|cbn [In]; tauto]|exists 0%R; split; [exists (inject_Z 0)|cbn [In]; tauto]|exists 60%R; split; [exists (inject_Z 60)|cbn [In]; tauto]]; (split; [apply number_Z|unfold Q2R, inject_Z, Qnum, Qden; lra]). }
  assert (forall q, other_init q "init_time" = if eq_dec (q "init_time") (H 0) then H 12 else H 0) as O1 by reflexivity.
  assert (forall q d, d <> "init_time" -> other_init q d = q d) as O2 by (intros q d Nd; unfold other_init, upd; destruct (string_dec d "init_time"); congruence).
  assert (forall q, In q Q -> (sq q + sq (other_init q) = 144 * 1)%R) as S2.
  { intros q I. destruct (F q I) as (Ei & El & _). assert (exists l, q "lead_time" = LZ (l * ns_hour)) as [l Hl] by (destruct El as [-> | ->]; eexists; reflexivity).
    assert (other_init q "lead_time" = LZ (l * ns_hour)) as Hl2 by (rewrite O2 by discriminate; exact Hl). unfold sq. destruct Ei as [Ei|Ei].
    - rewrite (ex_error q 0 l Ei Hl). rewrite (ex_error (other_init q) 12 l) by (solve [exact Hl2 | rewrite O1, Ei; destruct (eq_dec (H 0) (H 0)); solve [reflexivity|congruence]]). lra.
    - rewrite (ex_error q 12 l Ei Hl). rewrite (ex_error (other_init q) 0 l) by (solve [exact Hl2 | rewrite O1, Ei; destruct (eq_dec (H 12) (H 0)); solve [congruence|reflexivity]]). lra. }
  assert (forall q, In q Q -> other_init (other_init q) = q) as Inv.
  { intros q I. apply functional_extensionality. intros d. destruct (string_dec d "init_time") as [->|Nd]; [|rewrite !O2 by exact Nd; reflexivity].
    rewrite !O1. destruct (F q I) as ([E | E] & _); rewrite E; destruct (eq_dec (H 12) (H 0)) as [C|_]; try (destruct N12; congruence); destruct (eq_dec (H 0) (H 0)) as [_|C]; try (destruct C; reflexivity); try (destruct (eq_dec (H 12) (H 0)) as [C|_]; [destruct N12; congruence|]); try (destruct (eq_dec (H 0) (H 0)) as [_|C]; [|destruct C; reflexivity]); reflexivity. }
  assert (forall q, In q Q -> In (other_init q) Q) as St.
  { intros q I. apply HQ. pose proof (proj1 (HQ q) I) as (A & B & C). split; [|split].
    - intros d Nd. rewrite O2; [apply A, Nd|]. intros ->. apply Nd. now left.
    - intros d Id. destruct (string_dec d "init_time") as [->|Nd]; [|rewrite O2 by exact Nd; apply B, Id]. rewrite O1. change (eval_labels [0; 12 * ns_hour]%Z [0; 6 * ns_hour]%Z ex_P "init_time") with [H 0; H 12].
      destruct (eq_dec _ _); [right; left|left]; reflexivity.
    - destruct C as [C|(C & lat & C2 & C3)]; [left; exact C|right]. split; [exact C|]. exists lat. rewrite O2 by discriminate. auto. }
  assert (Permutation (map other_init Q) Q) as Pm.
  { apply NoDup_Permutation_bis; [|rewrite map_length; lia|intros x I; apply in_map_iff in I; destruct I as (q & <- & I); apply St, I].
    clear - ND Inv. induction Q as [|q Q IH]; [constructor|]. inversion ND as [|? ? N1 N2]; subst. cbn [map]. constructor.
    - intros I. apply in_map_iff in I. destruct I as (x & E & I). apply N1. apply (f_equal other_init) in E. rewrite !Inv in E by (cbn; auto). subst. exact I.
    - apply IH; auto. intros x I. apply Inv. now right. }
  assert (forall q, In q Q -> area (other_init q) = area q) as Ar.
  { intros q I. destruct (F q I) as (_ & _ & x & Lx & _). apply (cell_area_fun [-60; 0; 60]%R x); [apply (CA (other_init q) x (St q I)); rewrite O2 by discriminate; exact Lx|apply (CA q x I Lx)]. }
  assert (forall q, In q Q -> (0 < area q)%R) as Po.
  { intros q I. destruct (F q I) as (_ & _ & x & Lx & Ix). apply (cell_area_pos [-60; 0; 60]%R x); [intros y [<-|[<-|[<-|[]]]]; lra|exact Ix|apply (CA q x I Lx)]. }
  assert (Q <> []) as NQ.
  { set (q0 := fun d => if string_dec d "init_time" then H 0 else if string_dec d "latitude" then LZ 60 else if string_dec d "longitude" then LZ 0 else e d). assert (In q0 Q) as I; [|intros C; rewrite C in I; destruct I]. apply HQ. split; [|split].
    - intros d Nd. unfold q0. destruct (string_dec d "init_time") as [->|]; [exfalso; apply Nd; now left|]. destruct (string_dec d "latitude") as [->|]; [exfalso; apply Nd; right; now left|]. destruct (string_dec d "longitude") as [->|]; [exfalso; apply Nd; right; right; now left|reflexivity].
    - intros d [<-|[<-|[<-|[]]]]; [left; reflexivity|right; right; left; reflexivity|left; reflexivity].
    - destruct Lb as [->| ->]; [left; reflexivity|right]. split; [reflexivity|]. exists (inject_Z 60). split; [constructor|]. intros C. discriminate C. }
  pose proof (total_pos area Q NQ Po) as Pos.
  assert (total (fun q => area q * sq q)%R Q + total (fun q => area q * sq (other_init q))%R Q = 144 * total area Q)%R as E2.
  { apply total_twice. intros q I. pose proof (S2 q I). nra. }
  assert (total (fun q => area q * sq (other_init q))%R Q = total (fun q => area q * sq q)%R Q) as E3.
  { rewrite <- (total_perm (fun q => area q * sq q)%R _ _ Pm), total_map. unfold total. f_equal. apply map_ext_in. intros q I. rewrite (Ar q I). reflexivity. }
  unfold area_mean. destruct Q as [|q0 Q0] eqn:EQ; [congruence|]. rewrite <- EQ in *. f_equal. apply (Rmult_eq_reg_r (total area Q)); [|lra]. unfold Rdiv. rewrite Rmult_assoc, Rinv_l by lra. lra.
Qed.

Print Assumptions C74_init_times.
Print Assumptions C74_lead_times.
Print Assumptions C74_times_distinct.
Print Assumptions C74_goes_ahead.
Print Assumptions C74_prepared.
Print Assumptions C74_level_numerals.
Print Assumptions C74_file.
Print Assumptions C74_completes.
Print Assumptions C74_example.
Print Assumptions C74_example_score.
