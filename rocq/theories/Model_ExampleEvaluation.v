(** Model of evaluation_scripts/run_example_evaluation.py: the evaluation it sets up.
    Simplifications: np.datetime64 of the time strings is a parameter; int() knows a sign and decimal
    digits (absl has stripped white space; digit groups with "_" are not modelled); the runner and
    logging are left out.  Loaders, metrics, aggregation and the pipeline are in the other model files. *)
From Coq Require Import String Ascii ZArith QArith List Bool.
Import ListNotations.
From Verif Require Import Prelude Values Model_XArray Model_MetricsBase Model_Calendar Model_TimeChunks Model_Aggregation Model_Deterministic Model_Loaders Model_Prepare
  Model_Binning Model_Weighting Model_Beam Model_BeamWrite Model_Benchmark.
Local Open Scope string_scope.
Local Open Scope list_scope.

(** 66-131 the flags *)
Record example_flags := mkExample {
  e_prediction_path : option string; e_target_path : option string;
  e_time_start : string; e_time_stop : string; e_time_frequency : Z; e_time_chunk : option Z;
  e_lead_start : Z; e_lead_stop : Z; e_lead_frequency : Z; e_lead_chunk : option Z;
  e_levels : option (list string); e_variables : list string; e_reduce_dims : list string;
  e_output : option filepath; e_state_output : option filepath }.
(** 56-64 *)
Definition example_variables : list string :=
  ["geopotential"; "temperature"; "u_component_of_wind"; "v_component_of_wind"; "specific_humidity"; "2m_temperature"; "mean_sea_level_pressure"].
(** 66-131 the defaults, given the two paths *)
Definition default_flags (predictions targets : string) : example_flags :=
  mkExample (Some predictions) (Some targets) "2020-01-01" "2020-12-31" 12 None 0 (24 * 10) 6 None None example_variables
    ["init_time"; "latitude"; "longitude"] None None.

(** int(s) *)
Fixpoint digits (s : string) (acc : Z) : result Z :=
  match s with
  | EmptyString => Ok acc
  | String c s' => match digit_value c with Some d => digits s' (acc * 10 + d)%Z | None => Err ValueError end
  end.
Definition int_of (s : string) : result Z :=
  match s with
  | EmptyString => Err ValueError
  | String "-" EmptyString | String "+" EmptyString => Err ValueError
  | String "-" s' => do n <- digits s' 0; Ok (- n)%Z
  | String "+" s' => digits s' 0
  | _ => digits s 0
  end.

(** 172 *)
Definition example_metrics : dict string (metric da) := [("rmse", RMSE); ("mse", metric_of_statistic SquaredError)].
(** 175-178 *)
Definition example_regions : list (string * (lims * lims)) :=
  [("global", ((-90, 90), (0, 360))); ("northern-hemisphere", ((20, 90), (0, 360)))]%Q.
(** 173, 179-185: Aggregator neither masks nor skips missing values by default *)
Definition example_aggregator (reduce : list string) : aggregator :=
  mkAgg reduce [Regions example_regions "region" None] [GridAreaWeighting "latitude" true] false false.
(** 160-170: path, variables and sel_kwargs; the other arguments have their defaults *)
Definition example_options (path : option string) (variables : list string) (sel : dict string indexer) : loader_options :=
  mkOptions path (Some variables) (Some sel) Ecmwf true None None.
Definition example_cfg : loader_config := mkCfg None None true false.
(** The loader as the pipeline calls it on the stored files [w]: it is prepared on its first use. *)
Definition stored_loader (o : loader_options) (source_of : vars da -> source) (w : files) : loader :=
  fun inits leads reference => snd (loader_load_chunk o example_cfg source_of w (mkRequest inits (Some leads) reference) (mkState None false)).
(** The dataset after its preparation. *)
Definition prepared_dataset (o : loader_options) (w : files) : result (vars da) :=
  match maybe_prepare_dataset o w (mkState None false) with
  | (_, Err e) => Err e
  | (s, Ok _) => match st_ds s with Some d => Ok d | None => Err AssertionError end
  end.

Section Example.
  (** np.datetime64 of a string, in nanoseconds *)
  Variable datetime64 : string -> result Z.
  (** 135-140 *)
  Definition example_inits (f : example_flags) : result (list Z) :=
    do a <- datetime64 (e_time_start f); do b <- datetime64 (e_time_stop f); arange a b (e_time_frequency f * ns_hour).
  (** 141-146: whole hours, then nanoseconds *)
  Definition example_leads (f : example_flags) : result (list Z) :=
    do hs <- arange (e_lead_start f) (e_lead_stop f) (e_lead_frequency f); Ok (map (fun h => h * ns_hour)%Z hs).
  (** 155-158 *)
  Definition example_sel (f : example_flags) : result (dict string indexer) :=
    match e_levels f with
    | Some levels => do ns <- mapM int_of levels; Ok [("level", IxList (map LZ ns))]
    | None => Ok []
    end.
  (** The arguments of define_pipeline. *)
  Record example_plan := mkExamplePlan {
    x_times : time_chunks; x_predictions : loader_options; x_targets : loader_options; x_aggregator : aggregator }.
  (** 134-197 main.  Also ValueError if there is no output path (beam_pipeline.py 487-491). *)
  Definition example_run (f : example_flags) : result example_plan :=
    do inits <- example_inits f;
    do leads <- example_leads f;
    do times <- make_time_chunks inits (LeadArr leads) (e_time_chunk f) (e_lead_chunk f);     (* 148-153 *)
    do sel <- example_sel f;
    do _ <- init_loader (e_target_path f) None;                                                (* 160-164 *)
    do _ <- init_loader (e_prediction_path f) None;                                            (* 166-170 *)
    do _ <- sinks (e_output f) (e_state_output f);
    Ok (mkExamplePlan times (example_options (e_prediction_path f) (e_variables f) sel) (example_options (e_target_path f) (e_variables f) sel)
          (example_aggregator (e_reduce_dims f))).
  (** 187-197: the writes of the pipeline on the stored files [w]. *)
  Definition example_writes (to_netcdf : dict string da -> result bytes) (f : example_flags) (w : files) (calls : nat -> option Model_AtomicWrite.call) : Prop :=
    exists pl, example_run f = Ok pl /\
      pipeline_writes to_netcdf (x_times pl) (stored_loader (x_predictions pl) PredictionsFromXarray w) (stored_loader (x_targets pl) TargetsFromXarray w)
        example_metrics (x_aggregator pl) (e_output f) (e_state_output f) calls.
End Example.
