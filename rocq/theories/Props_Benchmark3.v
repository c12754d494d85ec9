(** C71: which loader reads which data, and which metrics are computed for which variables. *)
From Coq Require Import String Ascii ZArith List Bool Lia.
Import ListNotations.
From Verif Require Import Prelude Values Model_XArray Model_MetricsBase Model_Calendar Model_TimeChunks Model_Loaders Model_Prepare Model_Select Model_Combine Model_Benchmark Spec_Benchmark Proofs_Benchmark Proofs_Benchmark2.
Local Open Scope Z_scope.
Local Open Scope string_scope.
Local Open Scope list_scope.

(** The baselines read the analysis (persistence), the years 1990 to 2019 of it (probabilistic
    climatology), or the climatology computed for the year; every other name is a stored forecast, a
    deterministic one if there is one of this name. *)
Theorem C71_loader datetime64 cs f leads p : run datetime64 cs f leads = Ok p ->
  let analysis := ("era5_" ++ f_resolution f)%string in
  let name := (f_prediction f ++ "_" ++ f_resolution f ++ "_" ++ f_year f)%string in
  match p_class p with
  | Persistence => f_prediction f = "persistence" /\ p_probabilistic p = false /\ exists c, dget (target cs) analysis = Some c /\ p_path p = c_path c
  | Climatology => f_prediction f = "climatology" /\ p_probabilistic p = false /\ exists c, dget (climatology cs) (analysis ++ "_" ++ f_year f)%string = Some c /\ p_path p = c_path c
  | ProbabilisticClimatology first last => f_prediction f = "probabilistic_climatology" /\ p_probabilistic p = true /\ first = 1990 /\ last = 2019 /\
      exists c, dget (target cs) analysis = Some c /\ p_path p = c_path c
  | Predictions => ~ In (f_prediction f) ["persistence"; "climatology"; "probabilistic_climatology"] /\
      exists c, p_path p = c_path c /\
        ((p_probabilistic p = false /\ dget (deterministic_prediction cs) name = Some c) \/
         (p_probabilistic p = true /\ dget (deterministic_prediction cs) name = None /\ dget (probabilistic_prediction cs) name = Some c))
  end.
Proof.
  intros H. apply run_inv in H. destruct H as (pc & tc & cc & it & ls & times & ec & E1 & _ & _ & _ & _ & _ & _ & ->). cbn [p_class p_path p_probabilistic]. cbv zeta. unfold prediction_config, dgetE in E1. unfold prediction_class.
  destruct (String.eqb_spec (f_prediction f) "persistence") as [P1|P1].
  - destruct (dget (target cs) _) as [c|] eqn:G; [|discriminate]. injection E1 as <-. cbn [fst snd]. split; [exact P1|]. split; [reflexivity|]. exists c. auto.
  - destruct (String.eqb_spec (f_prediction f) "probabilistic_climatology") as [P2|P2].
    + rewrite P2. cbn [String.eqb Ascii.eqb Bool.eqb]. destruct (dget (target cs) _) as [c|] eqn:G; [|discriminate]. injection E1 as <-. cbn [fst snd]. repeat (split; [reflexivity|]). exists c. auto.
    + destruct (String.eqb_spec (f_prediction f) "climatology") as [P3|P3].
      * rewrite append_assoc_s. destruct (dget (climatology cs) _) as [c|] eqn:G; [|discriminate]. injection E1 as <-. cbn [fst snd]. split; [exact P3|]. split; [reflexivity|]. exists c. auto.
      * split; [intros [C|[C|[C|[]]]]; congruence|]. destruct (dget (deterministic_prediction cs) _) as [c|] eqn:G.
        -- injection E1 as <-. cbn [fst snd]. exists c. auto.
        -- destruct (dget (probabilistic_prediction cs) _) as [c|] eqn:G2; [|discriminate]. injection E1 as <-. cbn [fst snd]. exists c. split; [reflexivity|]. right. auto.
Qed.
(** The values a run puts into its file: for probabilistic predictions the four ensemble metrics, for
    others the five deterministic ones, of every variable; besides the vector error of each wind whose two
    components are evaluated, and SEEPS of the precipitation variables. *)
Theorem C71_metrics datetime64 cs f leads p : run datetime64 cs f leads = Ok p ->
  forall k v, (exists vs, In (k, vs) (p_metrics p) /\ In v vs) <->
  if p_probabilistic p then In k ["crps"; "unbiased_spread_skill"; "unbiased_mean_rmse"; "mean_rmse"] /\ In v (p_variables p)
  else (In k ["rmse"; "mse"; "bias"; "acc"; "prediction_activity"] /\ In v (p_variables p))
    \/ (k = "vector_rmse" /\ ((v = "wind" /\ In "u_component_of_wind" (p_variables p) /\ In "v_component_of_wind" (p_variables p))
                           \/ (v = "10m_wind" /\ In "10m_u_component_of_wind" (p_variables p) /\ In "10m_v_component_of_wind" (p_variables p))))
    \/ (k = "seeps" /\ In v (p_variables p) /\ String.prefix "total_precipitation" v = true).
Proof.
  intros H k v. assert (p_metrics p = all_metrics (p_probabilistic p) (p_variables p)) as -> by (apply run_inv in H; destruct H as (pc & tc & cc & it & ls & times & ec & _ & _ & _ & _ & _ & _ & _ & ->); reflexivity).
  clear H. set (V := p_variables p). unfold all_metrics. assert (forall names, (exists vs, In (k, vs) (map (fun k => (k, V)) names) /\ In v vs) <-> In k names /\ In v V) as Q.
  { intros names. split; [intros (vs & I & J); apply in_map_iff in I; destruct I as (k' & [= <- <-] & I); auto|]. intros [I J]. exists V. split; [apply in_map_iff; exists k; auto|exact J]. }
  destruct (p_probabilistic p); [apply Q|].
  assert (forall x y, memb x V && memb y V = true <-> In x V /\ In y V) as B by (intros; rewrite andb_true_iff, !memb_In; reflexivity).
  transitivity ((exists vs, In (k, vs) (map (fun k => (k, V)) ["rmse"; "mse"; "bias"; "acc"; "prediction_activity"]) /\ In v vs) \/ (k = "vector_rmse" /\ In v (vector_names V)) \/ (k = "seeps" /\ In v (filter (String.prefix "total_precipitation") V))).
  { split.
    - intros (vs & I & J). apply in_app_iff in I. destruct I as [I|[[= <- <-]|[[= <- <-]|[]]]]; eauto.
    - intros [(vs & I & J)|[[-> J]|[-> J]]]; eexists; (split; [apply in_app_iff|exact J]); [left; exact I|right; left; reflexivity|right; right; left; reflexivity]. }
  rewrite Q, filter_In. unfold vector_names. rewrite in_app_iff. pose proof (B "u_component_of_wind" "v_component_of_wind") as B1. pose proof (B "10m_u_component_of_wind" "10m_v_component_of_wind") as B2.
  destruct (memb "u_component_of_wind" V && memb "v_component_of_wind" V), (memb "10m_u_component_of_wind" V && memb "10m_v_component_of_wind" V); cbn [In]; intuition congruence.
Qed.
(** Three runs of 2020: the analysis persisted, the years of the climatology, and a stored ensemble. *)
Definition no_datetime (s : string) : result Z := Err ValueError.
Definition run_of (prediction : string) : flags := mkFlags prediction "era5" "64x32" "2020" None None None None None 6 1 12 false.
Example C71_loader_case : exists p1 p2 p3,
  run no_datetime pub (run_of "persistence") (Ok (map hours [0; 6])) = Ok p1 /\ p_class p1 = Persistence /\
  run no_datetime pub (run_of "probabilistic_climatology") (Ok (map hours [0; 6])) = Ok p2 /\ p_class p2 = ProbabilisticClimatology 1990 2019 /\
    p_path p2 = p_path p1 /\ p_probabilistic p2 = true /\
  run no_datetime pub (run_of "ens") (Ok (map hours [0; 6])) = Ok p3 /\ p_class p3 = Predictions /\ p_probabilistic p3 = true.
Proof.
  assert (match run no_datetime pub (run_of "persistence") (Ok (map hours [0; 6])), run no_datetime pub (run_of "probabilistic_climatology") (Ok (map hours [0; 6])),
      run no_datetime pub (run_of "ens") (Ok (map hours [0; 6])) with
    | Ok p1, Ok p2, Ok p3 => Some (p_class p1, p_class p2, String.eqb (p_path p2) (p_path p1), p_probabilistic p2, p_class p3, p_probabilistic p3)
    | _, _, _ => None end = Some (Persistence, ProbabilisticClimatology 1990 2019, true, true, Predictions, true)) as H by (vm_compute; reflexivity).
  destruct (run no_datetime pub (run_of "persistence") _) as [p1|]; [|discriminate].
  destruct (run no_datetime pub (run_of "probabilistic_climatology") _) as [p2|]; [|discriminate].
  destruct (run no_datetime pub (run_of "ens") _) as [p3|]; [|discriminate].
  injection H as H1 H2 H3 H4 H5 H6. apply String.eqb_eq in H3. exists p1, p2, p3. repeat (split; [first [reflexivity|assumption]|]). assumption.
Qed.
Print Assumptions C71_loader.
Print Assumptions C71_metrics.
