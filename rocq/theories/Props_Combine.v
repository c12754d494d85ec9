(** C70: combining the benchmark's result files. *)
From Coq Require Import String Ascii ZArith Lia List Bool Reals.
Import ListNotations.
From Verif Require Import Prelude Values Model_XArray Spec_XArray Proofs_XArray Model_MetricsBase Model_Aggregation Model_Categorical
  Model_Binning Model_Prepare Model_Combine Spec_Combine Proofs_Combine Proofs_Combine2 Proofs_Combine3 Proofs_Combine4 Proofs_Combine5.
Local Open Scope string_scope.
Local Open Scope list_scope.

(** Every value of every result file is in the written dataset, under the file's model, year and
    resolution and the shown names of metric, variable and region. *)
Theorem C70_values m files out : result_files m files -> main m files = Ok out -> forall V e x, cell_value m files V e x ->
  exists b, dget (o_data out) V = Some b /\ point_of (dims b) e /\ get b e = x.
Proof.
  intros Hf E V e x H. destruct (main_Ok m files Hf out E) as (Z & (R & _) & <- & _). apply (done_cells m files) in H. destruct R as (_ & _ & A & _). apply A, H.
Qed.
(** Every other value of the written dataset is missing. *)
Theorem C70_nothing_else m files out : result_files m files -> main m files = Ok out -> forall V b e, dget (o_data out) V = Some b -> point_of (dims b) e ->
  get b e = NaN \/ cell_value m files V e (get b e).
Proof.
  intros Hf E V b e G P. destruct (main_Ok m files Hf out E) as (Z & (R & _) & <- & _). destruct R as (_ & _ & _ & B). destruct (B V b e G P) as [H|H]; [left; exact H|right; apply (done_cells m files), H].
Qed.
(** The hours written beside the lead times are the lead times' whole hours, in the same order. *)
Theorem C70_hours m files out : result_files m files -> main m files = Ok out -> forall V b, dget (o_data out) V = Some b -> In "lead_time" (dnames b) ->
  Forall2 (fun l h => exists t, l = LZ t /\ (h * 3600000000000 <= t < (h + 1) * 3600000000000)%Z) (labels_of (dims b) "lead_time") (o_lead_time_h out).
Proof.
  intros Hf E V b G I. destruct (main_Ok m files Hf out E) as (Z & _ & <- & _ & H). specialize (H V b G I). apply mapM_Ok_Forall2 in H. induction H as [|l h ls hs Hh _ IH]; constructor; [|exact IH]. clear IH.
  destruct l as [t| | |]; try discriminate. injection Hh as <-. exists t. split; [reflexivity|]. change 3600000000000%Z with hour_ns. pose proof (Z.div_mod t hour_ns ltac:(discriminate)). pose proof (Z.mod_pos_bound t hour_ns ltac:(reflexivity)). split; nia.
Qed.
(** The combination succeeds: no name is unknown and no two files conflict. *)
Theorem C70_succeeds m files : result_files m files ->
  (exists ds n a, found m files ds /\ dget ds n = Some a /\ In "lead_time" (dnames a)) ->
  (exists ds n a, found m files ds /\ dget ds n = Some a /\ In "level" (dnames a)) ->
  (forall ds n a l, found m files ds -> dget ds n = Some a -> In l (labels_of (dims a) "lead_time") -> exists t, l = LZ t) ->
  exists out, main m files = Ok out /\ o_file out = match m with Deterministic => "deterministic.zarr" | Probabilistic => "probabilistic.zarr" end.
Proof.
  intros Hf H1 H2 H3.
  assert (forall d, (exists ds n a, found m files ds /\ dget ds n = Some a /\ In d (dnames a)) ->
    exists ds n k v K V a, found m files ds /\ dget ds n = Some a /\ named n k v /\ shown_metric m k K /\ shown_variable v V /\ In d (dnames a)) as K.
  { intros d (ds & n & a & Hfd & Ga & I). destruct Hf as [Hf1 _]. destruct (Hf1 ds Hfd) as (_ & _ & He & _). destruct (He n a Ga) as [_ (k & v & K & V & Hn & HK & HV)]. exists ds, n, k, v, K, V, a. auto 10. }
  destruct (main_total m files Hf (K _ H1) (K _ H2) H3) as (out & E). exists out. split; [exact E|]. destruct (main_Ok m files Hf out E) as (Z & _ & _ & -> & _). reflexivity.
Qed.
(** No two (model, year, resolution) read the same file, and no two are shown alike. *)
Theorem C70_one_file_each m model M year resolution model' M' year' resolution' :
  is_cell m model M year resolution -> is_cell m model' M' year' resolution' ->
  (file_of model year resolution = file_of model' year' resolution' \/ (M = M' /\ year = year' /\ resolution = resolution')) ->
  model = model' /\ M = M' /\ year = year' /\ resolution = resolution'.
Proof.
  intros H H' [E|(-> & -> & ->)].
  - assert (In (model, year, resolution) (cells m)) as I by (apply cells_In; eauto). assert (In (model', year', resolution') (cells m)) as I' by (apply cells_In; eauto).
    assert ((model, year, resolution) = (model', year', resolution')) as E' by (apply (Proofs_Prepare.NoDup_map_inj cell_name (cells m) (cells_names_NoDup m)); auto).
    injection E' as <- <- <-. destruct H as (HM & _). destruct H' as (HM' & _). apply model_get in HM, HM'. split; [reflexivity|]. split; [congruence|auto].
  - destruct H as (HM & _). destruct H' as (HM' & _). split; [eapply model_inj; eauto|auto].
Qed.
(** The display names tell apart what they name. *)
Theorem C70_names_distinct m :
  (forall k k' K, shown_metric m k K -> shown_metric m k' K -> k = k') /\
  (forall v v' V, shown_variable v V -> shown_variable v' V -> v = v') /\
  (forall r r' G, shown_region r G -> shown_region r' G -> r = r') /\
  (forall a a' M, shown_model m a M -> shown_model m a' M -> a = a').
Proof.
  split; [intros; eapply metric_inj; eauto|]. split; [intros; eapply variable_inj; eauto|]. split; [intros; eapply region_inj; eauto|intros; eapply model_inj; eauto].
Qed.

(** ** The files run_benchmark_evaluation.py writes are result files *)
Definition probabilistic (m : mode) : bool := match m with Probabilistic => true | Deterministic => false end.
Definition is_named (m : mode) (n k v : string) : bool :=
  match dget (metric_names m) k, dget VARIABLE_NAMES v with Some _, Some _ => true | _, _ => false end
  && (if String.eqb n "vector_rmse.wind" then String.eqb k "rmse" && String.eqb v "wind_vector"
      else if String.eqb n "vector_rmse.10m_wind" then String.eqb k "rmse" && String.eqb v "10m_wind_vector"
      else String.eqb n (nm k v)).
Lemma is_named_ok m n k v : is_named m n k v = true -> named n k v /\ (exists K, shown_metric m k K) /\ exists V, shown_variable v V.
Proof.
  unfold is_named. destruct (dget (metric_names m) k) as [K|] eqn:EK; [|discriminate]. destruct (dget VARIABLE_NAMES v) as [V|] eqn:EV; [|discriminate]. cbn [andb]. apply metric_get in EK. apply variable_get in EV.
  intros H. split; [|eauto]. destruct (String.eqb_spec n "vector_rmse.wind") as [->|N1]; [apply andb_true_iff in H; destruct H as [A B]; apply String.eqb_eq in A, B; subst; constructor|].
  destruct (String.eqb_spec n "vector_rmse.10m_wind") as [->|N2]; [apply andb_true_iff in H; destruct H as [A B]; apply String.eqb_eq in A, B; subst; constructor|].
  apply String.eqb_eq in H. subst n. apply named_plain. intros [-> [->| ->]]; [apply N1|apply N2]; reflexivity.
Qed.
Definition bench_name (m : mode) (n : string) : bool :=
  existsb (fun k => existsb (fun v => is_named m n k v) (keys VARIABLE_NAMES)) (keys (metric_names m)).
Lemma prefix_filter l : (forall v, In v l -> In v config_variables) -> forall v, In v (filter (String.prefix "total_precipitation") l) -> In v precipitation_variables.
Proof.
  intros H v I. apply filter_In in I. destruct I as [I P]. apply H in I. assert (forallb (fun v => negb (String.prefix "total_precipitation" v) || memb v precipitation_variables) config_variables = true) as C by (vm_compute; reflexivity).
  rewrite forallb_forall in C. specialize (C v I). rewrite P in C. apply memb_In, C.
Qed.
Lemma result_name_ok m variables n : (forall v, In v variables -> In v config_variables) -> In n (result_names (probabilistic m) variables) -> bench_name m n = true.
Proof.
  intros H I. unfold result_names in I. apply in_flat_map in I. destruct I as ([k vs] & Ik & I). cbn [fst snd] in I. apply in_map_iff in I. destruct I as (v & <- & Iv). destruct m; cbn [probabilistic all_metrics] in Ik.
  - apply in_app_iff in Ik. destruct Ik as [Ik|[[= <- <-]|[[= <- <-]|[]]]].
    + apply in_map_iff in Ik. destruct Ik as (k0 & [= <- <-] & Ik). apply H in Iv.
      assert (forallb (fun k => forallb (fun v => bench_name Deterministic (k ++ "." ++ v)%string) config_variables) ["rmse"; "mse"; "bias"; "acc"; "prediction_activity"] = true) as C by (vm_compute; reflexivity).
      rewrite forallb_forall in C. specialize (C k0 Ik). rewrite forallb_forall in C. exact (C v Iv).
    + unfold vector_names in Iv. apply in_app_iff in Iv. destruct Iv as [Iv|Iv]; [destruct (memb "u_component_of_wind" variables && _)|destruct (memb "10m_u_component_of_wind" variables && _)]; try contradiction; destruct Iv as [<-|[]]; vm_compute; reflexivity.
    + apply (prefix_filter variables H) in Iv. destruct Iv as [<-|[<-|[]]]; vm_compute; reflexivity.
  - apply in_map_iff in Ik. destruct Ik as (k0 & [= <- <-] & Ik). apply H in Iv.
    assert (forallb (fun k => forallb (fun v => bench_name Probabilistic (k ++ "." ++ v)%string) config_variables) ["crps"; "unbiased_spread_skill"; "unbiased_mean_rmse"; "mean_rmse"] = true) as C by (vm_compute; reflexivity).
    rewrite forallb_forall in C. specialize (C k0 Ik). rewrite forallb_forall in C. exact (C v Iv).
Qed.
Definition all_config_names (m : mode) : list string := result_names (probabilistic m) config_variables.
Lemma result_names_mono m variables n : (forall v, In v variables -> In v config_variables) -> In n (result_names (probabilistic m) variables) -> In n (all_config_names m).
Proof.
  intros H I. unfold all_config_names, result_names in *. apply in_flat_map in I. destruct I as ([k vs] & Ik & I). cbn [fst snd] in I. apply in_map_iff in I. destruct I as (v & <- & Iv). apply in_flat_map.
  destruct m; cbn [probabilistic all_metrics] in *.
  - apply in_app_iff in Ik. destruct Ik as [Ik|[[= <- <-]|[[= <- <-]|[]]]].
    + apply in_map_iff in Ik. destruct Ik as (k0 & [= <- <-] & Ik). exists (k0, config_variables). split; [apply in_app_iff; left; apply in_map_iff; eauto|]. apply in_map_iff. exists v. auto.
    + exists ("vector_rmse", vector_names config_variables). split; [apply in_app_iff; right; left; reflexivity|]. apply in_map_iff. exists v. split; [reflexivity|]. cbn [snd]. unfold vector_names in Iv. apply in_app_iff in Iv.
      destruct Iv as [Iv|Iv]; [destruct (memb "u_component_of_wind" variables && _)|destruct (memb "10m_u_component_of_wind" variables && _)]; try contradiction; destruct Iv as [<-|[]]; vm_compute; auto.
    + exists ("seeps", filter (String.prefix "total_precipitation") config_variables). split; [apply in_app_iff; right; right; left; reflexivity|]. apply in_map_iff. exists v. split; [reflexivity|]. cbn [snd]. apply filter_In in Iv. apply filter_In. split; [apply H|]; apply Iv.
  - apply in_map_iff in Ik. destruct Ik as (k0 & [= <- <-] & Ik). exists (k0, config_variables). split; [apply in_map_iff; eauto|]. apply in_map_iff. exists v. auto.
Qed.
(** The region labels of binning.Regions(REGIONS, land_sea_mask) *)
Definition region_labels : list label := map LS REGIONS ++ map land_name (map LS REGIONS).
Theorem C70_benchmark_files m variables (ds : vars da) :
  (forall v, In v variables -> In v config_variables) ->
  ds <> [] -> NoDup (keys ds) -> (forall n, In n (keys ds) -> In n (result_names (probabilistic m) variables)) ->
  (forall n a, dget ds n = Some a -> wf a /\ In "region" (dnames a) /\ (forall l, In l (labels_of (dims a) "region") -> In l region_labels)
     /\ forall d, In d (dnames a) -> In d ["region"; "lead_time"; "level"; "init_time"]) ->
  result_dataset m ds.
Proof.
  intros Hv Hne N Hk Ha. split; [exact Hne|]. split; [exact N|]. split.
  - intros n a G. destruct (Ha n a G) as (W & Ir & Hr & Hd). split.
    + split; [exact W|]. split; [exact Ir|]. split.
      * intros l Il. apply Hr in Il.
        assert (forallb (fun l => match l with LS r => memb r (map fst all_regions) | _ => false end) region_labels = true) as C by (vm_compute; reflexivity). rewrite forallb_forall in C. specialize (C l Il).
        destruct l as [| |r|]; try discriminate. apply memb_In in C. apply in_map_iff in C. destruct C as ([r' G'] & <- & C). exists r', G'. split; [reflexivity|]. apply shown_region_all, C.
      * intros d Id. apply Hd in Id. assert (forallb (fun d => negb (memb d ["metric"; "model"; "resolution"; "year"; "vector_rmse.wind"; "vector_rmse.10m_wind"; "rmse.wind_vector"; "rmse.10m_wind_vector"]) && negb (memb d (keys VARIABLE_NAMES)) && negb (memb d (values VARIABLE_NAMES))) ["region"; "lead_time"; "level"; "init_time"] = true) as C by (vm_compute; reflexivity).
        rewrite forallb_forall in C. specialize (C d Id). apply andb_true_iff in C. destruct C as [C C3]. apply andb_true_iff in C. destruct C as [C1 C2]. apply negb_true_iff, memb_false in C1, C2, C3. intros [R|[R|R]]; contradiction.
    + apply dget_Some_keys, Hk, (result_name_ok m variables n Hv) in G. unfold bench_name in G. apply existsb_exists in G. destruct G as (k & Ik & G). apply existsb_exists in G. destruct G as (v & Iv & G). apply is_named_ok in G.
      destruct G as (Hn & (K & HK) & (V & HV)). exists k, v, K, V. auto.
  - intros n n' k v I I' Hn Hn'. apply Hk, (result_names_mono m variables n Hv) in I. apply Hk, (result_names_mono m variables n' Hv) in I'.
    assert (forallb (fun n => negb (memb n ["rmse.wind_vector"; "rmse.10m_wind_vector"])) (all_config_names m) = true) as C by (destruct m; vm_compute; reflexivity). rewrite forallb_forall in C.
    pose proof (C n I) as C1. pose proof (C n' I') as C2. apply negb_true_iff, memb_false in C1, C2.
    inversion Hn as [k0 v0 H0 E1 E2 E3|E1 E2 E3|E1 E2 E3]; inversion Hn' as [k1 v1 H1 F1 F2 F3|F1 F2 F3|F1 F2 F3]; subst; try reflexivity; try discriminate; exfalso; first [solve [apply C1; vm_compute; auto]|solve [apply C2; vm_compute; auto]].
Qed.

(** ** Names with two dots: entries are lost without an error *)
Theorem C70_dotted_name_refuted : forall t x y : env -> val,
  let D := [("region", [LS "global"]); ("lead_time", [LZ 0])] in
  exists out, process Deterministic [("rmse.temperature", mkDa D t []); ("bias.temperature.max", mkDa D x [])] = Ok out /\ keys out = ["Temperature"]
    /\ process Deterministic [("rmse.temperature", mkDa D t []); ("bias.temperature.max", mkDa D y [])] = Ok out.
Proof. intros t x y D. eexists. split; [reflexivity|]. split; [reflexivity|]. reflexivity. Qed.

(** ** A case that meets the hypotheses *)
Definition ex_dims : dimlist := [("region", [LS "global"; LS "europe_land"]); ("lead_time", [LZ 0; LZ 21600000000000]); ("level", [LZ 500])].
Definition ex_array (x : env -> R) : da := mkDa ex_dims (fun e => if memb (e "region") [LS "europe_land"] then Fin (x e) else NaN) [].
Definition ex_2018 : vars da := [("rmse.temperature", ex_array (fun _ => 1%R)); ("vector_rmse.wind", ex_array (fun _ => 3%R))].
Definition ex_2020 : vars da := [("bias.temperature", ex_array (fun _ => 2%R))].
Definition ex_files (fn : string) : option (vars da) :=
  if String.eqb fn "hres_vs_era5_64x32_2018.nc" then Some ex_2018 else if String.eqb fn "hres_vs_era5_64x32_2020.nc" then Some ex_2020 else None.
Lemma ex_wf x : (forall e e', x e = x e') -> wf (ex_array x).
Proof.
  intros H. split; [|split].
  - apply nodups_NoDup. vm_compute. reflexivity.
  - intros d ls I. cbn in I. destruct I as [[= <- <-]|[[= <- <-]|[[= <- <-]|[]]]]; repeat constructor; cbn; intros K; repeat (destruct K as [K|K]; [discriminate|]); contradiction.
  - intros e e' He. cbn [ex_array get]. rewrite (He "region" ltac:(cbn; auto)), (H e e'). reflexivity.
Qed.
Lemma ex_dataset variables ds : (forall v, In v variables -> In v config_variables) -> ds <> [] -> NoDup (keys ds) -> (forall n, In n (keys ds) -> In n (result_names false variables)) ->
  (forall n a, dget ds n = Some a -> exists c, a = ex_array (fun _ => c)) -> result_dataset Deterministic ds.
Proof.
  intros Hv Hne N Hk Ha. apply (C70_benchmark_files Deterministic variables); auto. intros n a G. destruct (Ha n a G) as (c & ->). split; [apply ex_wf; reflexivity|]. split; [cbn; auto|]. split.
  - intros l Il. cbn in Il. apply memb_In. destruct Il as [<-|[<-|[]]]; vm_compute; reflexivity.
  - intros d Id. cbn in *. tauto.
Qed.
Lemma ex_found ds : found Deterministic ex_files ds -> ds = ex_2018 \/ ds = ex_2020.
Proof.
  intros (mo & M & ye & re & _ & E). unfold ex_files in E. destruct (String.eqb _ _); [injection E as <-; auto|]. destruct (String.eqb _ _); [injection E as <-; auto|discriminate].
Qed.
Lemma ex_arrays ds n a : found Deterministic ex_files ds -> dget ds n = Some a -> exists c, a = ex_array (fun _ => c).
Proof.
  intros H G. apply ex_found in H. destruct H as [->| ->]; cbn [dget ex_2018 ex_2020] in G; repeat (destruct (eq_dec n _) in G; [injection G as <-; eauto|]); discriminate.
Qed.
Example C70_example_hypotheses : result_files Deterministic ex_files.
Proof.
  split.
  - intros ds H. pose proof (fun n a => ex_arrays ds n a H) as Ha. apply ex_found in H. apply (ex_dataset ["temperature"; "u_component_of_wind"; "v_component_of_wind"]).
    + intros v Iv. assert (forallb (fun v => memb v config_variables) ["temperature"; "u_component_of_wind"; "v_component_of_wind"] = true) as C by (vm_compute; reflexivity). rewrite forallb_forall in C. apply memb_In, C, Iv.
    + destruct H as [->| ->]; discriminate.
    + apply nodups_NoDup. destruct H as [->| ->]; vm_compute; reflexivity.
    + intros n I. apply memb_In. destruct H as [->| ->]; cbn in I; repeat (destruct I as [<-|I]; [vm_compute; reflexivity|]); contradiction.
    + exact Ha.
  - intros ds ds' n n' k k' v a a' H H' _ _ G G'. destruct (ex_arrays _ _ _ H G) as (c & ->). destruct (ex_arrays _ _ _ H' G') as (c' & ->). intros d. reflexivity.
Qed.
Definition ex_point (d : string) : label :=
  if String.eqb d "model" then LS "IFS HRES vs ERA5" else if String.eqb d "year" then LS "2018" else if String.eqb d "resolution" then LS "64x32"
  else if String.eqb d "metric" then LS "RMSE" else if String.eqb d "region" then LS "Europe (Land)" else if String.eqb d "lead_time" then LZ 21600000000000 else LZ 500.
Example C70_example : exists out b, main Deterministic ex_files = Ok out /\ dget (o_data out) "Wind Vector" = Some b /\ point_of (dims b) ex_point /\ get b ex_point = Fin 3.
Proof.
  assert (is_cell Deterministic "hres_vs_era5" "IFS HRES vs ERA5" "2018" "64x32") as Hc by (split; [cbn; auto|split; cbn; auto]).
  assert (found Deterministic ex_files ex_2018) as Hfd by (exists "hres_vs_era5", "IFS HRES vs ERA5", "2018", "64x32"; split; [exact Hc|reflexivity]).
  destruct (C70_succeeds Deterministic ex_files C70_example_hypotheses) as (out & E & _).
  - exists ex_2018, "rmse.temperature", (ex_array (fun _ => 1%R)). split; [exact Hfd|]. split; [reflexivity|cbn; auto].
  - exists ex_2018, "rmse.temperature", (ex_array (fun _ => 1%R)). split; [exact Hfd|]. split; [reflexivity|cbn; auto].
  - intros ds n a l H G Il. destruct (ex_arrays _ _ _ H G) as (c & ->). cbn in Il. destruct Il as [<-|[<-|[]]]; eauto.
  - exists out. destruct (C70_values Deterministic ex_files out C70_example_hypotheses E "Wind Vector" ex_point (Fin 3)) as (b & G & P & Ev); [|exists b; auto].
    exists "hres_vs_era5", "IFS HRES vs ERA5", "2018", "64x32", ex_2018. split; [exact Hc|]. split; [reflexivity|]. split; [reflexivity|]. split; [reflexivity|]. split; [reflexivity|].
    exists "vector_rmse.wind", "rmse", "wind_vector", "RMSE", (ex_array (fun _ => 3%R)), "europe_land", "Europe (Land)". split; [reflexivity|]. split; [constructor|]. split; [cbn; auto|]. split; [cbn; auto 20|].
    split; [right; exists "europe", "Europe"; split; [cbn; auto 10|split; reflexivity]|]. split; [reflexivity|]. split; [reflexivity|]. split.
    + intros d ls I. cbn in I. destruct I as [[= <- <-]|[[= <- <-]|[[= <- <-]|[]]]]; cbn; auto.
    + reflexivity.
Qed.

Print Assumptions C70_values.
Print Assumptions C70_nothing_else.
Print Assumptions C70_hours.
Print Assumptions C70_succeeds.
Print Assumptions C70_one_file_each.
Print Assumptions C70_names_distinct.
Print Assumptions C70_benchmark_files.
Print Assumptions C70_dotted_name_refuted.
