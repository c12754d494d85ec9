(** C45: slices and ends of intervals as documented (refuted), METAR, examples. *)
From Coq Require Import Ascii String ZArith List Bool Permutation Sorted Reals Lra Lia.
Import ListNotations.
From Verif Require Import Prelude Values Model_XArray Proofs_Baseline Model_Calendar Spec_Calendar Model_Spatial Model_Parquet Spec_Parquet Proofs_Strings Proofs_Parquet Props_Parquet Props_Parquet2 Props_Parquet3.
Local Open Scope string_scope.
Local Open Scope list_scope.
Local Open Scope Z_scope.

(** ** Examples: monthly files, two stations *)
Definition t0 : Z := 1578225600000000000. (* 2020-01-05T12:00 *)
Definition obs (t : Z) (station : string) (x : cell) : row :=
  fun k => if eqb k "timeObs" then CTime t else if eqb k "stationName" then CStr station else if eqb k "temperature" then x else missing.
Definition january : frame := mkFrame ["timeObs"; "stationName"; "temperature"]
  [obs (t0 - 6 * ns_hour) "KSFO" (CNum NaN); obs t0 "KSFO" CNaT; obs t0 "EGLL" (CStr "a"); obs (t0 + ns_hour) "KSFO" (CStr "b"); obs (t0 + 6 * ns_hour) "EGLL" (CStr "c")].
Definition ex_files (fn : string) : option frame := if eqb fn "metar/year=2020/month=1/2020-01.parquet" then Some january else None.
Definition ex_config (tol : option (Z * Z)) (incl drop : bool) : config :=
  mkConfig "metar" "month" "timeObs" ["2m_temperature"] ["stationName"; "valid_time"] false drop tol (Some [("temperature", "2m_temperature")]) incl false None (Some "stationName") ns_hour None.
(** Index, init time, lead time and valid time. *)
Definition cells (cs : list string) (out : observations) : list (nat * list cell) := flat_map (map (fun no => (fst no, map (snd no) cs))) (tables_of out).
Definition summary (cs : list string) (r : result observations) : result (list (nat * list cell)) := do out <- r; Ok (cells cs out).
Lemma ex_hypotheses tol incl drop : plain_columns (ex_config tol incl drop) ex_files.
Proof.
  unfold plain_columns, ex_config. cbn [c_coordinates c_preprocess c_time_dim]. split; [intros f df df' r' E; discriminate|]. split; [right; eexists; split; reflexivity|]. split; [now right; left|].
  intros w df df' H [= <-]. unfold read_window in H. destruct (get_parquet_files_subset _ _ _ _) as [fns|] eqn:Ef; [|discriminate]. cbn [bind] in H. destruct (mapM _ fns) as [dfs|] eqn:Em; [|discriminate]. cbn [bind] in H.
  apply mapM_Ok_Forall2 in Em. assert (forall d, In d dfs -> cols d = cols january) as C.
  { clear - Em. induction Em as [|fn d fns ds E1 E2 IH]; intros x I; [destruct I|]. destruct I as [<-|I]; [|now apply IH]. cbn [c_time_dim] in E1. unfold read_parquet, ex_files in E1. destruct (eqb fn _); [|discriminate]. destruct (negb _); [discriminate|]. destruct (forallb _ _); [|discriminate]. now injection E1 as <-. }
  assert (cols df = cols january) as E.
  { unfold pd_concat in H. destruct dfs as [|d ds]; [discriminate|]. injection H as <-. change (cols (mkFrame (union_cols (d :: ds)) (flat_map (fun f => map (fit (cols f)) (rows f)) (d :: ds))) = cols january). cbn [cols]. unfold union_cols. cbn [fold_left].
    rewrite (C d) by (now left). change ([] ++ filter (fun c => negb (memb c [])) (cols january)) with (cols january). assert (forall x, In x ds -> cols x = cols january) as C' by (intros x I; apply C; now right). clear - C'. induction ds as [|d ds IH]; [reflexivity|]. cbn [fold_left]. rewrite (C' d) by (now left). change (cols january ++ filter (fun c => negb (memb c (cols january))) (cols january)) with (cols january). apply IH. intros x I. apply C'. now right. }
  unfold no_clash. rewrite E. split; [|now left]. cbn. repeat constructor; cbn [In]; intuition discriminate.
Qed.
(** Exact lead times, no tolerance: the observations at 12:00. *)
Example C45_example_exact : forall sort_values,
  summary ["init_time"; "lead_time"; "valid_time"; "stationName"; "2m_temperature"]
    (load_chunk_from_source sort_values (ex_config None false false) ex_files [t0 - ns_hour] (Leads [ns_hour; 2 * ns_hour])) =
  Ok [(0%nat, [CTime (t0 - ns_hour); CDelta ns_hour; CTime t0; CStr "KSFO"; CNaT]);
      (1%nat, [CTime (t0 - ns_hour); CDelta ns_hour; CTime t0; CStr "EGLL"; CStr "a"]);
      (2%nat, [CTime (t0 - ns_hour); CDelta (2 * ns_hour); CTime (t0 + ns_hour); CStr "KSFO"; CStr "b"])].
Proof. intros sort_values. vm_compute. reflexivity. Qed.
(** With dropna, the index keeps its gaps. *)
Example C45_example_dropna : forall sort_values,
  summary ["init_time"; "lead_time"; "stationName"]
    (load_chunk_from_source sort_values (ex_config None false true) ex_files [t0] (Leads [0])) =
  Ok [(1%nat, [CTime t0; CDelta 0; CStr "EGLL"])].
Proof. intros sort_values. vm_compute. reflexivity. Qed.
(** The slice of lead times from 6 to 12 hours returns the observation 6 hours BEFORE the init
    time, and observations before the start of the slice: the start is subtracted. *)
Theorem C45_slice_refuted : ~ forall sort_values cfg files inits a b out t n o l,
  (forall key rs, Permutation (sort_values key rs) rs) -> plain_columns cfg files ->
  load_chunk_from_source sort_values cfg files inits (LeadSlice (mkSlice (Some a) (Some b))) = Ok out -> In t (tables_of out) -> In (n, o) t ->
  o "lead_time" = CDelta l -> a <= l <= b.
Proof.
  intros H. assert (summary ["lead_time"] (load_chunk_from_source (fun _ rs => rs) (ex_config None false false) ex_files [t0] (LeadSlice (mkSlice (Some (6 * ns_hour)) (Some (12 * ns_hour))))) =
    Ok [(0%nat, [CDelta (- 6 * ns_hour)]); (1%nat, [CDelta 0]); (2%nat, [CDelta 0]); (3%nat, [CDelta ns_hour]); (4%nat, [CDelta (6 * ns_hour)])]) as E by (vm_compute; reflexivity).
  specialize (H (fun _ rs => rs) (ex_config None false false) ex_files [t0] (6 * ns_hour) (12 * ns_hour)).
  destruct (load_chunk_from_source _ _ _ _ _) as [out|]; [|discriminate]. unfold summary in E. cbn [bind] in E. apply (f_equal (fun r => match r with Ok x => x | Err _ => [] end)) in E.
  assert (exists t n o, In t (tables_of out) /\ In (n, o) t /\ o "lead_time" = CDelta (- 6 * ns_hour)) as (t & n & o & It & Io & El).
  { assert (In (0%nat, [CDelta (- 6 * ns_hour)]) (cells ["lead_time"] out)) as I by (rewrite E; now left).
    apply in_flat_map in I. destruct I as (t & It & I). apply in_map_iff in I. destruct I as ([n o] & Eo & I). cbn [fst snd map] in Eo. injection Eo as _ Eo. exists t, n, o. auto. }
  pose proof (H out t n o (- 6 * ns_hour) (fun _ _ => Permutation_refl _) (ex_hypotheses _ _ _) eq_refl It Io El) as B. unfold ns_hour in B. lia.
Qed.
Print Assumptions C45_slice_refuted.
(** The documentation gives a closed interval around the valid time; the observation at its end is
    not returned (unless include_slice_end_time is set). *)
Theorem C45_tolerance_end_refuted : ~ forall sort_values cfg files inits ls out t u i l a b m fn fr r v,
  (forall key rs, Permutation (sort_values key rs) rs) -> plain_columns cfg files -> c_preprocess cfg = None -> c_remove_duplicates cfg = false -> c_dropna cfg = false ->
  load_chunk_from_source sort_values cfg files inits (Leads ls) = Ok out -> In t (tables_of out) -> In i inits -> In l ls ->
  partition_unit (c_partitioned_by cfg) u -> file_of (c_path cfg) u m fn -> files fn = Some fr -> In r (rows fr) -> r (c_time_dim cfg) = CTime v -> Z.abs (v - m) <= c_file_tolerance cfg ->
  c_tolerance cfg = Some (a, b) -> i + l + a <= v <= i + l + b ->
  exists n o, In (n, o) t /\ o "valid_time" = CTime v.
Proof.
  intros H. assert (summary ["valid_time"] (load_chunk_from_source (fun _ rs => rs) (ex_config (Some (- ns_hour, ns_hour)) false false) ex_files [t0] (Leads [0])) = Ok [(0%nat, [CTime t0]); (1%nat, [CTime t0])]) as E by (vm_compute; reflexivity).
  specialize (H (fun _ rs => rs) (ex_config (Some (- ns_hour, ns_hour)) false false) ex_files [t0] [0]).
  destruct (load_chunk_from_source _ _ _ _ _) as [out|] eqn:El; [|discriminate]. unfold summary in E. cbn [bind] in E. apply (f_equal (fun r => match r with Ok x => x | Err _ => [] end)) in E.
  assert (exists t, tables_of out = [t]) as (t & Et).
  { unfold load_chunk_from_source in El. destruct (load_tables _ _ _ _ _); [|discriminate]. cbn [bind] in El. destruct (pd_concat _); [|discriminate]. cbn [bind] in El. cbv zeta in El. change (c_split (ex_config (Some (- ns_hour, ns_hour)) false false)) with false in El. injection El as <-. eexists. reflexivity. }
  destruct (H out t Month t0 0 (- ns_hour) ns_hour t0 "metar/year=2020/month=1/2020-01.parquet" january (obs (t0 + ns_hour) "KSFO" (CStr "b")) (t0 + ns_hour)) as (n & o & I & Eo).
  - intros; apply Permutation_refl.
  - apply ex_hypotheses.
  - reflexivity.
  - reflexivity.
  - reflexivity.
  - reflexivity.
  - rewrite Et. now left.
  - now left.
  - now left.
  - left. split; reflexivity.
  - replace "metar/year=2020/month=1/2020-01.parquet" with (parquet_filename_for_time "metar" (to_unit Month t0) Month) by (vm_compute; reflexivity). apply file_name.
  - reflexivity.
  - right. right. right. now left.
  - reflexivity.
  - change (Z.abs (t0 + ns_hour - t0) <= ns_hour). unfold ns_hour, t0. lia.
  - reflexivity.
  - unfold ns_hour, t0. lia.
  - assert (In (n, [CTime (t0 + ns_hour)]) (cells ["valid_time"] out)) as I'.
    { apply in_flat_map. exists t. split; [rewrite Et; now left|]. apply in_map_iff. exists (n, o). split; [|exact I]. cbn [fst snd map]. now rewrite Eo. }
    rewrite E in I'. destruct I' as [I'|[I'|[]]]; injection I' as _ I'; vm_compute in I'; discriminate.
Qed.
Print Assumptions C45_tolerance_end_refuted.

(** ** METAR *)
(** The cells of an observation after the METAR preprocessing, from those before. *)
Definition metar_cell (raw : list string) (r : row) (k : string) (c : cell) : Prop :=
  (In k raw -> c = (match r (k ++ "DD")%string with CStr q => if memb q ["Z"; "B"; "X"; "Q"; "k"] then missing else r k | _ => r k end)) /\
  (k = "longitude" -> exists v, r k = CNum v /\
     match v with
     | Fin x => exists y n, c = CNum (Fin y) /\ (0 <= y < 360)%R /\ (x = y + 360 * IZR n)%R
     | _ => c = missing
     end) /\
  (k = "elevation" -> exists v, r k = CNum v /\ c = match v with Fin x => if Rltb x 9999 then CNum v else missing | NInf => CNum v | _ => missing end) /\
  (~ In k raw -> k <> "longitude" -> k <> "elevation" -> c = r k).
Lemma raw_names vs raw : mapM (dgetE ERA5_TO_METAR_NAMES) vs = Ok raw -> forall k, In k raw -> In k (map fst METAR_TO_ERA5_NAMES).
Proof.
  intros H k I. apply mapM_Ok_Forall2 in H. assert (exists v, dgetE ERA5_TO_METAR_NAMES v = Ok k) as (v & E).
  { clear - H I. induction H as [|v x vs xs E1 E2 IH]; [destruct I|]. destruct I as [->|I]; eauto. }
  apply dgetE_Some in E. apply dget_In in E. unfold ERA5_TO_METAR_NAMES in E. apply in_map_iff in E. destruct E as ([a b] & E & I'). cbn [fst snd] in E. injection E as _ ->. apply (in_map fst) in I'. exact I'.
Qed.
Lemma flags_apart k k' : In k (map fst METAR_TO_ERA5_NAMES) -> In k' (map fst METAR_TO_ERA5_NAMES) -> (k ++ "DD")%string <> k' /\ k <> "longitude" /\ k <> "elevation".
Proof.
  assert (forallb (fun k => forallb (fun k' => negb (eqb (k ++ "DD")%string k') && negb (eqb k "longitude") && negb (eqb k "elevation")) (map fst METAR_TO_ERA5_NAMES)) (map fst METAR_TO_ERA5_NAMES) = true) as F by (vm_compute; reflexivity).
  intros I I'. rewrite forallb_forall in F. specialize (F k I). rewrite forallb_forall in F. specialize (F k' I'). apply andb_prop in F. destruct F as [F F3]. apply andb_prop in F. destruct F as [F1 F2].
  apply negb_true_iff in F1, F2, F3. apply eqb_false_iff in F1, F2, F3. auto.
Qed.
Definition flagged (r : row) (k : string) : cell := if bad_flag METAR_BAD_QUALITY_FLAGS (r (k ++ "DD")%string) then missing else r k.
Lemma set_bad_spec raw : forall df df', (forall k k', In k raw -> In k' raw -> (k ++ "DD")%string <> k') -> set_bad_quality_to_nan raw "DD" METAR_BAD_QUALITY_FLAGS df = Ok df' ->
  cols df' = cols df /\ Forall2 (fun r o => forall k, o k = if memb k raw then flagged r k else r k) (rows df) (rows df').
Proof.
  unfold set_bad_quality_to_nan. induction raw as [|v raw IH]; intros df df' Ap H.
  - injection H as <-. split; [reflexivity|]. induction (rows df); constructor; auto.
  - cbn [fold_left] in H. destruct (memb v (cols df) && memb (v ++ "DD")%string (cols df)) eqn:M.
    2: { exfalso. cbn [bind] in H. rewrite M in H. clear - H. induction raw as [|x raw IH]; [discriminate|]. exact (IH H). }
    cbn [bind] in H. rewrite M in H. apply andb_prop in M. destruct M as [M _]. apply IH in H; [|intros; apply Ap; now right]. destruct H as [C F]. unfold add_col in C, F. cbn [cols rows] in C, F. rewrite M in C. split; [exact C|].
    clear IH C. revert F. generalize (rows df'). induction (rows df) as [|r rs IHr]; intros os F; [inversion F; constructor|]. cbn [map] in F. inversion F as [|? o ? os' E F']; subst. constructor; [|now apply IHr].
    intros k. rewrite E. change (memb k (v :: raw)) with (eqb k v || memb k raw). unfold set. destruct (eqb k v) eqn:Ek; cbn [orb].
    + apply eqb_true_iff in Ek. subst k. unfold flagged. rewrite !eqb_refl. assert (eqb (v ++ "DD")%string v = false) as -> by (apply eqb_false_iff; apply Ap; now left). destruct (memb v raw), (bad_flag _ _); reflexivity.
    + destruct (memb k raw) eqn:Mk; [|reflexivity]. unfold flagged. rewrite Ek. assert (eqb (k ++ "DD")%string v = false) as -> by (apply eqb_false_iff; apply Ap; [right; now apply memb_In|now left]). reflexivity.
Qed.
Lemma num_col_spec q f df df' : num_col q f df = Ok df' -> cols df' = cols df /\ Forall2 (fun r o => (exists v, r q = CNum v /\ o q = CNum (f v)) /\ forall k, k <> q -> o k = r k) (rows df) (rows df').
Proof.
  unfold num_col. destruct (memb q (cols df)) eqn:M; [|discriminate]. cbn [negb]. destruct (forallb _ _) eqn:Fa; [|discriminate]. intros [= <-]. unfold add_col. cbn [cols rows]. rewrite M. split; [reflexivity|].
  induction (rows df) as [|r rs IH]; cbn [map]; constructor; cbn [forallb] in Fa; apply andb_prop in Fa; destruct Fa as [A B]; [|now apply IH]. unfold set. split.
  - rewrite eqb_refl. destruct (r q) as [| | | |v]; try discriminate. exists v. auto.
  - intros k N. apply eqb_false_iff in N. now rewrite N.
Qed.
Lemma mod360_spec x : exists n, mod360 (Fin x) = Fin (x - 360 * IZR n)%R /\ (0 <= x - 360 * IZR n < 360)%R.
Proof.
  exists (Int_part (x / 360)). split; [reflexivity|]. destruct (base_Int_part (x / 360)) as [A B]. assert (x = x / 360 * 360)%R as E by field. set (q := (x / 360)%R) in *. rewrite E. split; lra.
Qed.
(** Every observation is kept, in order; bad quality flags make the variable missing, longitudes
    are reduced to [0, 360), elevations of 9999 or more are unknown; nothing else changes, in
    particular not the times. *)
Theorem C45_metar : forall variables df df' raw,
  metar_preprocessing_fn variables None df = Ok df' -> mapM (dgetE ERA5_TO_METAR_NAMES) variables = Ok raw ->
  cols df' = cols df /\ Forall2 (fun r o => forall k, metar_cell raw r k (o k)) (rows df) (rows df').
Proof.
  intros variables df df' raw H Er. unfold metar_preprocessing_fn in H. cbn [bind] in H. rewrite Er in H. cbn [bind] in H.
  destruct (set_bad_quality_to_nan _ _ _ _) as [d1|] eqn:E1; [|discriminate]. cbn [bind] in H. unfold convert_longitude_to_0_to_360 in H. destruct (num_col "longitude" _ _) as [d2|] eqn:E2; [|discriminate]. cbn [bind] in H.
  pose proof (raw_names _ _ Er) as Rn. apply set_bad_spec in E1; [|intros k k' I I'; now apply (flags_apart k k'); apply Rn]. destruct E1 as [C1 F1].
  apply num_col_spec in E2, H. destruct E2 as [C2 F2], H as [C3 F3]. split; [congruence|].
  assert (~ In "longitude" raw /\ ~ In "elevation" raw) as [Nl Ne]. { split; intros I; apply Rn in I; destruct (flags_apart _ _ I I) as (_ & A & B); congruence. }
  revert F1 F2 F3. generalize (rows df') (rows d2) (rows d1) (rows df). intros os rs2 rs1 rs0 F1. revert rs2 os. induction F1 as [|r0 r1 rs0 rs1 A1 F1 IH]; intros rs2 os F2 F3; inversion F2 as [|? r2 ? rs2' [A2 B2] F2']; subst; inversion F3 as [|? o ? os' [A3 B3] F3']; subst; constructor; [|eapply IH; eauto].
  intros k. repeat split.
  - intros I. assert (k <> "longitude" /\ k <> "elevation") as [N1 N2] by (split; intros ->; contradiction). rewrite B3, B2, A1 by assumption. apply memb_In in I. rewrite I. unfold flagged, bad_flag. destruct (r0 (k ++ "DD")%string); reflexivity.
  - intros ->. rewrite B3 by discriminate. destruct A2 as (v & Ev & Eo). rewrite A1 in Ev. apply memb_false in Nl. rewrite Nl in Ev. exists v. split; [exact Ev|]. destruct v as [x| | |]; try (rewrite Eo; reflexivity). destruct (mod360_spec x) as (n & En & B). rewrite En in Eo. exists (x - 360 * IZR n)%R, n. split; [exact Eo|]. split; [exact B|]. lra.
  - intros ->. destruct A3 as (v & Ev & Eo). rewrite B2 in Ev by discriminate. rewrite A1 in Ev. apply memb_false in Ne. rewrite Ne in Ev. exists v. split; [exact Ev|]. rewrite Eo. unfold known_elevation. destruct v as [x| | |]; cbn [vltb]; try reflexivity. now destruct (Rltb x 9999).
  - intros N N1 N2. rewrite B3, B2, A1 by assumption. apply memb_false in N. now rewrite N.
Qed.
Print Assumptions C45_metar.
(** So for METAR, too, the times returned are those of the files (C45_exact applies). *)
Theorem C45_metar_keeps_times : forall path variables time_dim split drop tol part incl dup pick ft cfg,
  METARFromParquet path variables time_dim split drop tol part incl dup pick ft None = Ok cfg ->
  ~ In time_dim (map fst METAR_TO_ERA5_NAMES) -> time_dim <> "longitude" -> time_dim <> "elevation" ->
  keeps_times cfg /\ time_column cfg /\ In "valid_time" (c_coordinates cfg).
Proof.
  intros path variables time_dim split drop tol part incl dup pick ft cfg H N1 N2 N3. unfold METARFromParquet, SparseObservationsFromParquet in H. destruct (negb _); [discriminate|]. destruct (check_tolerance tol) as [tl|]; [|discriminate]. cbn [bind] in H. destruct (dup && false); [discriminate|]. injection H as <-.
  split; [|split].
  - intros f df df' r' [= <-] E I. cbn [c_time_dim]. assert (exists raw, mapM (dgetE ERA5_TO_METAR_NAMES) variables = Ok raw) as (raw & Er).
    { unfold metar_preprocessing_fn in E. cbn [bind] in E. destruct (mapM _ variables) as [raw|]; [now exists raw|discriminate]. }
    destruct (C45_metar _ _ _ _ E Er) as [_ F]. assert (~ In time_dim raw) as N by (intros J; apply (raw_names _ _ Er) in J; contradiction).
    clear E. induction F as [|r o rs os A F IH]; [destruct I|]. destruct I as [->|I]; [exists r; split; [now left|]; now apply A|]. destruct (IH I) as (r1 & I1 & E1). exists r1. split; [now right|exact E1].
  - right. cbn [c_rename c_time_dim]. eexists. split; [reflexivity|]. apply dget_None. exact N1.
  - cbn. tauto.
Qed.
Print Assumptions C45_metar_keeps_times.
Definition report (lon : Z) (flag : string) : row :=
  fun k => if eqb k "temperatureDD" then CStr flag else if eqb k "temperature" then CNum (Fin 280) else if eqb k "longitude" then CNum (Fin (IZR lon)) else if eqb k "elevation" then CNum (Fin 9999) else CTime t0.
Example C45_example_metar : exists df',
  metar_preprocessing_fn ["2m_temperature"] None (mkFrame ["timeObs"; "temperature"; "temperatureDD"; "longitude"; "elevation"] [report (-122) "V"; report 10 "X"]) = Ok df' /\
  map (fun r => r "temperature") (rows df') = [CNum (Fin 280); missing] /\ map (fun r => r "longitude") (rows df') = [CNum (Fin 238); CNum (Fin 10)] /\
  map (fun r => r "elevation") (rows df') = [missing; missing].
Proof.
  eexists. split; [reflexivity|]. cbn [rows map]. split; [reflexivity|].
  assert (forall x n, (0 <= x - 360 * IZR n < 360)%R -> mod360 (Fin x) = Fin (x - 360 * IZR n)) as M.
  { intros x n B. destruct (mod360_spec x) as (m & -> & B'). do 3 f_equal. f_equal. apply Z.le_antisymm; apply Z.lt_succ_r; apply lt_IZR; rewrite succ_IZR; lra. }
  assert (known_elevation (Fin 9999) = NaN) as K. { unfold known_elevation. cbn [vltb]. destruct (Rltb 9999 9999) eqn:E; [apply Rltb_true in E; lra|reflexivity]. }
  assert (mod360 (Fin (IZR (-122))) = Fin 238) as M1. { rewrite (M _ (-1)) by lra. f_equal. lra. }
  assert (mod360 (Fin (IZR 10)) = Fin 10) as M2. { rewrite (M _ 0) by lra. f_equal. lra. }
  split.
  - change [CNum (mod360 (Fin (IZR (-122)))); CNum (mod360 (Fin (IZR 10)))] with [CNum (mod360 (Fin (IZR (-122)))); CNum (mod360 (Fin (IZR 10)))]. 
    transitivity [CNum (mod360 (Fin (IZR (-122)))); CNum (mod360 (Fin (IZR 10)))]; [reflexivity|]. now rewrite M1, M2.
  - transitivity [CNum (known_elevation (Fin 9999)); CNum (known_elevation (Fin 9999))]; [reflexivity|]. now rewrite K.
Qed.

(** ** The laws assumed of sorting can be met *)
Definition key_leb (a b : option Z) : bool := match a, b with Some x, Some y => x <=? y | None, Some _ => false | _, None => true end.
Fixpoint insert_row (key : row -> option Z) (r : row) (rs : list row) : list row :=
  match rs with [] => [r] | x :: rs' => if key_leb (key r) (key x) then r :: x :: rs' else x :: insert_row key r rs' end.
Definition insertion_sort (key : row -> option Z) (rs : list row) : list row := fold_right (insert_row key) [] rs.
Lemma insertion_sort_perm key rs : Permutation (insertion_sort key rs) rs.
Proof.
  assert (forall r l, Permutation (insert_row key r l) (r :: l)) as I.
  { intros r. induction l as [|x l IH]; [reflexivity|]. cbn [insert_row]. destruct (key_leb _ _); [reflexivity|]. rewrite IH. apply perm_swap. }
  induction rs as [|r rs IH]; [reflexivity|]. cbn [insertion_sort fold_right]. rewrite I. now constructor.
Qed.
Lemma insertion_sort_sorted key rs i j ri rj : (i < j)%nat -> nth_error (insertion_sort key rs) i = Some ri -> nth_error (insertion_sort key rs) j = Some rj -> key_le (key ri) (key rj).
Proof.
  assert (forall a b, key_leb a b = true -> key_le a b) as T by (intros [a|] [b|] H; cbn in *; auto; try discriminate; now apply Z.leb_le).
  assert (forall a b, key_leb a b = false -> key_le b a) as F by (intros [a|] [b|] H; cbn in *; auto; try discriminate; apply Z.leb_gt in H; lia).
  assert (forall a b c, key_le a b -> key_le b c -> key_le a c) as Tr by (intros [a|] [b|] [c|]; cbn; intros; try contradiction; auto; lia).
  set (srt := fun l : list row => Sorting.Sorted.StronglySorted (fun a b => key_le (key a) (key b)) l).
  assert (forall l, srt l -> forall i j ri rj, (i < j)%nat -> nth_error l i = Some ri -> nth_error l j = Some rj -> key_le (key ri) (key rj)) as N.
  { intros l H. induction H as [|x l H IH Fx]; intros i' j' ri' rj' L Ei Ej; [destruct i'; discriminate|]. destruct j' as [|j']; [lia|]. destruct i' as [|i']; [|eapply (IH i' j'); eauto; lia]. injection Ei as <-. cbn [nth_error] in Ej. apply nth_error_In in Ej. rewrite Forall_forall in Fx. exact (Fx _ Ej). }
  intros L. apply (N (insertion_sort key rs)); [|exact L]. clear N L i j ri rj. unfold srt. induction rs as [|r rs IH]; [constructor|]. cbn [insertion_sort fold_right]. fold (insertion_sort key rs). revert IH. generalize (insertion_sort key rs). intros l H.
  induction H as [|x l H IH Fx]; cbn [insert_row]; [repeat constructor|]. destruct (key_leb (key r) (key x)) eqn:E.
  - constructor; [now constructor|]. constructor; [now apply T|]. eapply Forall_impl; [|exact Fx]. intros y Hy. cbn beta in *. eapply Tr; [apply T; exact E|exact Hy].
  - constructor; [exact IH|]. assert (Permutation (insert_row key r l) (r :: l)) as P. { clear. induction l as [|y l IH]; [reflexivity|]. cbn [insert_row]. destruct (key_leb _ _); [reflexivity|]. rewrite IH. apply perm_swap. }
    apply (Permutation_Forall (Permutation_sym P)). constructor; [now apply F|exact Fx].
Qed.
(** Of two observations of a station the closer one is returned. *)
Example C45_example_duplicates :
  (do df <- pick_closest_from_duplicates insertion_sort
     (mkConfig "metar" "month" "timeObs" ["2m_temperature"] ["stationName"; "valid_time"] false false (Some (- 7 * ns_hour, 7 * ns_hour)) None false true (Some "timeObs") (Some "stationName") ns_hour None) january (t0 + 5 * ns_hour);
   Ok (map (fun r => (r "stationName", r "timeObs")) (rows df))) = Ok [(CStr "EGLL", CTime (t0 + 6 * ns_hour)); (CStr "KSFO", CTime (t0 + ns_hour))].
Proof. vm_compute. reflexivity. Qed.
