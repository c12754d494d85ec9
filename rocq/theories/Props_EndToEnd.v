(** C72: scores over regions, from forecasts and targets to the metrics file. *)
From Coq Require Import String Ascii List Bool ZArith QArith Qround Qcanon Reals Permutation Lra Lia.
Import ListNotations.
From Verif Require Import Prelude Values Model_XArray Spec_XArray Proofs_XArray Model_MetricsBase Spec_Metrics Model_Deterministic Model_Aggregation Spec_Aggregator Proofs_Aggregator Proofs_Aggregator2
  Spec_Means Proofs_Means Proofs_TTest Proofs_Deterministic Proofs_Wrappers Model_Binning Spec_Binning Proofs_Binning Model_Weighting Spec_Weighting Proofs_Weighting
  Model_Combine Model_Calendar Model_TimeChunks Model_Loaders Model_Prepare Model_Select Model_Benchmark Proofs_Benchmark2 Model_BenchmarkRegions Spec_EndToEnd Proofs_EndToEnd Proofs_EndToEnd2.
From Coq Require Lqa.
From Verif Require Import Spec_RoundTrip Model_Beam Spec_Beam Spec_BeamWrite Proofs_BeamWrite Proofs_BeamWrite2 Proofs_BeamWrite6 Model_BeamWrite Model_AtomicWrite Props_AtomicWrite Props_BeamWrite Proofs_Local2 Proofs_Local3.
From Verif Require Import Spec_Benchmark Props_Benchmark.
From Verif Require Proofs_Metrics Props_Weighting.
Local Open Scope R_scope.
Local Open Scope string_scope.
Local Open Scope list_scope.

(** Forecast and target of one variable on one grid: what the theorems assume of their data. *)
Record gridded (forecast target : da) (lats : list R) : Prop := {
  gr_forecast : wf forecast; gr_target : wf target; gr_box : same_box forecast target;
  gr_coords : coords_local forecast /\ coords_local target;
  gr_aux : NoDup (keys (aux forecast)) /\ NoDup (keys (aux target));
  gr_mask : ~ In "mask" (keys (aux forecast)) /\ full_mask target;
  gr_lat : exists ls, In ("latitude", ls) (dims target) /\ Forall2 latitude ls lats;
  gr_lats : in_range lats;
  gr_lon : exists ls, In ("longitude", ls) (dims target) /\ forall l, In l ls -> exists q, is_number l q;
  gr_region : ~ In "region" (dnames target) }.
(** Distinct region names and a land-sea mask over latitude and longitude. *)
Definition proper_regions {A} (regions : list (string * A)) (land : option da) : Prop :=
  NoDup (region_names regions land) /\ forall lm, land = Some lm -> wf lm /\ grid_dims lm.

Section Scores.
  Variables (regions : list (string * ((Q * Q) * (Q * Q)))) (land : option da) (over : list string) (norm masked skipna : bool).
  Let g := mkAgg over [Regions regions "region" land] [GridAreaWeighting "latitude" norm] masked skipna.
  Variables (forecast target : da) (lats : list R) (f o : env -> R).
  Hypothesis G : gridded forecast target lats.
  Hypothesis PR : proper_regions regions land.
  Hypothesis Num : numbers masked skipna forecast target f o.

  (** The mean of the error is the mean, weighted by cell area, over exactly the valid points of the
      region; it is missing where there are none. *)
  Theorem C72_score p t v m h post a label e : NoDup (keys p) -> dget p v = Some forecast -> dget t v = Some target ->
    score m h post -> metric_value g p t m v a -> result_point regions land over target label e ->
    (exists Q, pair_sample regions land masked skipna over forecast target label e Q) /\
    forall Q, pair_sample regions land masked skipna over forecast target label e Q ->
      (exists area, cell_areas lats Q area) /\
      forall area, cell_areas lats Q area -> get a e = post (area_mean Q area (fun q => h (f q - o q))).
  Proof.
    intros Hn Hp Ht S M RP. destruct G as [W1 W2 B [C1 C2] [A1 A2] [N1 N2] (ls & D1 & L1) Rg (ls2 & D2 & L2) NR]. destruct PR as [P1 P2].
    destruct (pair_score regions land over norm masked skipna lats forecast target ls ls2 f o W1 W2 C1 C2 A1 A2 N1 N2 B D1 D2 L2 L1 Rg NR P1 P2 Num p t v Hn Hp Ht m h post a label e S M RP)
      as (Q0 & area0 & PS & CA & Pa & _ & E).
    split; [eauto|]. intros Q PS'. pose proof (sample_unique regions land over masked skipna forecast target label e Q0 Q PS PS') as Pm. split.
    - exists area0. intros q x I Hx. apply CA; auto. eapply Permutation_in; [symmetry; exact Pm|exact I].
    - intros area CA'. rewrite E. f_equal.
      apply (area_mean_unique regions land over masked skipna lats forecast target ls W2 D1 L1 label e Q0 Q area0 area); auto.
  Qed.

  (** The same for any statistic of forecast and target that is missing where their difference is:
      the value is the area-weighted mean of its values over the same points. *)
  Theorem C72_statistic st s a label e : same_sample (binop vsub forecast target) st ->
    (forall q, get forecast q = Fin (f q) -> get target q = Fin (o q) -> get st q = Fin (s q)) ->
    mean_array g st a -> result_point regions land over target label e ->
    exists Q area, pair_sample regions land masked skipna over forecast target label e Q /\ cell_areas lats Q area /\
      (forall q, In q Q -> 0 < area q) /\ get a e = area_mean Q area s.
  Proof.
    intros SS V M RP. destruct G as [W1 W2 B [C1 C2] [A1 A2] [N1 N2] (ls & D1 & L1) Rg (ls2 & D2 & L2) NR]. destruct PR as [P1 P2].
    destruct (pair_like regions land over norm masked skipna lats forecast target ls ls2 f o W1 W2 C1 C2 A1 A2 N1 N2 B D1 D2 L2 L1 Rg NR P1 P2 Num st s a label e SS V M RP) as (Q & area & K1 & K2 & K3 & _ & K4). eauto 10.
  Qed.
  (** The scores exist: for two latitudes or more, northwards or southwards, regions with proper
      limits, and a land-sea mask on the grid of the data. *)
  Theorem C72_defined v m h post : score m h post -> monotonic lats -> (2 <= List.length lats)%nat ->
    (forall lm, land = Some lm -> same_grid target lm) -> regions <> [] ->
    (forall name lat_lims lon_lims, In (name, (lat_lims, lon_lims)) regions -> (fst lat_lims < snd lat_lims)%Q) ->
    incl over (dnames target) -> exists a, metric_value g [(v, forecast)] [(v, target)] m v a.
  Proof.
    intros S Mo Le SG Nr Li Ov. apply (score_defined g _ _ v forecast target m h post S eq_refl eq_refl).
    destruct G as [W1 W2 B [C1 C2] [A1 A2] [N1 N2] (ls & D1 & L1) Rg (ls2 & D2 & L2) NR]. destruct PR as [P1 P2].
    set (st := binop vsub forecast target).
    assert (forall x, dims x = dims st -> aux x = aux st -> wf x -> exists y, mean_array g x y) as K.
    { intros x Dx Ax Wx.
      assert (forall d, In d (dnames x) <-> In d (dnames target)) as Nx by (intros d; unfold dnames; rewrite Dx; apply (pair_names forecast target W1 W2 B)).
      assert (forall d, labels_of (dims x) d = labels_of (dims target) d) as Lx by (intros d; rewrite Dx; apply (pair_labels forecast target W1 W2 B)).
      apply (region_defined regions land over norm masked skipna lats x ls Wx); auto.
      - intros k c Gk. rewrite Ax in Gk. unfold dnames. rewrite Dx. apply (pair_local forecast target W1 W2 C1 C2 A1 A2 B k c Gk).
      - intros c Gc k c' I. rewrite Ax in Gc, I. unfold dnames. apply (pair_spans forecast target W1 W2 C1 C2 A1 A2 N1 N2 B c Gc k c' I).
      - rewrite Dx. apply (pair_lat forecast target ls W1 W2 B D1).
      - apply Nx. apply (in_map fst) in D2. exact D2.
      - intros I. apply NR, Nx, I.
      - intros lm El. destruct (P2 lm El) as [Wl Gl]. split; [exact Wl|]. split; [exact Gl|]. destruct (SG lm El) as (S1 & S2 & S3 & S4).
        split; [apply Nx, S1|]. split; [apply Nx, S2|]. split; [intros y; rewrite Lx; apply S3|rewrite Lx; exact S4].
      - intros d I. apply Nx, Ov, I. }
    assert (wf st) as W by (apply wf_binop; auto). intros x [<-|[<-|[<-|[]]]]; apply K; auto; apply wf_map; exact W.
  Qed.
End Scores.

(** ** The regions of the benchmark *)
Ltac regions_in := repeat (try (left; reflexivity); right).

(** A turn of the globe. *)
Lemma on_globe x : on_arc 0 360 x.
Proof.
  exists 360%Q, (- Qfloor (x / 360))%Z, 0%Z. unfold turns. split; [split; Lqa.lra|]. split; [reflexivity|].
  rewrite inject_Z_opp. pose proof (Qfloor_le (x / 360)) as A. pose proof (Qlt_floor (x / 360)) as B. rewrite inject_Z_plus in B. change (inject_Z 1) with 1%Q in B.
  assert (x == 360 * (x / 360))%Q as E by field. set (fl := inject_Z (Qfloor (x / 360))) in *. set (y := (x / 360)%Q) in *. split; Lqa.lra.
Qed.

(** The names of the regions are distinct, also from those of their land bins, and combine_results
    has a display name for each. *)
Theorem C72_region_names : NoDup (all_names REGIONS) /\ map fst REGIONS = keys REGION_NAMES /\
  exists shown, mapM rename_region (map LS (all_names REGIONS)) = Ok shown /\ NoDup shown.
Proof.
  split; [|split].
  - repeat constructor; cbn; intuition discriminate.
  - reflexivity.
  - eexists. split; [vm_compute; reflexivity|]. repeat constructor; cbn; intuition discriminate.
Qed.

Lemma benchmark_names lm : NoDup (region_names REGIONS (Some lm)).
Proof. exact (proj1 C72_region_names). Qed.
Lemma in_limits_iff lm name la lo q lat lon : In (name, (la, lo)) REGIONS -> is_number (q "latitude") lat -> is_number (q "longitude") lon ->
  (in_region REGIONS (Some lm) name q <-> (fst la <= lat <= snd la)%Q /\ on_arc (fst lo) (snd lo) lon).
Proof.
  intros I N1 N2. rewrite (in_region_name REGIONS (Some lm) (benchmark_names lm) name (la, lo) q I). unfold in_lims. cbn [fst snd]. split.
  - intros (lat' & lon' & M1 & M2 & H). rewrite (is_number_fun _ _ _ N1 M1), (is_number_fun _ _ _ N2 M2). exact H.
  - intros [A B]. exists lat, lon. auto.
Qed.

(** The belts: the hemispheres leave out the tropics up to 20 degrees, where the rows at exactly 20
    degrees count in both; "global" has every point.  A land bin has the points of its region that
    are on land. *)
Theorem C72_belts lm q lat lon : is_number (q "latitude") lat -> is_number (q "longitude") lon ->
  let in_ name := in_region REGIONS (Some lm) name q in
  (in_ "global" <-> -90 <= lat <= 90)%Q /\ (in_ "tropics" <-> -20 <= lat <= 20)%Q /\
  (in_ "northern-hemisphere" <-> 20 <= lat <= 90)%Q /\ (in_ "southern-hemisphere" <-> -90 <= lat <= -20)%Q /\
  (in_ "arctic" <-> 60 <= lat <= 90)%Q /\ (in_ "antarctic" <-> -90 <= lat <= -60)%Q /\
  (forall name, In name (map fst REGIONS) -> (in_ (name ++ "_land")%string <-> in_ name /\ get lm q <> Fin 0)).
Proof.
  intros N1 N2 in_. unfold in_.
  assert (forall name la, In (name, (la, (0, 360)))%Q REGIONS -> (in_region REGIONS (Some lm) name q <-> (fst la <= lat <= snd la)%Q)) as B.
  { intros name la I. rewrite (in_limits_iff lm name la (0, 360)%Q q lat lon I N1 N2). cbn [fst snd]. pose proof (on_globe lon). tauto. }
  split; [apply (B "global" (-90, 90)%Q)|split; [apply (B "tropics" (-20, 20)%Q)|split; [apply (B "northern-hemisphere" (20, 90)%Q)|split; [apply (B "southern-hemisphere" (-90, -20)%Q)|
  split; [apply (B "arctic" (60, 90)%Q)|split; [apply (B "antarctic" (-90, -60)%Q)|]]]]]]; try (cbn; tauto).
  intros name I. apply in_map_iff in I. destruct I as ([n r] & <- & I). cbn [fst].
  rewrite (in_region_land REGIONS (Some lm) (benchmark_names lm) n r q lm eq_refl I), (in_region_name REGIONS (Some lm) (benchmark_names lm) n r q I). reflexivity.
Qed.
(** Every point is in a belt. *)
Theorem C72_belts_cover lm q lat lon : is_number (q "latitude") lat -> is_number (q "longitude") lon -> (-90 <= lat <= 90)%Q ->
  let in_ name := in_region REGIONS (Some lm) name q in
  (in_ "tropics" \/ in_ "northern-hemisphere" \/ in_ "southern-hemisphere") /\ ~ (in_ "northern-hemisphere" /\ in_ "southern-hemisphere").
Proof.
  intros N1 N2 H in_. destruct (C72_belts lm q lat lon N1 N2) as (_ & T & N & S & _). unfold in_. rewrite T, N, S. split; [|Lqa.lra].
  destruct (Qlt_le_dec lat (-20)); [right; right; Lqa.lra|]. destruct (Qlt_le_dec 20 lat); [right; left; Lqa.lra|left; Lqa.lra].
Qed.
(** An arc from [a] to [a + w], as seen from longitudes in [0, 360). *)
Lemma arc_from lon : (0 <= lon < 360)%Q -> forall a b w, (b == a + w)%Q -> (0 < w < 360)%Q -> (-360 < a < 360)%Q -> (-360 < b < 360)%Q ->
  (on_arc a b lon <-> (a <= lon <= b \/ a <= lon - 360 <= b)%Q).
Proof.
  intros H. intros a b w Eb Hw Ha Hb. unfold on_arc, turns. split.
    - intros (w' & k & j & W1 & W2 & W3).
      assert (w' == w)%Q as Ew.
      { assert (j = 0%Z \/ (1 <= j)%Z \/ (j <= -1)%Z) as [->|[Hj|Hj]] by lia; [change (inject_Z 0) with 0%Q in W2; Lqa.lra| |].
        - rewrite Zle_Qle in Hj. change (inject_Z 1) with 1%Q in Hj. Lqa.lra.
        - rewrite Zle_Qle in Hj. change (inject_Z (-1)) with (-1)%Q in Hj. Lqa.lra. }
      assert (k = 0%Z \/ k = (-1)%Z \/ (1 <= k)%Z \/ (k <= -2)%Z) as [->|[->|[Hk|Hk]]] by lia.
      + left. change (inject_Z 0) with 0%Q in W3. Lqa.lra.
      + right. change (inject_Z (-1)) with (-1)%Q in W3. Lqa.lra.
      + rewrite Zle_Qle in Hk. change (inject_Z 1) with 1%Q in Hk. Lqa.lra.
      + rewrite Zle_Qle in Hk. change (inject_Z (-2)) with (-2)%Q in Hk. Lqa.lra.
    - intros [I|I].
      + exists w, 0%Z, 0%Z. change (inject_Z 0) with 0%Q. repeat split; Lqa.lra.
      + exists w, (-1)%Z, 0%Z. change (inject_Z 0) with 0%Q. change (inject_Z (-1)) with (-1)%Q. repeat split; Lqa.lra.
Qed.
(** Europe and northern Africa cross the prime meridian, the North Pacific the date line: longitudes
    count up to full turns. *)
Theorem C72_across_meridians lm q lat lon : is_number (q "latitude") lat -> is_number (q "longitude") lon -> (0 <= lon < 360)%Q ->
  let in_ name := in_region REGIONS (Some lm) name q in
  (in_ "europe" <-> 35 <= lat <= 75 /\ (lon <= 85 # 2 \/ 695 # 2 <= lon))%Q /\
  (in_ "northern-africa" <-> 5 <= lat <= 65 # 2 /\ (lon <= 75 # 2 \/ 695 # 2 <= lon))%Q /\
  (in_ "north-pacific" <-> 25 <= lat <= 60 /\ 145 <= lon <= 230)%Q /\
  (in_ "south-america" <-> -40 <= lat <= 5 /\ 285 <= lon <= 315)%Q.
Proof.
  intros N1 N2 H in_. unfold in_.
  rewrite (in_limits_iff lm "europe" (35, 75)%Q (-25 # 2, 85 # 2)%Q q lat lon) by (auto; cbn; tauto).
  rewrite (in_limits_iff lm "northern-africa" (5, 65 # 2)%Q (-25 # 2, 75 # 2)%Q q lat lon) by (auto; cbn; tauto).
  rewrite (in_limits_iff lm "north-pacific" (25, 60)%Q (145, 360 - 130)%Q q lat lon) by (auto; cbn; tauto).
  rewrite (in_limits_iff lm "south-america" (-40, 5)%Q (-75, -45)%Q q lat lon) by (auto; cbn; tauto).
  cbn [fst snd].
  pose proof (arc_from lon H) as A.
  rewrite (A (-25 # 2) (85 # 2) 55)%Q by Lqa.lra. rewrite (A (-25 # 2) (75 # 2) 50)%Q by Lqa.lra. rewrite (A 145 (360 - 130) 85)%Q by Lqa.lra. rewrite (A (-75) (-45) 30)%Q by Lqa.lra.
  repeat split; intros; Lqa.lra.
Qed.

(** The other regions are boxes of longitudes in degrees east. *)
Theorem C72_boxes lm q lat lon : is_number (q "latitude") lat -> is_number (q "longitude") lon -> (0 <= lon < 360)%Q ->
  let in_ name := in_region REGIONS (Some lm) name q in
  (in_ "north-america" <-> 25 <= lat <= 60 /\ 240 <= lon <= 285)%Q /\
  (in_ "north-atlantic" <-> 25 <= lat <= 65 /\ 290 <= lon <= 350)%Q /\
  (in_ "west-asia" <-> 15 <= lat <= 60 /\ 85 # 2 <= lon <= 205 # 2)%Q /\
  (in_ "east-asia" <-> 25 <= lat <= 60 /\ 205 # 2 <= lon <= 150)%Q /\
  (in_ "south-east-asia" <-> -25 # 2 <= lat <= 25 /\ 95 <= lon <= 125)%Q /\
  (in_ "ausnz" <-> -45 <= lat <= -25 # 2 /\ 120 <= lon <= 175)%Q /\
  (in_ "southern-africa" <-> -30 <= lat <= 5 /\ 25 # 2 <= lon <= 75 # 2)%Q /\
  (in_ "south-america" <-> -40 <= lat <= 5 /\ 285 <= lon <= 315)%Q.
Proof.
  intros N1 N2 H in_. unfold in_.
  rewrite (in_limits_iff lm "north-america" (25, 60)%Q (360 - 120, 360 - 75)%Q q lat lon) by (auto; cbn; tauto).
  rewrite (in_limits_iff lm "north-atlantic" (25, 65)%Q (360 - 70, 360 - 10)%Q q lat lon) by (auto; cbn; tauto).
  rewrite (in_limits_iff lm "west-asia" (15, 60)%Q (85 # 2, 205 # 2)%Q q lat lon) by (auto; cbn; tauto).
  rewrite (in_limits_iff lm "east-asia" (25, 60)%Q (205 # 2, 150)%Q q lat lon) by (auto; cbn; tauto).
  rewrite (in_limits_iff lm "south-east-asia" (-25 # 2, 25)%Q (95, 125)%Q q lat lon) by (auto; cbn; tauto).
  rewrite (in_limits_iff lm "ausnz" (-45, -25 # 2)%Q (120, 175)%Q q lat lon) by (auto; cbn; tauto).
  rewrite (in_limits_iff lm "southern-africa" (-30, 5)%Q (25 # 2, 75 # 2)%Q q lat lon) by (auto; cbn; tauto).
  rewrite (in_limits_iff lm "south-america" (-40, 5)%Q (-75, -45)%Q q lat lon) by (auto; cbn; tauto).
  cbn [fst snd]. pose proof (arc_from lon H) as A.
  rewrite (A (360 - 120) (360 - 75) 45)%Q by Lqa.lra. rewrite (A (360 - 70) (360 - 10) 60)%Q by Lqa.lra. rewrite (A (85 # 2) (205 # 2) 60)%Q by Lqa.lra.
  rewrite (A (205 # 2) 150 (95 # 2))%Q by Lqa.lra. rewrite (A 95 125 30)%Q by Lqa.lra. rewrite (A 120 175 55)%Q by Lqa.lra. rewrite (A (25 # 2) (75 # 2) 25)%Q by Lqa.lra. rewrite (A (-75) (-45) 30)%Q by Lqa.lra.
  repeat split; intros; Lqa.lra.
Qed.

(** ** The file *)
Section File.
  Variables (regions : list (string * ((Q * Q) * (Q * Q)))) (land : option da) (over : list string) (norm masked skipna : bool).
  Let g := mkAgg over [Regions regions "region" land] [GridAreaWeighting "latitude" norm] masked skipna.
  Hypothesis PR : proper_regions regions land.

  (** These weights and bins look at each time separately, as C08 and C69 ask. *)
  Lemma regions_per_time tc full : per_time tc g full.
  Proof.
    split; [intros w [<-|[]]; apply grid_area_local; intros [C|C]; discriminate|]. left. intros b [<-|[]]. destruct PR as [P1 P2].
    destruct land as [lm|] eqn:El.
    - destruct (P2 lm eq_refl) as [W1 W2]. apply regions_land_local; auto; [intros [C|C]; discriminate|cbn; intuition discriminate].
    - apply regions_local; [intros [C|C]; discriminate|exact P1].
  Qed.

  (** The pipeline over chunks of [init] and [lead], whose loaders serve the predictions [p] and the
      targets [t], evaluating [metrics]. *)
  Variables (init lead : list Z) (isz lsz : option Z) (tc : time_chunks) (pl tl : loader) (metrics : dict string (metric da)).
  Variables (p t : vars da) (full : dict string (vars da)) (s : Model_Aggregation.state) (mv : dict string (vars da)).
  Hypothesis CE : chunked_evaluation init lead isz lsz tc pl tl metrics g full s.
  Hypothesis Stats : compute_unique_statistics metrics p t = Ok full.
  Hypothesis MO : forall st x, In st (registered metrics) -> compute st p t = Ok x -> NoDup (keys x).
  Hypothesis NI : names_identify metrics p t.
  Hypothesis Nm : NoDup (keys metrics).
  Hypothesis Np : NoDup (keys p).
  Hypothesis Kept : each_statistic_kept full s.
  Hypothesis Ext : forall name m, In (name, m) metrics -> extensional m.
  Hypothesis Tables : metric_tables metrics s = Ok mv.
  Hypothesis Cl : clean mv.

  Lemma tables_evaluate : evaluate g metrics p t = Ok mv.
  Proof.
    unfold evaluate. rewrite Stats. cbn [bind]. pose proof (ce_direct _ _ _ _ _ _ _ _ _ _ _ CE) as D. unfold present in D. rewrite D. cbn [bind]. exact Tables.
  Qed.
  Lemma table_value n m vs v a : In (n, m) metrics -> In (n, vs) mv -> In (v, a) vs -> metric_value g p t m v a.
  Proof.
    intros Im Iv Ia. destruct (Proofs_Metrics.evaluate_each g p t metrics mv MO NI tables_evaluate) as [Ek K].
    destruct (K n m Im) as (v' & means & Iv' & IR & V).
    assert (v' = vs) as -> by (assert (dget mv n = Some vs) as G1 by (apply In_dget; auto; apply Cl); assert (dget mv n = Some v') as G2 by (apply In_dget; auto; apply Cl); congruence).
    assert (forall st, In st (map snd (statistics m)) -> In st (registered metrics)) as R.
    { intros st I. unfold registered. apply in_flat_map. exists (n, m). split; auto. }
    apply metric_value_iff; eauto.
    exists means, vs. split; [exact IR|]. split; [exact V|]. apply In_dget; auto. eapply cl_vars; eauto.
  Qed.

  Variables (to_netcdf : dict string da -> result (list nat)) (open_netcdf : list nat -> result (dict string da)).
  Hypothesis Law : netcdf_law to_netcdf open_netcdf.
  Variables (calls : nat -> option call) (fs0 fs : filesystem) (ph : nat -> phase).
  Hypothesis Fresh : fresh calls fs0.
  Hypothesis Reach : reachable calls fs0 (fs, ph).

  (** Whatever the order in which the runner combined the chunks and wherever it was interrupted, the
      metrics file is the old one, with no write returned, or holds for each score and each region the
      mean over exactly the valid points of the region, weighted by cell area. *)
  Theorem C72_file path state_path : pipeline_writes to_netcdf tc pl tl metrics g (Some path) state_path calls -> state_path <> Some path -> not_tmp calls path ->
    (fs path = fs0 path /\ forall i c, calls i = Some c -> target c = path -> ph i <> Returned) \/
    exists b d, fs path = Some b /\ open_netcdf b = Ok d /\
      forall n m h post v forecast target lats f o vs, In (n, m) metrics -> score m h post -> dget p v = Some forecast -> dget t v = Some target ->
        In (n, vs) mv -> In v (keys vs) ->
        gridded forecast target lats -> numbers masked skipna forecast target f o ->
        exists a, dget d (n ++ "." ++ v)%string = Some a /\
          forall label e, result_point regions land over target label e ->
            (exists Q, pair_sample regions land masked skipna over forecast target label e Q) /\
            forall Q, pair_sample regions land masked skipna over forecast target label e Q ->
              (exists area, cell_areas lats Q area) /\
              forall area, cell_areas lats Q area -> get a e = post (area_mean Q area (fun q => h (f q - o q))).
  Proof.
    intros PW Ne NT. destruct (C69_metrics_file init lead isz lsz tc pl tl metrics g full s CE (regions_per_time tc full) to_netcdf open_netcdf Law calls fs0 fs ph Fresh Reach mv path state_path Kept Ext Tables Cl PW Ne NT)
      as [L|(b & d & Eb & Ed & Sd)]; [left; exact L|right]. exists b, d. split; [exact Eb|]. split; [exact Ed|].
    intros n m h post v forecast target lats f o vs Im Sm Hp Ht Iv Ik G Num.
    apply in_map_iff in Ik. destruct Ik as ([v' a] & Ev & Ia). cbn in Ev. subst v'.
    pose proof (table_value n m vs v a Im Iv Ia) as MV.
    destruct (clean_value mv n vs v a Cl Iv Ia) as (a' & Ga & Sa'). specialize (Sd (n ++ "." ++ v)%string). rewrite Ga in Sd.
    destruct (dget d (n ++ "." ++ v)%string) as [a2|] eqn:G2; [|destruct Sd]. exists a2. split; [reflexivity|]. intros label e RP.
    pose proof (C72_score regions land over norm masked skipna forecast target lats f o G PR Num p t v m h post a label e Np Hp Ht Sm MV RP) as [Ex K].
    split; [exact Ex|]. intros Q PS. destruct (K Q PS) as [Ea Kv]. split; [exact Ea|]. intros area CA. rewrite <- (Kv area CA).
    assert (same_array a2 a) as S2 by (eapply same_array_trans; eauto).
    destruct S2 as (W2 & W1 & D1 & D2 & V). apply V. intros dd ls I.
    assert (point_of (dims a) e) as Pe.
    { clear - G PR Num Np Hp Ht Sm MV RP. destruct G as [W1 W2 B [C1 C2] [A1 A2] [N1 N2] (ls & D1 & L1) Rg (ls2 & D2 & L2) NR]. destruct PR as [P1 P2].
      destruct (pair_score regions land over norm masked skipna lats forecast target ls ls2 f o W1 W2 C1 C2 A1 A2 N1 N2 B D1 D2 L2 L1 Rg NR P1 P2 Num p t v Np Hp Ht m h post a label e Sm MV RP) as (_ & _ & _ & _ & _ & Pe & _). exact Pe. }
    assert (In dd (dnames a)) as Id by (apply D1; apply (in_map fst) in I; exact I).
    rewrite <- (labels_at a2 dd ls W2 I). apply D2. apply in_map_iff in Id. destruct Id as ([k l0] & Ek & Il). cbn in Ek. subst k. rewrite (labels_at a dd l0 W1 Il). apply (Pe dd l0 Il).
  Qed.
End File.

(** ** Benchmark runs *)
Lemma benchmark_aggregation datetime64 cs f leads pl lm : run datetime64 cs f leads = Ok pl ->
  aggregation_method pl lm = mkAgg (if f_temporal f then ["latitude"; "longitude"] else ["init_time"; "latitude"; "longitude"])
    [Regions REGIONS "region" (Some lm)] [GridAreaWeighting "latitude" true] true (String.eqb (f_prediction f) "keisler").
Proof. intros H. apply run_inv in H. destruct H as (pc & tc & cc & it & ls & times & ec & _ & _ & _ & _ & _ & _ & _ & ->). reflexivity. Qed.
Lemma benchmark_regions lm : wf lm -> grid_dims lm -> proper_regions REGIONS (Some lm).
Proof. intros W Gl. split; [apply benchmark_names|]. intros lm' [= <-]. auto. Qed.

(** A benchmark run averages over latitude, longitude and, unless a time series is asked for, the
    initialisation times; the points with a false mask never count, those with a missing forecast or
    target are left out for keisler. *)
Theorem C72_benchmark datetime64 cs f leads pl lm forecast target lats x y p t v m h post a label e :
  run datetime64 cs f leads = Ok pl -> wf lm -> grid_dims lm -> gridded forecast target lats ->
  let over := if f_temporal f then ["latitude"; "longitude"] else ["init_time"; "latitude"; "longitude"] in
  let skipna := String.eqb (f_prediction f) "keisler" in
  numbers true skipna forecast target x y -> NoDup (keys p) -> dget p v = Some forecast -> dget t v = Some target ->
  score m h post -> metric_value (aggregation_method pl lm) p t m v a -> result_point REGIONS (Some lm) over target label e ->
  (exists Q, pair_sample REGIONS (Some lm) true skipna over forecast target label e Q) /\
  forall Q, pair_sample REGIONS (Some lm) true skipna over forecast target label e Q ->
    (exists area, cell_areas lats Q area) /\
    forall area, cell_areas lats Q area -> get a e = post (area_mean Q area (fun q => h (x q - y q))).
Proof.
  intros H W Gl G over sk Num Hn Hp Ht S M RP. rewrite (benchmark_aggregation _ _ _ _ _ _ H) in M.
  exact (C72_score REGIONS (Some lm) over true true sk forecast target lats x y G (benchmark_regions lm W Gl) Num p t v m h post a label e Hn Hp Ht S M RP).
Qed.
(** The value exists when the land-sea mask is on the grid of the data. *)
Theorem C72_benchmark_defined datetime64 cs f leads pl lm forecast target lats x y v m h post :
  run datetime64 cs f leads = Ok pl -> wf lm -> grid_dims lm -> same_grid target lm -> gridded forecast target lats ->
  monotonic lats -> (2 <= List.length lats)%nat -> (f_temporal f = false -> In "init_time" (dnames target)) ->
  numbers true (String.eqb (f_prediction f) "keisler") forecast target x y ->
  score m h post -> exists a, metric_value (aggregation_method pl lm) [(v, forecast)] [(v, target)] m v a.
Proof.
  intros H W Gl SG G Mo Le It Num S. rewrite (benchmark_aggregation _ _ _ _ _ _ H).
  apply (C72_defined REGIONS (Some lm) _ true true _ forecast target lats G (benchmark_regions lm W Gl) v m h post S Mo Le).
  - intros lm' [= <-]. exact SG.
  - discriminate.
  - intros name la lo I. unfold REGIONS in I. cbn [In] in I. repeat (destruct I as [I|I]; [injection I as <- <- <-; reflexivity|]). destruct I.
  - destruct SG as (S1 & S2 & _). intros d. destruct (f_temporal f); cbn [In]; intros I.
    + destruct I as [<-|[<-|[]]]; auto.
    + destruct I as [<-|[<-|[<-|[]]]]; auto.
Qed.

(** ** A case meeting the hypotheses: two latitudes, two longitudes and two initialisation times, the
    second of which is masked; land around the prime meridian. *)
Section Example1.
  Let box := [("init_time", [LZ 0; LZ 1]); ("latitude", [LZ (-45); LZ 45]); ("longitude", [LZ 0; LZ 180])].
  Let fc := mkDa box (fun e => if eq_dec (e "init_time") (LZ 0) then Fin 3 else Fin 1) [].
  Let tg := mkDa box (fun _ => Fin 5) [("mask", mkCoord ["init_time"; "latitude"; "longitude"] (fun e => if eq_dec (e "init_time") (LZ 0) then LB true else LB false))].
  Let lm := mkDa [("latitude", [LZ (-45); LZ 45]); ("longitude", [LZ 0; LZ 180])] (fun e => if eq_dec (e "longitude") (LZ 0) then Fin 1 else Fin 0) [].
  Let lats := [-45; 45].
  Let x q := if eq_dec (q "init_time") (LZ 0) then 3 else 1.
  Let y (_ : env) := 5.
  Let pl (f : flags) (p : plan) := exists cs, public_configs = Ok cs /\ run no_datetime cs f (Ok (map hours [0; 6; 12]%Z)) = Ok p.

  Lemma box_wf g : (forall e e', (forall d, In d ["init_time"; "latitude"; "longitude"] -> e d = e' d) -> g e = g e') -> forall ax, wf (mkDa box g ax).
  Proof.
    intros H ax. split; [repeat constructor; cbn; intuition discriminate|split].
    - intros d ls [[= <- <-]|[[= <- <-]|[[= <- <-]|[]]]]; repeat constructor; cbn; intuition discriminate.
    - exact H.
  Qed.
  Lemma ex_latitudes : Forall2 latitude [LZ (-45); LZ 45] lats.
  Proof. repeat constructor; (eexists; split; [apply number_Z|]); unfold inject_Z, Q2R; cbn [Qnum Qden]; field. Qed.
  Lemma ex_gridded : gridded fc tg lats.
  Proof.
    constructor.
    - apply box_wf. intros e e' H. rewrite (H "init_time"); cbn; auto.
    - apply box_wf. reflexivity.
    - intros d. reflexivity.
    - split; [intros k c E; discriminate|]. intros k c E. cbn in E. destruct (eq_dec k "mask") as [->|]; [|discriminate]. injection E as <-. split; [intros d I; exact I|].
      intros e e' H. cbn. rewrite (H "init_time"); cbn; auto.
    - split; repeat constructor. intros [].
    - split; [intros []|]. intros c E. injection E as <-. intros d I. exact I.
    - exists [LZ (-45); LZ 45]. split; [cbn; auto|apply ex_latitudes].
    - intros z [<-|[<-|[]]]; lra.
    - exists [LZ 0; LZ 180]. split; [cbn; auto|]. intros l [<-|[<-|[]]]; eexists; apply number_Z.
    - cbn. intuition discriminate.
  Qed.
  Lemma ex_land : wf lm /\ grid_dims lm /\ same_grid tg lm.
  Proof.
    split; [|split].
    - split; [repeat constructor; cbn; intuition discriminate|split].
      + intros d ls [[= <- <-]|[[= <- <-]|[]]]; repeat constructor; cbn; intuition discriminate.
      + intros e e' H. unfold lm. cbn [get]. rewrite (H "longitude"); cbn; auto.
    - intros k. cbn. intuition.
    - split; [cbn; auto|]. split; [cbn; auto|]. split; [cbn; tauto|reflexivity].
  Qed.
  Lemma ex_numbers sk : numbers true sk fc tg x y.
  Proof. intros q _ _ _. split; [|reflexivity]. cbn. unfold x. destruct (eq_dec (q "init_time") (LZ 0)); reflexivity. Qed.

  (** The run over 2020: the root mean squared error on land of the northern hemisphere, where only the
      unmasked time counts, and in the tropics, where there is no point. *)
  Example C72_example : exists f p a, pl f p /\ metric_value (aggregation_method p lm) [("t", fc)] [("t", tg)] RMSE "t" a /\
    get a (upd env0 "region" (LS "northern-hemisphere_land")) = Fin 2 /\ get a (upd env0 "region" (LS "tropics")) = NaN.
  Proof.
    destruct C71_a_run as (cs & p & Hc & Hr & _). exists hres_2020, p. destruct ex_land as (W & Gl & SG).
    destruct (C72_benchmark_defined no_datetime cs hres_2020 _ p lm fc tg lats x y "t" RMSE (fun d => d * d) root Hr W Gl SG ex_gridded) as [a Ha];
      [left; repeat constructor; lra|cbn; lia|intros _; cbn; auto|apply ex_numbers|apply score_rmse|].
    exists a. split; [exists cs; auto|]. split; [exact Ha|].
    assert (forall label, In label (all_names REGIONS) -> result_point REGIONS (Some lm) ["init_time"; "latitude"; "longitude"] tg label (upd env0 "region" (LS label))) as RP.
    { intros label I. split; [reflexivity|]. split; [exact I|]. intros d Id Nd. exfalso. apply Nd, Id. }
    pose proof (fun label e => C72_benchmark no_datetime cs hres_2020 _ p lm fc tg lats x y [("t", fc)] [("t", tg)] "t" RMSE (fun d => d * d) root a label e Hr W Gl ex_gridded (ex_numbers _)) as K.
    assert (forall label, In label (all_names REGIONS) -> exists Q area, pair_sample REGIONS (Some lm) true false ["init_time"; "latitude"; "longitude"] fc tg label (upd env0 "region" (LS label)) Q /\ cell_areas lats Q area /\
      get a (upd env0 "region" (LS label)) = root (area_mean Q area (fun q => (x q - y q) * (x q - y q)))) as V.
    { intros label I. destruct (K label (upd env0 "region" (LS label))) as [[Q PS] V]; [repeat constructor; intros []|reflexivity|reflexivity|apply score_rmse|exact Ha|apply RP, I|].
      destruct (V Q PS) as [[area CA] Ev]. exists Q, area. split; [exact PS|]. split; [exact CA|]. apply Ev, CA. }
    clear K. assert (forall q l, is_number (q "latitude") l -> (q "latitude" = LZ (-45) \/ q "latitude" = LZ 45) -> (l == -45 \/ l == 45)%Q) as NL.
    { intros q l N [E|E]; rewrite E in N; inversion N; subst; [left|right]; reflexivity. }
    split.
    - destruct (V "northern-hemisphere_land") as (Q & area & [_ PS] & CA & ->); [cbn; intuition|].
      assert (forall q, In q Q -> x q = 3 /\ 0 < area q) as HQ.
      { intros q I. pose proof I as I'. apply PS in I'. destruct I' as (_ & B & M & _ & _). split.
        - unfold x. specialize (M eq_refl _ eq_refl). cbn in M. destruct (eq_dec (q "init_time") (LZ 0)); [reflexivity|discriminate].
        - assert (In (q "latitude") [LZ (-45); LZ 45]) as Il by (apply (B "latitude"); cbn; auto). destruct (Props_Weighting.some_latitude _ _ _ ex_latitudes Il) as [z Hz].
          destruct (CA q z I Hz) as (s & n & E1 & E2 & ->). assert (In z lats) as Iz.
          { destruct Hz as (qz & Nz & ->). destruct Il as [El|[El|[]]]; rewrite <- El in Nz; inversion Nz; subst; [left|right; left]; unfold inject_Z, Q2R; cbn [Qnum Qden]; field. }
          destruct (Props_Weighting.C38_cells lats z ltac:(apply ex_gridded) Iz) as [P _]. apply P; auto. }
      assert (exists q, In q Q) as [q0 I0].
      { exists (upd (upd (upd (upd env0 "region" (LS "northern-hemisphere_land")) "latitude" (LZ 45)) "longitude" (LZ 0)) "init_time" (LZ 0)). apply PS.
        split; [|split; [|split; [|split]]].
        - intros d Nd. cbn in Nd. unfold upd. repeat (destruct (string_dec _ _) as [->|]; [try tauto|]); reflexivity.
        - intros d [<-|[<-|[<-|[]]]]; cbn; auto.
        - intros _ c E. injection E as <-. reflexivity.
        - discriminate.
        - apply (in_limits_on_land REGIONS (Some lm) "northern-hemisphere" (20, 90)%Q (0, 360)%Q _ (inject_Z 45) (inject_Z 0) lm).
          + reflexivity.
          + cbn; tauto.
          + apply number_Z.
          + apply number_Z.
          + split; discriminate.
          + apply on_globe.
          + cbn. intros E. injection E as E. lra. }
      assert (forall l, (forall q, In q l -> x q = 3 /\ 0 < area q) -> total (fun q => area q * ((x q - y q) * (x q - y q))) l = 4 * total area l /\ 0 <= total area l /\ (l <> [] -> 0 < total area l)) as T.
      { induction l as [|q l IH]; intros H; [unfold total; cbn; split; [lra|split; [lra|congruence]]|]. destruct IH as (T1 & T2 & _); [intros; apply H; now right|].
        destruct (H q (or_introl eq_refl)) as [X P]. unfold total in *. cbn [map fold_right]. rewrite X. unfold y. split; [|split; [lra|intros; lra]].
        unfold y in T1. rewrite T1. ring. }
      destruct (T Q HQ) as (T1 & _ & T2). unfold area_mean. destruct Q as [|q1 Q']; [destruct I0|]. rewrite T1. cbn [root]. f_equal.
      replace (4 * total area (q1 :: Q') / total area (q1 :: Q')) with (2 * 2); [apply sqrt_square; lra|]. field. apply Rgt_not_eq, T2. discriminate.
    - destruct (V "tropics") as (Q & area & [_ PS] & CA & ->); [cbn; intuition|]. destruct Q as [|q Q]; [reflexivity|]. exfalso.
      destruct (proj1 (PS q) (or_introl eq_refl)) as (_ & B & _ & _ & IR).
      apply (in_region_name REGIONS (Some lm) (benchmark_names lm) "tropics" ((-20, 20), (0, 360))%Q q) in IR; [|cbn; tauto]. destruct IR as (l & lo & N & _ & Hl & _).
      assert (In (q "latitude") [LZ (-45); LZ 45]) as Il by (apply (B "latitude"); cbn; auto).
      destruct (NL q l N) as [E|E]; [cbn in Il; intuition| |]; cbn in Hl; Lqa.lra.
  Qed.
End Example1.

Print Assumptions C72_score.
Print Assumptions C72_statistic.
Print Assumptions C72_defined.
Print Assumptions C72_region_names.
Print Assumptions C72_belts.
Print Assumptions C72_belts_cover.
Print Assumptions C72_across_meridians.
Print Assumptions C72_boxes.
Print Assumptions C72_file.
Print Assumptions C72_benchmark.
Print Assumptions C72_benchmark_defined.
