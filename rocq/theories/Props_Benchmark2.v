(** C71, continued: single members of an ensemble, and the climatology as an ensemble. *)
From Coq Require Import String Ascii ZArith Lia List Bool Reals.
Import ListNotations.
From Verif Require Import Prelude Values Model_XArray Spec_XArray Model_MetricsBase Model_Calendar Model_TimeChunks Model_Loaders Model_Prepare Model_Select
  Model_Combine Model_Benchmark Spec_Calendar Spec_TimeChunks Spec_Loaders Spec_Select Spec_Benchmark Proofs_XArray Proofs_Calendar Proofs_Calendar2 Proofs_Loaders Proofs_Loaders2
  Proofs_Prepare Proofs_Prepare2 Proofs_Benchmark Proofs_Benchmark2 Props_Loaders Props_Benchmark Proofs_Select.
Local Open Scope Z_scope.
Local Open Scope string_scope.
Local Open Scope list_scope.

(** ** Single members *)
(** The first member: the first of the four dimensions the data set has is dropped, at its first
    label; variables without it are kept. *)
Definition member_dimension (ds : vars da) (d : string) : Prop :=
  exists before after, ["number"; "sample"; "member"; "realization"] = before ++ d :: after /\ dataset_dim ds d /\ forall d', In d' before -> ~ dataset_dim ds d'.
Lemma ds_has_dim_iff ds d : ds_has_dim ds d = true <-> dataset_dim ds d.
Proof.
  unfold ds_has_dim. rewrite existsb_exists. split; [intros ([v a] & I & M); exists v, a; split; [exact I|apply memb_In, M]|intros (v & a & I & M); exists (v, a); split; [exact I|apply memb_In, M]].
Qed.
Lemma find_split {A} (f : A -> bool) l x : find f l = Some x -> exists b a, l = b ++ x :: a /\ f x = true /\ forall y, In y b -> f y = false.
Proof.
  induction l as [|y l IH]; [discriminate|]. cbn [find]. destruct (f y) eqn:E; [intros [= <-]; exists [], l; split; [reflexivity|split; [exact E|contradiction]]|].
  intros H. destruct (IH H) as (b & a & -> & F & N). exists (y :: b), a. split; [reflexivity|]. split; [exact F|]. intros z [<-|I]; auto.
Qed.
Lemma isel_first_fst d : forall kv r : string * da, (if memb d (dnames (snd kv)) then do a <- isel_one d (PosAt 0) (snd kv); Ok (fst kv, a) else Ok kv) = Ok r -> fst r = fst kv.
Proof. intros kv r. destruct (memb _ _); [destruct (isel_one _ _ _); [|discriminate]; cbn [bind]|]; intros [= <-]; reflexivity. Qed.
Theorem C71_first_member ds out : dataset ds -> select_first_member ds = Ok out ->
  exists d, member_dimension ds d /\
    chunk_of ds (fun a => In d (dnames a))
      (fun a b => exists first others, dget (dims a) d = Some (first :: others) /\ answers [d] [] (fun e e' => e' d = first /\ same_except [d] e e') a b) out.
Proof.
  intros D H. unfold select_first_member in H. destruct (find (ds_has_dim ds) member_dims) as [d|] eqn:E; [|discriminate]. destruct (find_split _ _ _ E) as (b & a & Es & Hd & Hb).
  exists d. split. { exists b, a. split; [exact Es|]. split; [apply ds_has_dim_iff, Hd|]. intros d' I C. apply ds_has_dim_iff in C. rewrite (Hb _ I) in C. discriminate. }
  unfold isel_first in H. pose proof (mapM_keys _ _ _ (isel_first_fst d) H) as K. split; [exact K|]. intros v x G. destruct (mapM_dget _ _ _ _ _ (isel_first_fst d) H G) as (y & Ey & Gy). cbn [fst snd] in Ey.
  exists y. split; [exact Gy|]. destruct (memb d (dnames x)) eqn:M.
  - apply memb_In in M. split; [|intros N; contradiction]. intros _. destruct (isel_one d (PosAt 0) x) as [y'|] eqn:Eo; [|discriminate]. cbn [bind] in Ey. injection Ey as ->.
    destruct (isel_one_spec _ _ _ _ Eo) as (have & ix & Gh & L & S1). destruct ix as [l| |]; try contradiction. cbn [labels_at] in L. destruct L as (p & Np & Ep). change (Z.ltb 0 0) with false in Ep. cbv iota in Ep. assert (p = 0%nat) as -> by lia.
    destruct have as [|l0 rest]; [discriminate|]. cbn in Np. injection Np as ->. exists l, rest. split; [exact Gh|].
    pose proof (dataset_get _ _ _ D G) as W. pose proof (sel1_tidy _ _ _ _ (wf_tidy _ W) S1) as [T1 T2]. unfold sel1 in S1. rewrite Gh in S1. destruct S1 as (_ & Dy & Vy). split.
    + split; [exact T1|]. split; [|exact T2]. intros n ls I. rewrite Dy in I. unfold keep in I. apply filter_In in I. destruct W as (_ & W & _). apply (W n ls), I.
    + intros ? ? [].
    + intros n [<-|[]] _ I. unfold dnames in I. rewrite Dy in I. apply (proj1 (keep_names_in _ _ _)) in I. destruct I as [_ I]. rewrite eqb_refl in I. discriminate.
    + intros n N _. rewrite Dy, dget_keep. assert (negb (eqb n d) = true) as -> by (apply negb_true_iff, eqb_false_iff; intros ->; apply N; left; reflexivity). reflexivity.
    + intros e e' _ [E1 E2]. rewrite Vy. destruct W as (_ & _ & W). apply W. intros n _. unfold upd. destruct (string_dec n d) as [->|Ne]; [symmetry; exact E1|]. symmetry. apply E2. intros [C|[]]. congruence.
  - apply memb_false in M. split; [intros I; contradiction|]. intros _. injection Ey as ->. reflexivity.
Qed.
(** Without such a dimension ValueError; if it has no labels IndexError; no other error. *)
Theorem C71_first_member_errors ds er : select_first_member ds = Err er ->
  (er = ValueError /\ forall d, In d ["number"; "sample"; "member"; "realization"] -> ~ dataset_dim ds d)
  \/ (er = IndexError /\ exists d v a, member_dimension ds d /\ In (v, a) ds /\ dget (dims a) d = Some []).
Proof.
  intros H. unfold select_first_member in H. destruct (find (ds_has_dim ds) member_dims) as [d|] eqn:E.
  - right. destruct (find_split _ _ _ E) as (b & a & Es & Hd & Hb).
    assert (member_dimension ds d) as Hm. { exists b, a. split; [exact Es|]. split; [apply ds_has_dim_iff, Hd|]. intros d' I C. apply ds_has_dim_iff in C. rewrite (Hb _ I) in C. discriminate. }
    unfold isel_first in H. assert (er = IndexError /\ exists v x, In (v, x) ds /\ dget (dims x) d = Some []) as (-> & v & x & I & G); [|split; [reflexivity|exists d, v, x; auto]].
    clear - H. induction ds as [|[v x] ds IH]; [discriminate|]. cbn [mapM fst snd] in H. destruct (memb d (dnames x)) eqn:M.
    + destruct (isel_one d (PosAt 0) x) as [y|e1] eqn:Eo; cbn [bind] in H.
      * destruct (mapM _ ds) eqn:Em; cbn [bind] in H; [discriminate|]. destruct (IH H) as (-> & v' & x' & I & G). split; [reflexivity|]. exists v', x'. split; [right; exact I|exact G].
      * injection H as ->. destruct (isel_one_err _ _ _ _ Eo) as [[_ N]|[-> Id]]; [apply memb_In in M; contradiction|]. split; [reflexivity|]. exists v, x. split; [left; reflexivity|].
        unfold isel_one in Eo. destruct (dget (dims x) d) as [have|] eqn:G; [|discriminate]. destruct have as [|l rest]; [reflexivity|]. exfalso.
        cbn in Eo. unfold sel_array in Eo. cbn [sel_kwargs sel_indexer] in Eo. unfold sel_scalar in Eo. assert (has_dim [("", x)] d = true) as Hd by (apply has_dim_iff; exists "", x; split; [left; reflexivity|exact Id]).
        rewrite Hd in Eo. cbn [mapM fst snd] in Eo. rewrite G in Eo. assert (memb l (l :: rest) = true) as Ml by (apply memb_In; left; reflexivity). rewrite Ml in Eo. discriminate.
    + cbn [bind] in H. destruct (mapM _ ds) eqn:Em; cbn [bind] in H; [discriminate|]. destruct (IH H) as (-> & v' & x' & I & G). split; [reflexivity|]. exists v', x'. split; [right; exact I|exact G].
  - left. injection H as <-. split; [reflexivity|]. intros d I C. apply ds_has_dim_iff in C. pose proof (find_none _ _ E _ I) as N. congruence.
Qed.

(** For every ensemble there is a deterministic prediction by its mean and one by its first member,
    the latter from the same data; nothing else is read by first members. *)
Definition first_member (c : config) : Prop := exists k, c_kwargs c = Some k /\ k_preprocessing_fn k = Some FirstMember.
Definition ensembles : list (string * string) :=
  list_prod ["ens"] ["64x32_2018"; "64x32_2020"; "64x32_2022"; "240x121_2018"; "240x121_2020"; "240x121_2022"; "1440x721_2018"; "1440x721_2020"; "1440x721_2022"]
  ++ list_prod ["neuralgcm_ens"] ["64x32_2020"; "240x121_2020"].
Lemma ensembles_all : keys (probabilistic_prediction pub) = map (fun p => (fst p ++ "_" ++ snd p)%string) ensembles.
Proof. vm_compute. reflexivity. Qed.
Definition preprocessing_of (c : config) : option preprocessing := match c_kwargs c with Some k => k_preprocessing_fn k | None => None end.
Definition is_first (c : config) : bool := match preprocessing_of c with Some FirstMember => true | _ => false end.
Lemma firsts_all : map fst (filter (fun kc => is_first (snd kc)) (deterministic_prediction pub)) = map (fun p => (fst p ++ "_single_member_" ++ snd p)%string) ensembles.
Proof. vm_compute. reflexivity. Qed.
Lemma is_first_iff c : is_first c = true <-> first_member c.
Proof.
  unfold is_first, preprocessing_of, first_member. destruct (c_kwargs c) as [k|]; [|split; [discriminate|intros (k & ? & _); discriminate]].
  destruct (k_preprocessing_fn k) as [[|]|] eqn:E; split; try discriminate; try (intros (k' & [= <-] & F); congruence). intros _. eauto.
Qed.
Lemma ensembles_ok : forall p, In p ensembles -> exists c m s,
  dget (probabilistic_prediction pub) (fst p ++ "_" ++ snd p)%string = Some c /\
  dget (deterministic_prediction pub) (fst p ++ "_mean_" ++ snd p)%string = Some m /\ dget (deterministic_prediction pub) (fst p ++ "_single_member_" ++ snd p)%string = Some s /\
  c_path s = c_path c /\ c_path m <> c_path c /\ preprocessing_of m = None /\ preprocessing_of c = None /\ preprocessing_of s = Some FirstMember /\ c_variables s = c_variables c /\ c_variables m = c_variables c /\ c_levels s = c_levels c.
Proof.
  intros p I. vm_compute in I. repeat (destruct I as [<-|I]; [do 3 eexists; split; [vm_compute; reflexivity|]; split; [vm_compute; reflexivity|]; split; [vm_compute; reflexivity|]; repeat split; vm_compute; discriminate|]). contradiction.
Qed.
Theorem C71_single_members cs : public_configs = Ok cs ->
  (forall name c, dget (probabilistic_prediction cs) name = Some c ->
     exists ensemble grid_year mean single, name = (ensemble ++ "_" ++ grid_year)%string /\
       dget (deterministic_prediction cs) (ensemble ++ "_mean_" ++ grid_year)%string = Some mean /\
       dget (deterministic_prediction cs) (ensemble ++ "_single_member_" ++ grid_year)%string = Some single /\
       first_member single /\ ~ first_member mean /\ ~ first_member c /\
       c_path single = c_path c /\ c_path mean <> c_path c /\ c_variables single = c_variables c /\ c_variables mean = c_variables c /\ c_levels single = c_levels c) /\
  (forall name s, dget (deterministic_prediction cs) name = Some s -> first_member s ->
     exists ensemble grid_year c, name = (ensemble ++ "_single_member_" ++ grid_year)%string /\ dget (probabilistic_prediction cs) (ensemble ++ "_" ++ grid_year)%string = Some c).
Proof.
  rewrite public_is. intros [= <-]. split.
  - intros name c G. pose proof (dget_Some_keys _ _ G) as I. rewrite ensembles_all in I. apply in_map_iff in I. destruct I as ([e gy] & <- & I). destruct (ensembles_ok _ I) as (c' & m & s & G1 & G2 & G3 & R). cbn [fst snd] in *.
    assert (c' = c) as -> by congruence. exists e, gy, m, s. destruct R as (R1 & R2 & R3 & R4 & R5 & R6 & R7 & R8). repeat (split; [auto; fail|]). rewrite <- !is_first_iff. unfold is_first. rewrite R3, R4, R5.
    repeat split; auto; discriminate.
  - intros name s G F. apply is_first_iff in F. assert (In name (map fst (filter (fun kc => is_first (snd kc)) (deterministic_prediction pub)))) as I.
    { apply in_map_iff. exists (name, s). split; [reflexivity|]. apply filter_In. split; [apply (dget_In _ _ G)|exact F]. }
    rewrite firsts_all in I. apply in_map_iff in I. destruct I as ([e gy] & <- & I). destruct (ensembles_ok _ I) as (c & m & s' & G1 & _). exists e, gy, c. split; [reflexivity|exact G1].
Qed.

(** ** The climatology as an ensemble *)
Lemma own_hour y t : in_year y 0 0 t -> (hours 1 | t) -> same_hour_in_year y t t.
Proof.
  intros (d0 & d1 & J0 & J1 & B) [q Eq]. apply cat_time_iff. apply jan1_start in J0, J1. subst d0 d1. destruct (time_decompose t) as (r & Hr & E).
  assert (year_of t = y) as Ey. { unfold year_of. apply year_unique. unfold day_of. unfold days, hours in B. split; [apply Z.div_le_lower_bound|apply Z.div_lt_upper_bound]; change ns_day with 86400000000000; lia. }
  unfold cat_time. rewrite Ey in E. unfold hours in Eq. change ns_day with (24 * 3600000000000) in *. change ns_hour with 3600000000000 in *. set (h := hour_of t) in *. set (d := dayofyear t) in *. set (ys := year_start y) in *. clearbody h d ys. lia.
Qed.
(** "A baseline only uses what was known when the forecast starts" fails for the probabilistic climatology verified in a
    year up to 2019: of its thirty members one is the truth it is compared with. *)
Theorem C71_climatology_knows_the_past_only_refuted datetime64 cs f leads p : public_configs = Ok cs -> run datetime64 cs f leads = Ok p ->
  f_prediction f = "probabilistic_climatology" -> f_target f = "era5" ->
  exists first last, p_class p = ProbabilisticClimatology first last /\ p_path p = p_target_path p /\
    forall y, 1990 <= y <= 2019 ->
    forall ds inits ls forecasts truths, dataset ds -> NoDup inits -> NoDup ls ->
      ProbabilisticClimatologyFromXarray first last "number" ds inits (Some (ChunkArr ls)) = Ok forecasts ->
      TargetsFromXarray ds inits (Some (ChunkArr ls)) = Ok truths ->
      forall v a forecast truth, dget ds v = Some a -> In "valid_time" (dnames a) -> dget forecasts v = Some forecast -> dget truths v = Some truth ->
      forall e t l, point_of (dims forecast) e -> point_of (dims truth) e -> at_time e t l -> in_year y 0 0 (t + l) -> (hours 1 | t + l) ->
        e "number" = LZ (y - 1990) -> get forecast e = get truth e.
Proof.
  intros Hc H Hp Ht. apply run_inv in H. destruct H as (pc & tc & cc & it & lt & times & ec & E1 & E2 & _ & _ & _ & _ & _ & ->). cbn [p_class p_path p_target_path].
  exists 1990, 2019. split; [unfold prediction_class; rewrite Hp; reflexivity|]. split.
  { unfold prediction_config in E1. rewrite Hp in E1. change (String.eqb "probabilistic_climatology" "persistence") with false in E1. change (String.eqb "probabilistic_climatology" "probabilistic_climatology") with true in E1. cbv iota in E1.
    rewrite Ht in E2. change ("era5" ++ "_" ++ f_resolution f)%string with ("era5_" ++ f_resolution f)%string in E2. rewrite E2 in E1. cbn [bind] in E1. injection E1 as <-. reflexivity. }
  intros y Hy ds inits ls fc tr D Ni Nl F1 F2 v a x z G Iv Gx Gz e t l P1 P2 At Iy Ih En.
  destruct (C42_members_are_years _ _ "number" _ _ _ _ D Ni Nl ltac:(discriminate) ltac:(discriminate) ltac:(discriminate) F1) as (_ & _ & Q1). destruct (Q1 v a G) as (x' & Gx' & A1 & _). rewrite Gx in Gx'. injection Gx' as <-.
  destruct (C41_targets_at_valid_time _ _ _ _ D Ni Nl F2) as (_ & Q2). destruct (Q2 v a G) as (z' & Gz' & A2 & _). rewrite Gz in Gz'. injection Gz' as <-.
  set (e' := upd e "valid_time" (LZ (t + l))). assert (same_except ["valid_time"] e e') as Se. { intros d N. unfold e', upd. destruct (string_dec d "valid_time") as [->|]; [exfalso; apply N; left; reflexivity|reflexivity]. }
  assert (e' "valid_time" = LZ (t + l)) as Ee by reflexivity.
  transitivity (get a e').
  - apply (an_value _ _ _ _ _ (A1 Iv) e e' P1). exists (y - 1990), t, l, (t + l). split; [exact En|]. split; [exact At|]. split; [|split; [exact Ee|exact Se]]. replace (1990 + (y - 1990)) with y by ring. apply own_hour; auto.
  - symmetry. apply (an_value _ _ _ _ _ (A2 Iv) e e' P2). exists t, l. auto.
Qed.
(** From 2020 on the members are from before the start of the forecast, for lead times up to 15 days. *)
Theorem C71_climatology_knows_the_past_only prediction y t lead member T : 2020 <= y -> evaluated_init prediction y t -> 0 <= lead <= days 15 ->
  1990 <= member <= 2019 -> same_hour_in_year member (t + lead) T -> T <= t.
Proof.
  intros Hy [(d0 & d1 & J0 & J1 & B) _] Hl Hm Hs. apply cat_time_iff in Hs. subst T. apply jan1_start in J0, J1. subst d0 d1.
  assert (0 <= late_start prediction y) as Hls by (unfold late_start, hours; destruct (_ && _); lia).
  assert (year_start 2020 <= year_start y) as H20 by (destruct (Z.eq_dec y 2020) as [->|]; [lia|apply Z.lt_le_incl, year_start_mono; lia]).
  assert (year_start member + (if is_leap member then 366 else 365) <= year_start 2020) as Hmm. { rewrite <- year_start_next. destruct (Z.eq_dec (member + 1) 2020) as [->|]; [lia|]. apply Z.lt_le_incl, year_start_mono. lia. }
  pose proof (dayofyear_range (t + lead)) as Hd. pose proof (hour_range (t + lead)) as Hh. destruct (time_decompose (t + lead)) as (r & Hr & E).
  unfold cat_time. change ns_day with (24 * 3600000000000) in *. change ns_hour with 3600000000000 in *. unfold days, hours in *.
  destruct (Z_le_gt_dec (dayofyear (t + lead)) 365) as [Hle|Hgt].
  - destruct (is_leap member); lia.
  - destruct (is_leap (year_of (t + lead))) eqn:El; [|lia]. assert (year_start 2020 <= year_start (year_of (t + lead))) as Hv.
    { assert (2020 <= year_of (t + lead)) as K; [|destruct (Z.eq_dec (year_of (t + lead)) 2020) as [->|]; [lia|apply Z.lt_le_incl, year_start_mono; lia]].
      destruct (Z_le_gt_dec 2020 (year_of (t + lead))) as [|G]; [assumption|]. exfalso. pose proof (year_of_day_spec (day_of (t + lead))) as [_ S]. fold (year_of (t + lead)) in S.
      assert (year_start (year_of (t + lead) + 1) <= year_start 2020) by (destruct (Z.eq_dec (year_of (t + lead) + 1) 2020) as [->|]; [lia|apply Z.lt_le_incl, year_start_mono; lia]).
      unfold day_of in S. assert ((t + lead) / ns_day >= year_start 2020); [|lia]. apply Z.le_ge, Z.div_le_lower_bound; change ns_day with 86400000000000; lia. }
    destruct (is_leap member); lia.
Qed.

(** ** The hypotheses are met *)
Definition climatology_2018 : flags := mkFlags "probabilistic_climatology" "era5" "64x32" "2018" None None None None None 6 1 12 false.
Example C71_a_leaking_run : exists p, run no_datetime pub climatology_2018 (Err FileNotFoundError) = Ok p /\ p_probabilistic p = true /\ p_file p = "probabilistic_climatology_vs_era5_64x32_2018.nc".
Proof.
  assert (match run no_datetime pub climatology_2018 (Err FileNotFoundError) with Ok p => Some (p_probabilistic p, p_file p) | Err _ => None end = Some (true, "probabilistic_climatology_vs_era5_64x32_2018.nc")) as H by (vm_compute; reflexivity).
  destruct (run no_datetime pub climatology_2018 _) as [p|]; [|discriminate]. exists p. injection H as H1 H2. auto.
Qed.
(** 2018-01-01T06, forecast from midnight; a data set with this hour of each year. *)
Definition init_2018 : Z := days (year_start 2018).
Definition era5_hours : vars da := [("t", mkDa [("valid_time", map (fun y => LZ (cat_time y (init_2018 + hours 6))) (zrange 1990 2020))] (fun _ => Fin 0%R) [])].
Example C71_leak_reached : dataset era5_hours /\
  (exists out, ProbabilisticClimatologyFromXarray 1990 2019 "number" era5_hours [init_2018] (Some (ChunkArr [hours 6])) = Ok out) /\
  (exists out, TargetsFromXarray era5_hours [init_2018] (Some (ChunkArr [hours 6])) = Ok out) /\
  in_year 2018 0 0 (init_2018 + hours 6) /\ (hours 1 | init_2018 + hours 6).
Proof.
  assert (forall v a, In (v, a) era5_hours -> dims a = [("valid_time", map (fun y => LZ (cat_time y (init_2018 + hours 6))) (zrange 1990 2020))]) as Q by (intros v a [[= <- <-]|[]]; reflexivity).
  assert (dataset_dim era5_hours "valid_time") as Hd by (eexists; eexists; split; [left; reflexivity|left; reflexivity]).
  assert (forall y, 1990 <= y <= 2019 -> In y (zrange 1990 2020)) as Hz. { intros y Hy. unfold zrange. apply in_map_iff. exists (Z.to_nat (y - 1990)). split; [lia|]. apply in_seq. change (Z.to_nat (2020 - 1990)) with 30%nat. lia. }
  split; [|split; [|split; [|split]]].
  - split; [repeat constructor; cbn; tauto|]. intros v a [[= <- <-]|[]]. split; [repeat constructor; cbn; tauto|]. split; [|reflexivity]. intros d ls [[= <- <-]|[]]. vm_compute. repeat (constructor; [intros I; repeat (destruct I as [I|I]; [discriminate I|]); contradiction|]). constructor.
  - apply C42_members_all_or_nothing; [repeat constructor; cbn; tauto|repeat constructor; cbn; tauto|discriminate|discriminate|lia|]. split; [exact Hd|].
    intros v a y t l T I Iv Hy [<-|[]] [<-|[]] Sh. apply cat_time_iff in Sh. subst T. unfold labels_of. rewrite (Q _ _ I). cbn [dget]. destruct (eq_dec "valid_time" "valid_time"); [|congruence]. apply in_map_iff. exists y. split; [reflexivity|apply Hz, Hy].
  - apply C41_targets_all_or_nothing; [repeat constructor; cbn; tauto|repeat constructor; cbn; tauto|]. split; [exact Hd|].
    intros v a t l I Iv [<-|[]] [<-|[]]. unfold labels_of. rewrite (Q _ _ I). cbn [dget]. destruct (eq_dec "valid_time" "valid_time"); [|congruence]. apply in_map_iff. exists 2018. split; [vm_compute; reflexivity|apply Hz; lia].
  - exists (year_start 2018), (year_start 2019). split; [apply start_jan1|]. split; [apply start_jan1|]. vm_compute. split; [discriminate|reflexivity].
  - exists (24 * year_start 2018 + 6). vm_compute. reflexivity.
Qed.
(** A data set of one variable with two members along "realization". *)
Definition two_members : vars da := [("t", mkDa [("realization", [LZ 5; LZ 6])] (fun e => if eq_dec (e "realization") (LZ 5) then Fin 1%R else Fin 0%R) [])].
Example C71_first_of_two : dataset two_members /\ exists out, select_first_member two_members = Ok out.
Proof.
  split; [|eexists; reflexivity]. split; [repeat constructor; cbn; tauto|]. intros v a [[= <- <-]|[]]. split; [repeat constructor; cbn; tauto|]. split; [intros d ls [[= <- <-]|[]]; repeat constructor; cbn; intuition congruence|].
  intros e e' H. cbn. rewrite (H "realization") by (left; reflexivity). reflexivity.
Qed.
Print Assumptions C71_first_member.
Print Assumptions C71_first_member_errors.
Print Assumptions C71_single_members.
Print Assumptions C71_climatology_knows_the_past_only_refuted.
Print Assumptions C71_climatology_knows_the_past_only.
