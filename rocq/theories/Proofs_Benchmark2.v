(** Lemmas for the benchmark script: the window of a year, and the runs the public configurations admit. *)
From Coq Require Import String Ascii ZArith Lia List Bool Sorting.Sorted.
Import ListNotations.
From Verif Require Import Prelude Values Model_XArray Model_MetricsBase Model_Calendar Model_TimeChunks Model_Combine Model_Benchmark
  Spec_Calendar Spec_Benchmark Spec_Combine Proofs_Calendar Proofs_Calendar2 Proofs_Benchmark.
Local Open Scope Z_scope.
Local Open Scope string_scope.
Local Open Scope list_scope.

Definition default_window (f : flags) : Prop := f_time_start f = None /\ f_time_stop f = None.

Lemma init_window datetime64 f y : default_window f -> f_time_frequency f = None -> four_digits (f_year f) y ->
  exists start stop ts, init_times datetime64 f = Ok (ts, f_year f) /\ every start stop (spacing (f_prediction f)) ts
    /\ start = days (year_start y) + late_start (f_prediction f) y /\ stop = days (year_start (y + 1)) - early_end (f_prediction f) y.
Proof.
  intros [H1 H2] Hf Hy. unfold init_times, window. rewrite H1, H2. cbn [bind]. rewrite (year_number_ok _ _ Hy). cbn [bind].
  rewrite (year_string_eqb _ _ _ _ Hy y2022), (year_string_eqb _ _ _ _ Hy y2020).
  assert (frequency f = spacing (f_prediction f)) as Ef by (unfold frequency, spacing, hours; rewrite Hf; destruct (String.eqb _ _); reflexivity). rewrite Ef.
  assert (0 < spacing (f_prediction f)) as Hs by (unfold spacing, hours; destruct (String.eqb _ _); lia).
  assert (memb (f_prediction f) ["fuxi"; "excarta"] = String.eqb (f_prediction f) "fuxi" || String.eqb (f_prediction f) "excarta") as Em.
  { apply Bool.eq_iff_eq_true. rewrite memb_In, orb_true_iff, !String.eqb_eq. cbn. intuition auto. }
  rewrite Em. clear Em. unfold late_start, early_end.
  set (P := f_prediction f) in *. clearbody P.
  assert (forall a b s, exists start stop ts, (do ts <- arange a b (spacing P); Ok (ts, s : string)) = Ok (ts, s) /\ every start stop (spacing P) ts /\ start = a /\ stop = b) as Q.
  { intros a b s. destruct (arange_total a b (spacing P) ltac:(lia)) as (ts & E). exists a, b, ts. rewrite E. split; [reflexivity|]. split; [apply (arange_every _ _ _ _ Hs E)|auto]. }
  destruct (y =? 2022)%Z eqn:Ey; cbn [orb andb].
  - rewrite date_december, !date_jan1. destruct (String.eqb P "aurora") eqn:Ea; cbn [bind]; destruct (Q (if String.eqb P "aurora" then date y 1 1 12 else date y 1 1 0) (days (year_start (y + 1)) - days (32 - 16) + hours 0) (f_year f)) as (a & b & ts & E1 & E2 & E3 & E4); rewrite Ea, !date_jan1 in *; exists a, b, ts; (split; [exact E1|]); (split; [exact E2|]); (split; [rewrite E3; unfold hours; lia|]); rewrite E4; unfold days, hours; lia.
  - destruct (String.eqb P "fuxi" || String.eqb P "excarta") eqn:Eo.
    + assert (String.eqb P "aurora" = false) as ->. { apply orb_true_iff in Eo. destruct Eo as [Eo|Eo]; apply String.eqb_eq in Eo; subst P; reflexivity. }
      cbn [bind]. rewrite date_december, date_jan1. destruct (Q (days (year_start y) + hours 0) (days (year_start (y + 1)) - days (32 - 16) + hours 0) (f_year f)) as (a & b & ts & E1 & E2 & E3 & E4). exists a, b, ts. split; [exact E1|]. split; [exact E2|]. split; [rewrite E3; unfold hours; lia|]. rewrite E4. unfold days, hours. lia.
    + destruct ((y =? 2020)%Z && String.eqb P "baguan") eqn:Eb; cbn [bind].
      * rewrite date_december, date_jan1. destruct (Q (days (year_start y) + hours 0) (days (year_start (y + 1)) - days (32 - 30) + hours 12) (f_year f)) as (a & b & ts & E1 & E2 & E3 & E4). exists a, b, ts. split; [exact E1|]. split; [exact E2|]. split; [rewrite E3; unfold hours; lia|]. rewrite E4. unfold days, hours. lia.
      * rewrite !date_jan1. destruct (Q (days (year_start y) + hours 0) (days (year_start (y + 1)) + hours 0) (f_year f)) as (a & b & ts & E1 & E2 & E3 & E4). exists a, b, ts. split; [exact E1|]. split; [exact E2|]. split; [rewrite E3; unfold hours; lia|]. rewrite E4. unfold days, hours. lia.
Qed.

Lemma spacing_pos P : 0 < spacing P. Proof. unfold spacing, hours. destruct (String.eqb _ _); lia. Qed.
Lemma start_aligned P y n : (spacing P | days n + late_start P y).
Proof.
  destruct (divides_day n) as [D12 D24]. unfold spacing, late_start. destruct (String.eqb_spec P "excarta") as [->|].
  - change (String.eqb "excarta" "aurora") with false. rewrite andb_false_r, Z.add_0_r. exact D24.
  - destruct (_ && _); [apply Z.divide_add_r; [exact D12|apply Z.divide_refl]|rewrite Z.add_0_r; exact D12].
Qed.
Lemma init_members P y start stop ts : every start stop (spacing P) ts ->
  start = days (year_start y) + late_start P y -> stop = days (year_start (y + 1)) - early_end P y ->
  forall t, In t ts <-> evaluated_init P y t.
Proof.
  intros E -> -> t. rewrite (every_In _ _ _ _ (spacing_pos P) E). unfold evaluated_init, in_year. pose proof (start_aligned P y (year_start y)) as A. split.
  - intros [B D]. split; [exists (year_start y), (year_start (y + 1)); split; [apply start_jan1|split; [apply start_jan1|exact B]]|].
    replace t with ((t - (days (year_start y) + late_start P y)) + (days (year_start y) + late_start P y)) by ring. apply Z.divide_add_r; auto.
  - intros [(d0 & d1 & J0 & J1 & B) D]. apply jan1_start in J0, J1. subst d0 d1. split; [exact B|]. apply Z.divide_sub_r; auto.
Qed.

(** ** Names joined by an underscore *)
Fixpoint splits (s : string) : list (string * string) :=
  match s with
  | EmptyString => []
  | String c s' => (if Ascii.eqb c "_"%char then [("", s')] else []) ++ map (fun p => (String c (fst p), snd p)) (splits s')
  end.
Lemma splits_In a b : In (a, b) (splits (a ++ "_" ++ b)).
Proof.
  induction a as [|c a IH]; [left; reflexivity|]. cbn [append splits]. apply in_app_iff. right. apply in_map_iff. exists (a, b). split; [reflexivity|exact IH].
Qed.
Lemma append_assoc_s a b c : ((a ++ b) ++ c = a ++ b ++ c)%string.
Proof. induction a as [|x a IH]; [reflexivity|]. cbn. now rewrite IH. Qed.

Definition pub : configs := match public_configs with Ok c => c | Err _ => mkConfigs [] [] [] [] end.
Lemma public_is : public_configs = Ok pub. Proof. vm_compute. reflexivity. Qed.

(** All runs the public configurations admit: prediction, target, resolution, year. *)
Definition grids : list (string * string) :=
  flat_map (fun p => if String.eqb (fst p) "era5" then splits (snd p) else []) (flat_map splits (keys (climatology pub))).
Definition special : list string := ["persistence"; "probabilistic_climatology"; "climatology"].
Definition predictions_for (ry : string) : list string :=
  map fst (filter (fun p => String.eqb (snd p) ry) (flat_map splits (keys (deterministic_prediction pub) ++ keys (probabilistic_prediction pub)))).
Definition targets_for (r : string) : list string := map fst (filter (fun p => String.eqb (snd p) r) (flat_map splits (keys (target pub)))).
Definition admitted : list (string * string * string * string) :=
  flat_map (fun ry => flat_map (fun p => map (fun t => (p, t, fst ry, snd ry)) (targets_for (fst ry)))
                        (special ++ predictions_for (fst ry ++ "_" ++ snd ry)%string)) grids.
Definition admitted_list : list (string * string * string * string) := Eval vm_compute in admitted.
Lemma admitted_eq : admitted = admitted_list. Proof. vm_compute. reflexivity. Qed.

Lemma dgetE_keys {A} (d : dict string A) k a : dgetE d k = Ok a -> In k (keys d).
Proof. unfold dgetE. destruct (dget d k) eqn:E; [|discriminate]. intros _. exact (dget_Some_keys _ _ E). Qed.
Lemma in_splits (l : list string) a b : In (a ++ "_" ++ b)%string l -> In (a, b) (flat_map splits l).
Proof. intros I. apply in_flat_map. exists (a ++ "_" ++ b)%string. split; [exact I|apply splits_In]. Qed.

Lemma run_inv datetime64 cs f leads p : run datetime64 cs f leads = Ok p ->
  exists pc tc cc it ls times ec, prediction_config cs f = Ok pc /\ dgetE (target cs) (f_target f ++ "_" ++ f_resolution f)%string = Ok tc /\
    dgetE (climatology cs) ("era5_" ++ f_resolution f ++ "_" ++ f_year f)%string = Ok cc /\
    init_times datetime64 f = Ok it /\ lead_times f leads = Ok ls /\
    make_time_chunks (fst it) (LeadArr ls) (Some (f_init_chunk f)) (Some (f_lead_chunk f)) = Ok times /\
    dgetE (target cs) ("era5_" ++ f_resolution f)%string = Ok ec /\
    p = mkPlan (prediction_class f) (c_path (fst pc)) (match c_kwargs (fst pc) with Some k => k | None => no_kwargs end) (c_path tc)
         (intersect (c_variables (fst pc)) (c_variables tc)) (match c_levels (fst pc) with Some l => l | None => DEFAULT_LEVELS end)
         times (snd pc) (all_metrics (snd pc) (intersect (c_variables (fst pc)) (c_variables tc)))
         (if f_temporal f then ["latitude"; "longitude"] else ["init_time"; "latitude"; "longitude"])
         (String.eqb (f_prediction f) "keisler") (out_file f (snd it)).
Proof.
  unfold run. intros H.
  destruct (prediction_config cs f) as [pc|] eqn:E1; [|discriminate]. cbn [bind] in H.
  destruct (dgetE (target cs) (f_target f ++ "_" ++ f_resolution f)%string) as [tc|] eqn:E2; [|discriminate]. cbn [bind] in H.
  destruct (dgetE (climatology cs) _) as [cc|] eqn:E3 in H; [|discriminate]. cbn [bind] in H.
  destruct (init_times datetime64 f) as [it|] eqn:E4; [|discriminate]. cbn [bind] in H.
  destruct (lead_times f leads) as [ls|] eqn:E5; [|discriminate]. cbn [bind] in H.
  destruct (make_time_chunks _ _ _ _) as [times|] eqn:E6 in H; [|discriminate]. cbn [bind] in H.
  destruct (dgetE (target cs) ("era5_" ++ f_resolution f)%string) as [ec|] eqn:E7; [|discriminate]. cbn [bind] in H. injection H as <-.
  exists pc, tc, cc, it, ls, times, ec. auto 10.
Qed.
Lemma run_admitted datetime64 f leads p : run datetime64 pub f leads = Ok p ->
  In (f_prediction f, f_target f, f_resolution f, f_year f) admitted_list.
Proof.
  intros H. apply run_inv in H. destruct H as (pc & tc & cc & it & ls & times & ec & E1 & E2 & E3 & _). rewrite <- admitted_eq. unfold admitted.
  apply dgetE_keys in E2, E3.
  apply in_flat_map. exists (f_resolution f, f_year f). split.
  { unfold grids. apply in_flat_map. exists ("era5", (f_resolution f ++ "_" ++ f_year f)%string). split; [apply in_splits; exact E3|]. cbn [fst snd]. change (String.eqb "era5" "era5") with true. cbv iota. apply splits_In. }
  cbn [fst snd]. apply in_flat_map. exists (f_prediction f). split.
  - apply in_app_iff. unfold prediction_config in E1.
    destruct (String.eqb_spec (f_prediction f) "persistence") as [->|]; [left; cbn; auto|].
    destruct (String.eqb_spec (f_prediction f) "probabilistic_climatology") as [->|]; [left; cbn; auto|].
    destruct (String.eqb_spec (f_prediction f) "climatology") as [->|]; [left; cbn; auto|]. right.
    unfold predictions_for. apply in_map_iff. exists (f_prediction f, (f_resolution f ++ "_" ++ f_year f)%string). split; [reflexivity|]. apply filter_In. split; [|apply String.eqb_refl].
    apply in_splits, in_app_iff. destruct (dget (deterministic_prediction pub) _) eqn:Ed in E1; [left; exact (dget_Some_keys _ _ Ed)|right].
    destruct (dgetE (probabilistic_prediction pub) _) eqn:Ep in E1; [|discriminate]. exact (dgetE_keys _ _ _ Ep).
  - apply in_map_iff. exists (f_target f). split; [reflexivity|]. unfold targets_for. apply in_map_iff. exists (f_target f, f_resolution f). split; [reflexivity|]. apply filter_In. split; [apply in_splits; exact E2|apply String.eqb_refl].
Qed.
