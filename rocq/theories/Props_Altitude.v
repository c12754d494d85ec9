(** C46: altitude adjustment of temperature and wind speed. *)
From Coq Require Import String ZArith QArith Qreals Qcanon Bool List Sorted Permutation Lia.
Import ListNotations.
From Verif Require Import Prelude Values Model_XArray Spec_XArray Proofs_XArray Model_Tree Model_MetricsBase Model_Deterministic Proofs_Baseline Model_Binning
  Proofs_Ensemble2 Model_Interp Spec_Interp Proofs_Interp Props_Interp Props_Interp2 Props_Interp3.
From Coq Require Import Reals Lra.
Local Open Scope R_scope.
Local Open Scope string_scope.
Local Open Scope list_scope.

(** ** The formulas *)
Lemma difference_counted limit x y : elevation_difference limit x y = Fin (counted_difference limit x y).
Proof.
  unfold elevation_difference, counted_difference. destruct x as [x| | |], y as [y| | |]; cbn [vsub vneg vadd vabs vltb]; try reflexivity.
  change (x + - y) with (x - y). destruct (Rlt_dec (Rabs (x - y)) limit) as [L|L].
  - rewrite (proj2 (Rltb_true _ _) L). reflexivity.
  - rewrite (proj2 (Rltb_false _ _)); [reflexivity|lra].
Qed.
Lemma factor_is d : wind_factor (Fin d) = Fin (wind_speed_factor d).
Proof.
  unfold wind_factor, wind_speed_factor. cbn [vltb vsub vneg vadd vmul]. destruct (Rltb d 1100) eqn:E1.
  - apply Rltb_true in E1. destruct (Rltb d 100) eqn:E2; [apply Rltb_true in E2|apply Rltb_false in E2]; f_equal.
    + rewrite Rmax_left by lra. rewrite Rmin_right; lra.
    + rewrite Rmax_right by lra. rewrite Rmin_right by lra. lra.
  - apply Rltb_false in E1. f_equal. rewrite Rmax_right by lra. rewrite Rmin_left; lra.
Qed.

(** The wind factor is 1 up to 100 m, 3 from 1100 m on, never decreases with the height of the station
    above the grid, and changes by at most 0.002 per metre (so it is continuous). *)
Theorem C46_wind_factor :
  (forall d, 1 <= wind_speed_factor d <= 3) /\
  (forall d, wind_speed_factor d = 1 <-> d <= 100) /\ (forall d, wind_speed_factor d = 3 <-> 1100 <= d) /\
  (forall d d', d <= d' -> wind_speed_factor d <= wind_speed_factor d') /\
  (forall d d', Rabs (wind_speed_factor d - wind_speed_factor d') <= 2 / 1000 * Rabs (d - d')) /\
  (forall d, continuity_pt wind_speed_factor d).
Proof.
  assert (forall d d', Rabs (wind_speed_factor d - wind_speed_factor d') <= 2 / 1000 * Rabs (d - d')) as Lip.
  { intros d d'. unfold wind_speed_factor, Rmin, Rmax. repeat destruct (Rle_dec _ _); unfold Rabs; repeat destruct (Rcase_abs _); lra. }
  split; [|split; [|split; [|split; [|split]]]].
  - intros d. unfold wind_speed_factor, Rmin, Rmax. repeat destruct (Rle_dec _ _); lra.
  - intros d. unfold wind_speed_factor, Rmin, Rmax. repeat destruct (Rle_dec _ _); lra.
  - intros d. unfold wind_speed_factor, Rmin, Rmax. repeat destruct (Rle_dec _ _); lra.
  - intros d d' H. unfold wind_speed_factor, Rmin, Rmax. repeat destruct (Rle_dec _ _); lra.
  - exact Lip.
  - intros d eps He. exists eps. split; [exact He|]. intros x [_ Hx]. cbn [dist R_met] in *. unfold R_dist in *. pose proof (Lip x d). pose proof (Rabs_pos (x - d)). cbn. unfold R_dist. lra.
Qed.
Print Assumptions C46_wind_factor.
(** A temperature changes by 6.5 K per km of counted difference, in the opposite direction, by less
    than 0.0065 times the limit; differences not below the limit count as 0, and so do unknown ones. *)
Theorem C46_temperature_change : forall limit elevation grid, 0 < limit ->
  let d := counted_difference limit elevation grid in
  Rabs (temperature_change d) < 65 / 10000 * limit /\ (0 <= d -> temperature_change d <= 0) /\ (d <= 0 -> 0 <= temperature_change d) /\
  (forall x y, elevation = Fin x -> grid = Fin y -> (Rabs (x - y) < limit -> temperature_change d = - (65 / 10000) * (x - y)) /\ (limit <= Rabs (x - y) -> temperature_change d = 0)) /\
  (isfin elevation = false \/ isfin grid = false -> temperature_change d = 0).
Proof.
  intros limit elevation grid P d. assert (Rabs d < limit) as B.
  { unfold d, counted_difference. destruct elevation, grid; try (rewrite Rabs_R0; exact P). destruct (Rlt_dec _ _); [assumption|rewrite Rabs_R0; exact P]. }
  unfold temperature_change. split; [|split; [|split; [|split]]].
  - rewrite Rabs_mult, Rabs_Ropp, (Rabs_right (65 / 10000)) by lra. nra.
  - lra. - lra.
  - intros x y -> ->. unfold d, counted_difference. split; intros H; destruct (Rlt_dec _ _); lra.
  - intros H. assert (d = 0) as ->; [|lra]. unfold d, counted_difference. destruct elevation, grid; cbn in H; try reflexivity. destruct H; discriminate.
Qed.
Print Assumptions C46_temperature_change.
(** At the limit the adjustment jumps: however close, one station gets the factor 3 and another 1 (or
    9.75 K and none). *)
Theorem C46_continuous_at_limit_refuted : forall delta, 0 < delta -> exists x y, Rabs (x - y) < delta /\
  wind_speed_factor (counted_difference 1500 (Fin x) (Fin 0)) = 3 /\ wind_speed_factor (counted_difference 1500 (Fin y) (Fin 0)) = 1 /\
  temperature_change (counted_difference 1500 (Fin x) (Fin 0)) <= -6 /\ temperature_change (counted_difference 1500 (Fin y) (Fin 0)) = 0.
Proof.
  intros delta P. exists (1500 - Rmin (delta / 2) 100), 1500. assert (0 < Rmin (delta / 2) 100) as M1 by (apply Rmin_glb_lt; lra). assert (Rmin (delta / 2) 100 <= 100) as M2 by apply Rmin_r. assert (Rmin (delta / 2) 100 <= delta / 2) as M3 by apply Rmin_l.
  set (m := Rmin (delta / 2) 100) in *. unfold counted_difference. rewrite !Rminus_0_r, (Rabs_right (1500 - m)), (Rabs_right 1500) by lra.
  destruct (Rlt_dec (1500 - m) 1500); [|lra]. destruct (Rlt_dec 1500 1500); [lra|]. destruct C46_wind_factor as (_ & F1 & F3 & _).
  split; [|split; [apply F3; lra|split; [apply F1; lra|unfold temperature_change; split; lra]]].
  replace (1500 - m - 1500) with (- m) by ring. rewrite Rabs_Ropp, Rabs_right; lra.
Qed.
Print Assumptions C46_continuous_at_limit_refuted.

(** ** The interpolation *)
(** What becomes of an interpolated value [v] at a station. *)
Definition station_value (name : string) (limit : R) (v elevation grid : val) : val :=
  let d := counted_difference limit elevation grid in
  if eqb name "2m_temperature" then vadd v (Fin (temperature_change d)) else vmul v (Fin (wind_speed_factor d)).
Definition elevation_of (a : da) (e : env) : val := coord_val (coordinate_value a "elevation" e).
(** The grid elevation at the points of [a]. *)
Definition on_points (g a g' : da) : Prop :=
  incl (dnames g) (dnames a) /\ dims g' = keep (fun d => memb d (dnames g)) (dims a) /\
  (forall e, point_of (dims g) e -> get g' e = get g e) /\ (forall e, ~ point_of (dims g) e -> get g' e = NaN).

Lemma assign_Ok g a g' : assign_grid_elevation g a = Ok g' -> on_points g a g'.
Proof.
  unfold assign_grid_elevation. destruct (subsetb (dnames g) (dnames a)) eqn:E; [|discriminate]. intros [= <-]. split; [|split; [reflexivity|split]].
  - intros k Hk. unfold subsetb in E. rewrite forallb_forall in E. specialize (E k Hk). now apply memb_In.
  - intros e P. cbn [get]. now rewrite (proj2 (in_box_iff (dims g) e) P).
  - intros e P. cbn [get]. destruct (in_box (dims g) e) eqn:B; [|reflexivity]. apply in_box_iff in B. contradiction.
Qed.
Lemma coord_da_Ok a x : coord_da a "elevation" = Ok x -> forall e, get x e = elevation_of a e.
Proof.
  unfold coord_da, coord_of, elevation_of, coordinate_value. destruct (dget (dims a) "elevation") as [ls|]; [intros [= <-]; reflexivity|].
  destruct (dget (aux a) "elevation") as [c|]; [|discriminate]. intros [= <-]. reflexivity.
Qed.
Lemma filter_comm {A} (f g : A -> bool) l : filter f (filter g l) = filter g (filter f l).
Proof. induction l as [|x l IH]; [reflexivity|]. cbn [filter]. destruct (f x) eqn:F, (g x) eqn:G; cbn [filter]; rewrite ?F, ?G; now rewrite IH. Qed.
Lemma dim_args_filter (f : string -> bool) r : forall l args, dim_args l r = Ok args -> dim_args (filter f l) r = Ok (filter (fun p => f (fst p)) args).
Proof.
  unfold dim_args. induction l as [|d l IH]; intros args H; [injection H as <-; reflexivity|]. cbn [mapM] in H. destruct (reference_coord r d) as [t|] eqn:E; [|discriminate]. cbn [bind] in H.
  destruct (mapM _ l) as [args'|] eqn:M; [|discriminate]. cbn [bind] in H. injection H as <-. cbn [filter fst]. destruct (f d).
  - cbn [mapM]. rewrite E. cbn [bind]. rewrite (IH args' eq_refl). reflexivity.
  - now apply IH.
Qed.
Lemma pad_names a b : pad_longitude a = Ok b -> dnames b = dnames a.
Proof.
  unfold pad_longitude. destruct (dget (dims a) "longitude") as [[|l ls]|]; try discriminate. destruct (shift_label _ (last _ _)) as [x|]; [|discriminate]. cbn [bind]. destruct (shift_label _ l) as [y|]; [|discriminate]. cbn [bind].
  intros [= <-]. unfold dnames. cbn [dims]. apply (names_mapped (fun _ => x :: (l :: ls) ++ [y])).
Qed.
Lemma keep_names p (ds : dimlist) : map fst (keep p ds) = filter p (map fst ds).
Proof. induction ds as [|[k m] ds IH]; [reflexivity|]. cbn [keep filter fst map]. unfold keep in IH. destruct (p k); cbn [map fst]; now rewrite IH. Qed.

(** Temperature and wind speed: the value interpolated to the station, adjusted by the difference
    between the elevation of the station and the grid elevation interpolated to the station in the
    same way. *)
Theorem C46_stations : forall m g dims_ wrap extrapolate limit name a r out,
  (name = "2m_temperature" \/ name = "10m_wind_speed") ->
  GridToSparseWithAltitudeAdjustment m g dims_ wrap extrapolate limit name a (Some r) = Ok out ->
  let c := mkRefConfig m dims_ wrap None extrapolate in
  exists base g' grid, InterpolateToReferenceCoords c name a (Some r) = Ok base /\
    on_points g a g' /\
    (dims_ = None -> wrap = false \/ In "longitude" (dnames g) -> InterpolateToReferenceCoords c "grid_elevation" g' (Some r) = Ok grid) /\
    has_coordinate base "elevation" /\ dims out = dims base /\ aux out = aux base /\
    forall e, get out e = station_value name limit (get base e) (elevation_of base e) (get grid e).
Proof.
  intros m g dims_ wrap ext limit name a r out Hn H c. unfold GridToSparseWithAltitudeAdjustment in H. fold c in H.
  assert (adjusted_name name = true) as An. { unfold adjusted_name. apply orb_true_iff. rewrite !eqb_true_iff. exact Hn. } rewrite An in H.
  destruct (assign_grid_elevation g a) as [g'|] eqn:Eg; [|discriminate]. cbn [bind] in H.
  destruct (InterpolateToReferenceCoords c name a (Some r)) as [base|] eqn:Eb; [|discriminate]. cbn [bind] in H.
  destruct (coord_da base "elevation") as [el|] eqn:Ee; [|discriminate]. cbn [bind] in H.
  destruct (Nat.eqb (da_size r) 0) eqn:Sz; [discriminate|].
  destruct (if wrap then pad_longitude a else Ok a) as [a'|] eqn:Ea; [|discriminate]. cbn [bind] in H.
  destruct (if (wrap && memb "longitude" (dnames g'))%bool then pad_longitude g' else Ok g') as [g2|] eqn:Eg2; [|discriminate]. cbn [bind] in H.
  destruct (dim_args (reference_dims c a' r) r) as [args|] eqn:Ear; [|discriminate]. cbn [bind] in H.
  destruct (interpolate_coordinate args m ext g2) as [grid|] eqn:Egr; [|discriminate]. cbn [bind] in H.
  exists base, g', grid. split; [reflexivity|]. pose proof (assign_Ok g a g' Eg) as On. split; [exact On|]. destruct On as (_ & Dg & _).
  assert (dnames g' = filter (fun d => memb d (dnames g)) (dnames a)) as Ng. { unfold dnames at 1. rewrite Dg, keep_names. reflexivity. }
  split; [|split].
  - intros Hd Hw. unfold InterpolateToReferenceCoords. cbn [c rc_wrap_longitude rc_clip rc_extrapolate rc_method].
    assert ((if wrap then pad_longitude g' else Ok g') = Ok g2) as ->.
    { destruct wrap; [|exact Eg2]. destruct Hw as [Hw|Hw]; [discriminate|]. cbn [andb] in Eg2. destruct (memb "longitude" (dnames g')) eqn:M; [exact Eg2|]. exfalso. apply memb_false in M. apply M.
      rewrite Ng. apply filter_In. split; [|now apply memb_In]. apply pad_names in Ea as Ea'. cbv iota in Ea. unfold pad_longitude in Ea. destruct (dget (dims a) "longitude") eqn:Q; [exact (dget_Some_keys _ _ Q)|discriminate]. }
    cbn [bind]. rewrite Sz. assert (reference_dims c g2 r = filter (fun d => memb d (dnames g2)) (reference_dims c a' r)) as Er.
    { unfold reference_dims. cbn [c rc_dims]. rewrite Hd. assert (dnames a' = dnames a) as -> by (destruct wrap; [now apply pad_names|congruence]).
      assert (dnames g2 = dnames g') as Eq by (destruct (wrap && _)%bool; [now apply pad_names|congruence]). rewrite Eq, filter_comm. f_equal. rewrite Ng. apply filter_ext_in. intros d Hd'.
      apply eq_true_iff_eq. rewrite !memb_In, filter_In, memb_In. tauto. }
    fold c. change (reference_dims (mkRefConfig m dims_ wrap None ext) g2 r) with (reference_dims c g2 r). rewrite Er, (dim_args_filter _ r _ _ Ear). cbn [bind]. exact Egr.
  - unfold coord_da in Ee. apply has_coord_iff. unfold has_coord. destruct (coord_of base "elevation"); [reflexivity|discriminate].
  - pose proof (coord_da_Ok base el Ee) as Ge. unfold station_value. destruct (eqb name "2m_temperature") eqn:En.
    + unfold inplace in H. destruct (subsetb _ _); [|discriminate]. injection H as <-. split; [reflexivity|]. split; [reflexivity|]. intros e. cbn [get binop]. rewrite Ge, difference_counted. unfold temperature_adjustment. cbn [vmul]. f_equal. f_equal. unfold temperature_change, lapse_rate. ring.
    + unfold inplace in H. destruct (subsetb _ _); [|discriminate]. injection H as <-. split; [reflexivity|]. split; [reflexivity|]. intros e. cbn [get binop]. rewrite Ge, difference_counted. unfold wind_adjustment. now rewrite factor_is.
Qed.
Print Assumptions C46_stations.

(** Where the difference is not below the limit, or the elevation of the station or of the grid is
    unknown, the interpolated value is returned as it is; elsewhere a finite wind speed stays within
    once and three times its interpolated value. *)
Theorem C46_unadjusted : forall name limit v elevation grid,
  (isfin elevation = false \/ isfin grid = false \/ exists x y, elevation = Fin x /\ grid = Fin y /\ limit <= Rabs (x - y)) ->
  station_value name limit v elevation grid = v.
Proof.
  intros name limit v elevation grid H. assert (counted_difference limit elevation grid = 0) as E.
  { unfold counted_difference. destruct elevation as [x| | |], grid as [y| | |]; try reflexivity. destruct H as [H|[H|(x' & y' & [= <-] & [= <-] & H)]]; try discriminate. destruct (Rlt_dec _ _); [lra|reflexivity]. }
  unfold station_value. rewrite E. destruct (eqb name "2m_temperature").
  - unfold temperature_change. destruct v; cbn [vadd]; try reflexivity. f_equal. ring.
  - destruct C46_wind_factor as (_ & F & _). rewrite (proj2 (F 0)) by lra. apply vmul_1_r.
Qed.
Print Assumptions C46_unadjusted.
(** Other variables are not adjusted. *)
Theorem C46_other_variables : forall m g dims_ wrap extrapolate limit name a reference,
  name <> "2m_temperature" -> name <> "10m_wind_speed" ->
  GridToSparseWithAltitudeAdjustment m g dims_ wrap extrapolate limit name a reference =
  InterpolateToReferenceCoords (mkRefConfig m dims_ wrap None extrapolate) name a reference.
Proof.
  intros m g dims_ wrap ext limit name a ref N1 N2. unfold GridToSparseWithAltitudeAdjustment. assert (adjusted_name name = false) as ->; [|reflexivity].
  unfold adjusted_name. apply orb_false_iff. split; now apply eqb_false_iff.
Qed.
Print Assumptions C46_other_variables.
(** A reference without data is handled for other variables (C47_empty_reference), but fails for the
    adjusted ones. *)
Theorem C46_empty_reference_refuted : forall m g dims_ wrap extrapolate limit name a r out,
  (name = "2m_temperature" \/ name = "10m_wind_speed") -> da_size r = 0%nat ->
  GridToSparseWithAltitudeAdjustment m g dims_ wrap extrapolate limit name a (Some r) <> Ok out.
Proof.
  intros m g dims_ wrap ext limit name a r out Hn Sz H. unfold GridToSparseWithAltitudeAdjustment in H.
  assert (adjusted_name name = true) as An. { unfold adjusted_name. apply orb_true_iff. rewrite !eqb_true_iff. exact Hn. } rewrite An in H.
  destruct (assign_grid_elevation g a) as [g'|] eqn:Eg; [|discriminate]. cbn [bind] in H.
  destruct (InterpolateToReferenceCoords _ name a (Some r)) as [base|] eqn:Eb; [|discriminate]. cbn [bind] in H.
  destruct (coord_da base "elevation") as [el|] eqn:Ee; [|discriminate]. cbn [bind] in H. rewrite Sz in H. discriminate.
Qed.
Print Assumptions C46_empty_reference_refuted.
