(** C19: parameters the unique names leave out, although the result depends on them. *)
From Coq Require Import Ascii String ZArith List Bool Reals Lra Lia.
Import ListNotations.
From Verif Require Import Prelude Values Model_XArray Spec_XArray Model_MetricsBase Model_Deterministic Model_Categorical Model_Ensemble Model_Wrappers Model_Spatial Spec_Metrics Proofs_Categorical Proofs_Ensemble2 Proofs_Strings Spec_Names Proofs_Names Props_Categorical.
Local Open Scope R_scope.
Local Open Scope string_scope.
Local Open Scope list_scope.

(** Observably different results: different dimensions or values for a variable, or an exception. *)
Definition differs (r r' : result (vars da)) : Prop :=
  match r, r' with
  | Ok vs, Ok vs' => exists v a a', dget vs v = Some a /\ dget vs' v = Some a' /\ (dnames a <> dnames a' \/ exists e, point_of (dims a) e /\ get a e <> get a' e)
  | Ok _, Err _ | Err _, Ok _ => True
  | Err _, Err _ => False
  end.
Definition share_a_name (s s' : statistic da) : Prop := unique_name s = unique_name s' /\ exists p t, differs (compute s p t) (compute s' p t).

Definition one (x : val) : vars da := [("v", mkDa [("x", [LZ 0])] (fun _ => x) [])].
Definition members (f : Z -> val) (l : list Z) : vars da := [("v", mkDa [("number", map LZ l)] (fun e => match e "number" with LZ z => f z | _ => NaN end) [])].
Definition at_zero (x : R) : da := mkDa [("threshold", [LZ 0])] (fun _ => Fin x) [].
Definition grid (x : val) : vars da := [("v", mkDa [("latitude", [LZ 0; LZ 1; LZ 2]); ("longitude", [LZ 0; LZ 1; LZ 2])] (fun _ => x) [])].
Ltac here := refine (ex_intro _ "v" (ex_intro _ _ (ex_intro _ _ (conj eq_refl (conj eq_refl _))))).
Ltac value e0 := right; exists e0; split; [intros ?d ?ls ?H; cbn in H; repeat (destruct H as [H|H]; [injection H as <- <-; cbn; auto|]); contradiction|].
Ltac ev := cbn -[vtruthy b2v vltb vdiv Rabs INR IZR Rplus Rmult Ropp]; rewrite ?vtruthy_b2v; cbn -[vtruthy b2v vltb vdiv Rabs INR IZR Rplus Rmult Ropp].
Definition e0 : env := fun _ => LZ 0.

(** Passthrough statistics: copy_nans. *)
Theorem C19_passthrough_refuted : share_a_name (PredictionPassthrough true) (PredictionPassthrough false) /\ share_a_name (TargetPassthrough true) (TargetPassthrough false).
Proof.
  split; (split; [reflexivity|]).
  - exists (one (Fin 1)), (one NaN). here. value e0. ev. discriminate.
  - exists (one NaN), (one (Fin 1)). here. value e0. ev. discriminate.
Qed.
Print Assumptions C19_passthrough_refuted.
(** Error exceedance: the thresholds, and taking the mean over members. *)
Theorem C19_exceedance_refuted : share_a_name (ErrorExceedance (at_zero 5)) (ErrorExceedance (at_zero 10)) /\
  share_a_name (ErrorExceedance (at_zero 5)) (EnsembleErrorExceedance (at_zero 5) "number").
Proof.
  split; (split; [reflexivity|]).
  - exists (one (Fin 7)), (one (Fin 0)). here. value e0. ev. assert (vltb (Fin 5) (Fin (Rabs (7 + - 0))) = true /\ vltb (Fin 10) (Fin (Rabs (7 + - 0))) = false) as [-> ->]; [|intros H; injection H; lra].
    rewrite (Rabs_pos_eq (7 + - 0)) by lra. cbn [vltb]. split; [apply Rltb_true|apply Rltb_false]; lra.
  - exists (members (fun _ => Fin 7) [0; 1]%Z), (members (fun _ => Fin 0) [0; 1]%Z). here. left. cbn. discriminate.
Qed.
Print Assumptions C19_exceedance_refuted.
(** Skipping missing members: CRPSSkill, CRPSSpread and averages over members. *)
Definition some_missing : vars da := members (fun z => if (z =? 2)%Z then NaN else Fin (IZR z)) [0; 1; 2]%Z.
Theorem C19_skipna_refuted : forall argsort fair,
  share_a_name (CRPSSkill "number" true) (CRPSSkill "number" false) /\
  share_a_name (CRPSSpread argsort "number" false fair "predictions" true) (CRPSSpread argsort "number" false fair "predictions" false) /\
  share_a_name (EnsembleAveragedStatistic "number" true AbsoluteError) (EnsembleAveragedStatistic "number" false AbsoluteError).
Proof.
  intros argsort fair. split; [|split]; (split; [reflexivity|]).
  - exists some_missing, [("v", scalar (Fin 0))]. here. value e0. ev. unfold np_mean, valid. ev. rewrite vdiv_fin by (cbn; lra). discriminate.
  - exists some_missing, some_missing. here. value e0. ev. unfold np_sum, np_count, valid. ev. rewrite vdiv_fin by (cbn; destruct fair; cbn; lra). discriminate.
  - exists some_missing, [("v", scalar (Fin 0))]. here. value e0. ev. unfold np_mean, valid. ev. rewrite vdiv_fin by (cbn; lra). discriminate.
Qed.
Print Assumptions C19_skipna_refuted.
(** The sorted estimate cannot skip missing members; the name does not say which estimate it is. *)
Theorem C19_use_sort_refuted : forall argsort fair skipna, skipna = true ->
  share_a_name (CRPSSpread argsort "number" true fair "predictions" skipna) (CRPSSpread argsort "number" false fair "predictions" skipna).
Proof. intros argsort fair skipna ->. split; [reflexivity|]. exists some_missing, some_missing. exact I. Qed.
Print Assumptions C19_use_sort_refuted.
(** Climatologies. *)
Definition forecast : vars da := [("v", mkDa [("valid_time", [LZ 0])] (fun _ => Fin 3) [])].
Definition climate (x : val) : vars da := [("v", mkDa [("dayofyear", [LZ 1])] (fun _ => x) [])].
Theorem C19_climatology_refuted :
  share_a_name (SquaredPredictionAnomaly (climate (Fin 1))) (SquaredPredictionAnomaly (climate NaN)) /\
  share_a_name (SquaredTargetAnomaly (climate (Fin 1))) (SquaredTargetAnomaly (climate NaN)) /\
  share_a_name (AnomalyCovariance (climate (Fin 1))) (AnomalyCovariance (climate NaN)).
Proof. split; [|split]; (split; [reflexivity|]; exists forecast, forecast; here; value e0; ev; discriminate). Qed.
Print Assumptions C19_climatology_refuted.
(** The components of wind vectors. *)
Definition winds : vars da := [("u", mkDa [("x", [LZ 0])] (fun _ => Fin 1) []); ("w", mkDa [("x", [LZ 0])] (fun _ => NaN) []); ("z", mkDa [("x", [LZ 0])] (fun _ => Fin 2) [])].
Theorem C19_wind_refuted : exists s s', WindVectorSquaredError ["u"] ["z"] ["v"] = Ok s /\ WindVectorSquaredError ["w"] ["z"] ["v"] = Ok s' /\ share_a_name s s'.
Proof. eexists. eexists. split; [reflexivity|]. split; [reflexivity|]. split; [reflexivity|]. exists winds, winds. here. value e0. ev. discriminate. Qed.
Print Assumptions C19_wind_refuted.
(** Dimensions summed over. *)
Definition field (x : val) : vars da := [("v", mkDa [("x", [LZ 0]); ("y", [LZ 0])] (fun _ => x) [])].
Theorem C19_dimensions_refuted : share_a_name (RelativeIntensity ["x"]) (RelativeIntensity ["y"]) /\ share_a_name (RankedProbabilityScore "x") (RankedProbabilityScore "y").
Proof. split; (split; [reflexivity|]; exists (field (Fin 1)), (field (Fin 1)); here; left; cbn; discriminate). Qed.
Print Assumptions C19_dimensions_refuted.
(** A neighbourhood size and the list of this size. *)
Theorem C19_sizes_refuted : share_a_name (SquaredFractionsError (One 3) false) (SquaredFractionsError (Many [3%Z]) false).
Proof. split; [reflexivity|]. exists (grid (Fin 1)), (grid (Fin 0)). here. left. cbn. discriminate. Qed.
Print Assumptions C19_sizes_refuted.
(** SEEPS: the climatology. *)
Definition seeps_climate (w : val) : vars da := [("v_seeps_threshold", s_c w); ("v_seeps_dry_fraction", s_c (Fin (1/2)))].
Theorem C19_seeps_refuted : forall name, exists s s', SEEPS name ["v"] (seeps_climate (Fin (2/1000))) [1/4] [1/10] [85/100] = Ok s /\ SEEPS name ["v"] [] [1/4] [1/10] [85/100] = Ok s' /\ share_a_name s s'.
Proof.
  intros name. eexists. eexists. split; [reflexivity|]. split; [reflexivity|]. split; [reflexivity|]. exists [("v", s_p (Fin (3/1000)))], [("v", s_p (Fin 0))]. cbn [compute seeps_compute dgetE dget bind].
  destruct (ex_seeps_ok (Fin (3/1000)) (Fin 0) (Fin (2/1000)) (Fin (1/2))) as [r Hr]. 
  assert (seeps_compute ["v"] [1/4] [1/10] [85/100] (seeps_climate (Fin (2/1000))) [("v", s_p (Fin (3/1000)))] [("v", s_p (Fin 0))] [] = Ok [("v", r)]) as E.
  { transitivity (do r <- seeps_var (s_c (Fin (2/1000))) (s_c (Fin (1/2))) (1/4) (1/10) (85/100) (s_p (Fin (3/1000))) (s_p (Fin 0)); Ok [("v", r)]); [reflexivity|]. rewrite Hr. reflexivity. }
  match goal with |- differs ?x ?y => change x with (seeps_compute ["v"] [1/4] [1/10] [85/100] (seeps_climate (Fin (2/1000))) [("v", s_p (Fin (3/1000)))] [("v", s_p (Fin 0))] []) end. rewrite E. exact I.
Qed.
Print Assumptions C19_seeps_refuted.
(** Transforms. *)
Theorem C19_transforms_refuted : forall str,
  (exists w w', EnsembleMean "both" "number" false true = Ok w /\ EnsembleMean "both" "number" false false = Ok w' /\ share_a_name (WrappedStatistic Error w) (WrappedStatistic Error w')) /\
  (exists w w', Weibull "predictions" "x" false = Ok w /\ Weibull "predictions" "y" false = Ok w' /\ share_a_name (WrappedStatistic Error w) (WrappedStatistic Error w')) /\
  (exists w w', ContinuousToCDF str "both" (TList [(LZ 2, Fin 2); (LZ 1, Fin 1)]) "threshold" None true true = Ok w /\ ContinuousToCDF str "both" (TList [(LZ 2, Fin 2); (LZ 1, Fin 1)]) "threshold" None false true = Ok w' /\
     share_a_name (WrappedStatistic Error w) (WrappedStatistic Error w')).
Proof.
  intros str. split; [|split].
  - eexists. eexists. split; [reflexivity|]. split; [reflexivity|]. split; [reflexivity|]. exists (one (Fin 1)), (one (Fin 1)). exact I.
  - eexists. eexists. split; [reflexivity|]. split; [reflexivity|]. split; [reflexivity|]. exists (field (Fin 1)), [("v", scalar (Fin 1))]. here. left. cbn. discriminate.
  - eexists. eexists. split; [reflexivity|]. split; [reflexivity|]. split; [reflexivity|]. exists (one (Fin 1)), (one (Fin 1)).
    set (w := mkTransform _ _ _). assert (apply_transform w (one (Fin 1)) = Err ValueError) as E.
    { unfold apply_transform, one. cbn [mapM fst snd w transform_fn]. unfold compute_cdf. cbn [chosen_thresholds bind]. transitivity (do x <- (do ok <- Ok (vltb (Fin 0) (vsub (Fin 1) (Fin 2)) && true); if ok then Ok (one (Fin 1)) else Err ValueError); Ok x).
      - cbn -[vltb vsub]. destruct (vltb (Fin 0) (vsub (Fin 1) (Fin 2))) eqn:V; [|reflexivity]. exfalso. cbn [vltb vsub vadd vneg] in V. apply Rltb_true in V. lra.
      - assert (vltb (Fin 0) (vsub (Fin 1) (Fin 2)) = false) as ->; [|reflexivity]. cbn [vltb vsub vadd vneg]. apply Rltb_false. lra. }
    cbn [WrappedStatistic compute]. change (memb (which w) ["predictions"; "both"]) with true. cbn iota. rewrite E. exact I.
Qed.
Print Assumptions C19_transforms_refuted.
(** Variables joined by '_'. *)
Theorem C19_subselect_refuted :
  unique_name (SubselectVariablesForStatistic Error ["v"; "w"]) = unique_name (SubselectVariablesForStatistic Error ["v_w"]) /\
  exists p t vs, compute (SubselectVariablesForStatistic Error ["v"; "w"]) p t = Ok [] /\
                 compute (SubselectVariablesForStatistic Error ["v_w"]) p t = Ok vs /\ keys vs = ["v_w"].
Proof.
  split; [reflexivity|]. exists [("v_w", scalar (Fin 1))], [("v_w", scalar (Fin 1))]. eexists. split; [reflexivity|]. split; reflexivity.
Qed.
Print Assumptions C19_subselect_refuted.
