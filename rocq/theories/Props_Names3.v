(** C19: the statistics of intervals and the ranked probability score of ensembles beside the catalogue. *)
From Coq Require Import Ascii String ZArith QArith Qcanon List Bool Reals Lra Lia.
Import ListNotations.
From Verif Require Import Prelude Values Model_XArray Model_MetricsBase Model_Deterministic Model_Categorical Model_Ensemble Model_Wrappers Model_Spatial Model_EnsembleRPS Model_Intervals
  Spec_Metrics Spec_Statistic Proofs_Strings Spec_Names Proofs_Names Props_Names Props_Names2 Props_Intervals.
Local Open Scope R_scope.
Local Open Scope string_scope.
Local Open Scope list_scope.

(** The whole catalogue. *)
Inductive shipped_all :=
| Listed (s : shipped)
| NConfident (d : string) (clim : vars da) (lo hi threshold : Qc)
| NCovered (d : string) (lo hi : Qc)
| NJaccard (d : string) (clim : vars da) (threshold lo hi : Qc)
| NEnsembleRPS (prediction_thresholds target_thresholds : vars da) (bin_dim suffix d : string) (skipna fair enforce right_inclusive : bool).
Definition build_all (argsort : list val -> list nat) (fmt : Qc -> string) (str : label -> string) (a : shipped_all) : result (statistic da) :=
  match a with
  | Listed s => build argsort s
  | NConfident d c lo hi th => Ok (Confident fmt d c lo hi th)
  | NCovered d lo hi => Ok (Covered fmt d lo hi)
  | NJaccard d c th lo hi => Ok (JaccardDistant fmt d c th lo hi)
  | NEnsembleRPS pt tg b sfx d k f e r => EnsembleRankedProbabilityScore str pt tg b sfx d k f e r
  end.
(** Which parameters the names tell apart: neither the ensemble dimension and the climatology of the
    intervals, nor the thresholds, their dimension and the closed side of the score. *)
Definition told_together_all (a b : shipped_all) : Prop :=
  match a, b with
  | Listed s, Listed s' => told_together s s'
  | NConfident _ _ lo hi th, NConfident _ _ lo' hi' th' => lo = lo' /\ hi = hi' /\ th = th'
  | NCovered _ lo hi, NCovered _ lo' hi' => lo = lo' /\ hi = hi'
  | NJaccard _ _ th lo hi, NJaccard _ _ th' lo' hi' => lo = lo' /\ hi = hi' /\ th = th'
  | NEnsembleRPS _ _ _ sfx d k f _ _, NEnsembleRPS _ _ _ sfx' d' k' f' _ _ => d = d' /\ k = k' /\ f = f' /\ sfx = sfx'
  | _, _ => False
  end.
(** Numbers are printed injectively and without '_'; no ensemble dimension is named after skipna. *)
Definition prints_numbers (fmt : Qc -> string) : Prop := (forall x, ~ In "_"%char (chars (fmt x))) /\ forall x y, fmt x = fmt y -> x = y.
Definition plain_dim (a : shipped_all) : Prop := match a with NEnsembleRPS _ _ _ _ d _ _ _ _ => ~ In "skipna" (tokens d) | _ => True end.

Lemma cut fmt x y (k a b : string) : prints_numbers fmt -> (fmt x ++ String "_" (k ++ a) = fmt y ++ String "_" (k ++ b))%string -> x = y /\ a = b.
Proof. intros [P Q] H. apply split_at in H; [|apply P..]. destruct H as [E H]. split; [now apply Q|now apply sapp_inj_l in H]. Qed.
Lemma untoken s : join_underscore (tokens s) = s.
Proof.
  induction s as [|c s IH]; [reflexivity|]. cbn [tokens]. destruct (tokens s) as [|t ts] eqn:E; [now apply tokens_nonempty in E|]. destruct (Ascii.eqb c "_") eqn:A.
  - apply Ascii.eqb_eq in A. subst c. change (join_underscore ("" :: t :: ts)) with (String "_" (join_underscore (t :: ts))). now rewrite IH.
  - rewrite <- IH. destruct ts; reflexivity.
Qed.
Lemma tokens_inj s s' : tokens s = tokens s' -> s = s'.
Proof. intros H. rewrite <- (untoken s), <- (untoken s'), H. reflexivity. Qed.
Lemma rps_tokens d k f sfx :
  tokens ("RankedProbabilityScore_" ++ d ++ "_skipna_ensemble_" ++ bool_name k ++ "_fair_" ++ bool_name f ++ "_" ++ sfx)%string
  = ("RankedProbabilityScore" :: tokens d) ++ "skipna" :: ["ensemble"; bool_name k; "fair"; bool_name f] ++ tokens sfx.
Proof.
  change ("RankedProbabilityScore_" ++ d ++ "_skipna_ensemble_" ++ bool_name k ++ "_fair_" ++ bool_name f ++ "_" ++ sfx)%string
    with ("RankedProbabilityScore" ++ "_" ++ (d ++ "_" ++ ("skipna" ++ "_" ++ ("ensemble" ++ "_" ++ (bool_name k ++ "_" ++ ("fair" ++ "_" ++ (bool_name f ++ "_" ++ sfx)))))))%string.
  rewrite !tokens_app. destruct k, f; cbn; rewrite <- ?app_assoc; reflexivity.
Qed.
Lemma rps_name_of str pt tg b sfx d k f e r s : EnsembleRankedProbabilityScore str pt tg b sfx d k f e r = Ok s ->
  unique_name s = ("RankedProbabilityScore_" ++ d ++ "_skipna_ensemble_" ++ bool_name k ++ "_fair_" ++ bool_name f ++ "_" ++ sfx)%string.
Proof.
  intros H. unfold EnsembleRankedProbabilityScore in H. destruct (ContinuousToCDF str "predictions" _ b _ e r); [|discriminate]. cbn [bind] in H. destruct (ContinuousToCDF str "targets" _ b _ e r); [|discriminate]. cbn [bind] in H.
  destruct (cdf_error d k f); [|discriminate]. cbn [bind] in H. injection H as <-. reflexivity.
Qed.
Lemma listed_name argsort s st : build argsort s = Ok st -> forall c m, In c ["Confident"; "Covered"; "JaccardDistant"; "RankedProbabilityScore_"] -> unique_name st <> (c ++ m)%string.
Proof.
  intros H c m Hc. assert (forall us vs ns s, WindVectorSquaredError us vs ns = Ok s -> unique_name s = ("WindVectorSquaredError_" ++ join_underscore ns)%string) as W.
  { intros us vs ns s0 H0. unfold WindVectorSquaredError in H0. destruct (same_length3 us vs ns); [|discriminate]. now injection H0 as <-. }
  destruct s; cbn [build] in H; try (apply W in H; rewrite H); try (injection H as <-); destruct Hc as [<-|[<-|[<-|[<-|[]]]]]; cbn; discriminate.
Qed.
(** Two statistics of the whole catalogue have the same name exactly if they are of the same class and
    agree in the parameters listed. *)
Theorem C19_all_names argsort fmt str a b sa sb : prints_numbers fmt -> plain_dim a -> plain_dim b ->
  build_all argsort fmt str a = Ok sa -> build_all argsort fmt str b = Ok sb ->
  (unique_name sa = unique_name sb <-> told_together_all a b).
Proof.
  intros P Da Db Ha Hb. destruct a as [sa0|d c lo hi th|d lo hi|d c th lo hi|pt tg bd sfx d k f e r], b as [sb0|d' c' lo' hi' th'|d' lo' hi'|d' c' th' lo' hi'|pt' tg' bd' sfx' d' k' f' e' r']; cbn [build_all told_together_all plain_dim] in *.
  1: exact (C19_names argsort sa0 sb0 sa sb Ha Hb).
  all: repeat match goal with H : build _ _ = Ok _ |- _ => pose proof (listed_name _ _ _ H) as ?N; clear H | H : Ok _ = Ok _ |- _ => injection H as <- | H : EnsembleRankedProbabilityScore _ _ _ _ _ _ _ _ _ _ = Ok _ |- _ => apply rps_name_of in H; rewrite H end.
  all: try (split; [|contradiction]; intros E; exfalso; first [refine (N "Confident"%string _ _ _); [now left|first [exact E|symmetry; exact E]]|refine (N "Covered"%string _ _ _); [right; now left|first [exact E|symmetry; exact E]]|refine (N "JaccardDistant"%string _ _ _); [right; right; now left|first [exact E|symmetry; exact E]]|refine (N "RankedProbabilityScore_"%string _ _ _); [right; right; right; now left|first [exact E|symmetry; exact E]]|cbn in E; discriminate]).
  - change ("Confident_conf_thres=" ++ (fmt th ++ String "_" ("spread_low=" ++ (fmt lo ++ String "_" ("spread_high=" ++ fmt hi)))) = "Confident_conf_thres=" ++ (fmt th' ++ String "_" ("spread_low=" ++ (fmt lo' ++ String "_" ("spread_high=" ++ fmt hi')))) <-> lo = lo' /\ hi = hi' /\ th = th')%string.
    split; [|intros (-> & -> & ->); reflexivity]. intros E. apply sapp_inj_l in E. apply cut in E; [|exact P]. destruct E as [-> E]. apply cut in E; [|exact P]. destruct E as [-> E]. apply P in E. auto.
  - change ("Covered_interval_low=" ++ (fmt lo ++ String "_" ("interval_high=" ++ fmt hi)) = "Covered_interval_low=" ++ (fmt lo' ++ String "_" ("interval_high=" ++ fmt hi')) <-> lo = lo' /\ hi = hi')%string.
    split; [|intros (-> & ->); reflexivity]. intros E. apply sapp_inj_l in E. apply cut in E; [|exact P]. destruct E as [-> E]. apply P in E. auto.
  - change ("JaccardDistant_threshold=" ++ (fmt th ++ String "_" ("interval_low=" ++ (fmt lo ++ String "_" ("interval_high=" ++ fmt hi)))) = "JaccardDistant_threshold=" ++ (fmt th' ++ String "_" ("interval_low=" ++ (fmt lo' ++ String "_" ("interval_high=" ++ fmt hi')))) <-> lo = lo' /\ hi = hi' /\ th = th')%string.
    split; [|intros (-> & -> & ->); reflexivity]. intros E. apply sapp_inj_l in E. apply cut in E; [|exact P]. destruct E as [-> E]. apply cut in E; [|exact P]. destruct E as [-> E]. apply P in E. auto.
  - split; [|intros (-> & -> & -> & ->); reflexivity]. intros E. apply (f_equal tokens) in E. rewrite !rps_tokens in E. apply list_split in E; [|intros [C|C]; [discriminate|contradiction]..]. destruct E as [E1 E2].
    injection E1 as E1. cbn [app] in E2. injection E2 as E2 E3 E4. apply tokens_inj in E1, E4. destruct k, k'; try discriminate; destruct f, f'; try discriminate; auto.
Qed.
(** A collection in which the statistics of one name are the same can be evaluated together (C18). *)
Theorem C19_all_together argsort fmt str (metrics : dict string (metric da)) p t : prints_numbers fmt ->
  (forall s, In s (registered metrics) -> exists a, plain_dim a /\ build_all argsort fmt str a = Ok s) ->
  (forall a b sa sb, In sa (registered metrics) -> In sb (registered metrics) -> build_all argsort fmt str a = Ok sa -> build_all argsort fmt str b = Ok sb ->
     told_together_all a b -> sa = sb) ->
  names_identify metrics p t.
Proof.
  intros P H K s s' Is Is' E. destruct (H s Is) as (a & Da & Ha), (H s' Is') as (b & Db & Hb). rewrite (K a b s s' Is Is' Ha Hb); [reflexivity|]. now apply (C19_all_names argsort fmt str a b s s' P Da Db Ha Hb).
Qed.
Print Assumptions C19_all_together.
Definition da_xy : da := mkDa [("x", [LZ 0]); ("y", [LZ 0])] (fun _ => Fin 1) [].
(** The ensemble dimension and the climatology are not in the names of the interval statistics. *)
Theorem C19_intervals_refuted fmt :
  share_a_name (Covered fmt "x" q1 q3) (Covered fmt "y" q1 q3) /\
  share_a_name (Confident fmt "number" [("t", ex_ci 0 10)] q1 q3 (Q2Qc (1 # 2))) (Confident fmt "number" [] q1 q3 (Q2Qc (1 # 2))) /\
  share_a_name (JaccardDistant fmt "number" [("t", ex_ci 0 10)] (Q2Qc (3 # 4)) q1 q3) (JaccardDistant fmt "number" [] (Q2Qc (3 # 4)) q1 q3).
Proof.
  split; [|split]; (split; [reflexivity|]).
  - exists [("v", da_xy)], [("v", scalar (Fin 1))].
    assert (forall d e, (d = "x" /\ e = "y") \/ (d = "y" /\ e = "x") -> exists r, compute (Covered fmt d q1 q3) [("v", da_xy)] [("v", scalar (Fin 1))] = Ok [("v", r)] /\ dnames r = [e]) as K.
    { intros d e Hd.
      assert (Rltb (qr q1) 0 = false /\ Rltb 1 (qr q1) = false /\ Rltb (qr q3) 0 = false /\ Rltb 1 (qr q3) = false) as (A1 & A2 & A3 & A4) by (rewrite qr_q1, qr_q3; repeat split; apply Rltb_false; lra).
      eexists. cbn [compute Covered per_variable_statistic per_variable_compute dget]. change (eqb "v" "v") with true. cbn iota. unfold covered_var, quantile. rewrite A1, A2, A3, A4. cbn [orb].
      destruct Hd as [[-> ->]|[-> ->]]; cbn; (split; [reflexivity|]); reflexivity. }
    destruct (K "x" "y" (or_introl (conj eq_refl eq_refl))) as (r & E & D), (K "y" "x" (or_intror (conj eq_refl eq_refl))) as (r' & E' & D'). rewrite E, E'.
    refine (ex_intro _ "v" (ex_intro _ _ (ex_intro _ _ (conj eq_refl (conj eq_refl (or_introl _)))))). rewrite D, D'. discriminate.
  - destruct (ex_computed 0 4 0 10 2 (Q2Qc (1 # 2)) _ (or_introl eq_refl) ltac:(lra)) as (st & raw & E & _). exists [("t", ex_pi 0 4)], [("t", ex_obs 2)].
    change (compute (Confident fmt "number" [("t", ex_ci 0 10)] q1 q3 (Q2Qc (1 # 2))) [("t", ex_pi 0 4)] [("t", ex_obs 2)])
      with (compute (Confident ex_fmt "number" [("t", ex_ci 0 10)] q1 q3 (Q2Qc (1 # 2))) [("t", ex_pi 0 4)] [("t", ex_obs 2)]). rewrite E. exact I.
  - destruct (ex_computed 0 4 0 10 2 (Q2Qc (3 # 4)) _ (or_intror (or_introl eq_refl)) ltac:(lra)) as (st & raw & E & _). exists [("t", ex_pi 0 4)], [("t", ex_obs 2)].
    change (compute (JaccardDistant fmt "number" [("t", ex_ci 0 10)] (Q2Qc (3 # 4)) q1 q3) [("t", ex_pi 0 4)] [("t", ex_obs 2)])
      with (compute (JaccardDistant ex_fmt "number" [("t", ex_ci 0 10)] (Q2Qc (3 # 4)) q1 q3) [("t", ex_pi 0 4)] [("t", ex_obs 2)]). rewrite E. exact I.
Qed.


Print Assumptions C19_all_names.
Print Assumptions C19_intervals_refuted.
(** A way of printing numbers, and two scores of ensembles. *)
Definition fraction (q : Qc) : string := (str_int (Qnum (this q)) ++ String "/" (str_int (Zpos (Qden (this q)))))%string.
Example C19_all_case argsort str : prints_numbers fraction /\ plain_dim (NEnsembleRPS [] [] "bin" "terciles_by_month" "ensemble_member" false true true true) /\
  (exists s, build_all argsort fraction str (NEnsembleRPS [] [] "bin" "terciles_by_month" "ensemble_member" false true true true) = Ok s /\
     unique_name s = "RankedProbabilityScore_ensemble_member_skipna_ensemble_False_fair_True_terciles_by_month") /\
  exists s, build_all argsort fraction str (NCovered "number" q1 q3) = Ok s /\ unique_name s = "Covered_interval_low=1/4_interval_high=3/4".
Proof.
  split; [|split; [cbn; intuition discriminate|split; eexists; split; reflexivity]]. split.
  - intros x H. unfold fraction in H. rewrite chars_app, in_app_iff in H. destruct H as [H|[H|H]]; [|discriminate|]; revert H; apply str_int_no; [reflexivity|discriminate|reflexivity|discriminate].
  - intros x y H. apply split_int in H; [|reflexivity|discriminate]. destruct H as [E1 E2]. apply str_int_inj in E2. apply Qc_is_canon. destruct (this x) as [a b], (this y) as [c d]. cbn in *. injection E2 as <-. subst c. reflexivity.
Qed.
