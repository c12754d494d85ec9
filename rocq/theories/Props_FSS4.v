(** C32: transposed masks, and examples. *)
From Coq Require Import String ZArith List Bool Reals Lia Lra Permutation FunctionalExtensionality.
Import ListNotations.
From Verif Require Import Prelude Values Model_XArray Spec_XArray Proofs_XArray Model_Tree Model_MetricsBase Model_Aggregation Spec_Aggregator Spec_Metrics Proofs_Metrics Spec_Means Proofs_Means
  Model_Deterministic Proofs_Deterministic Proofs_Categorical Spec_Statistic Model_Ensemble Proofs_Ensemble2 Proofs_Baseline Model_Wrappers Model_Interp
  Spec_Interp Model_Spatial Spec_Spatial Proofs_Spatial Props_Spatial Props_FSS Props_FSS2.
From Verif Require Import Proofs_Loaders Proofs_Aggregator Proofs_Ensemble2.
From Coq Require Import Reals Lra.
Local Open Scope R_scope.
Local Open Scope string_scope.
Local Open Scope list_scope.

(** A mask with dimensions (longitude, latitude) on a square grid comes out transposed, whatever the
    size: here, with size 1, the mask of the valid point (longitude 0, latitude 1) becomes False. *)
Definition two := [LZ 0; LZ 1].
Definition west (e : env) : bool := eqb (e "longitude") (LZ 0).
Definition west_mask : coord := mkCoord ["longitude"; "latitude"] (fun e => LB (west e)).
Definition tilted : da := mkDa [("longitude", two); ("latitude", two)] (fun _ => Fin 0) [("mask", west_mask)].
Definition north_west : env := upd (fun _ => LZ 0) "latitude" (LZ 1).
Lemma not_close : isclose_true (Fin 0) = false.
Proof. apply not_true_is_false. rewrite is_close. replace (0 - 1) with (Ropp 1) by ring. rewrite Rabs_Ropp, Rabs_R1. lra. Qed.
Theorem C32_mask_transposed_refuted : exists b c', neighborhood_averaging_for_single_size tilted 1 false = Ok b /\
  dget (aux b) "mask" = Some c' /\ west north_west = true /\ c_get c' north_west = LB false.
Proof. eexists. eexists. split; [reflexivity|]. split; [reflexivity|]. split; [reflexivity|]. cbn -[isclose_true IZR]. unfold b2v. now rewrite not_close. Qed.
Print Assumptions C32_mask_transposed_refuted.

(** ** Examples *)
Definition three := [LZ 0; LZ 1; LZ 2].
Definition field (v : R) : da := mkDa [("latitude", three); ("longitude", [LZ 0])] (fun _ => Fin v) [].
Definition g_grid : aggregator := mkAgg ["latitude"; "longitude"] [] [] false false.
Lemma good_field v : good (field v).
Proof.
  split; [|constructor]. split; [|split].
  - cbn. repeat constructor; cbn; intuition discriminate.
  - intros d ls [E|[E|[]]]; injection E as <- <-; repeat constructor; cbn; intuition discriminate.
  - reflexivity.
Qed.
Lemma nonneg_field v : 0 <= v -> nonnegative (field v).
Proof. intros H e _. exists v. auto. Qed.
(** The hypotheses of C32_fss hold for fields of ones and of twos, with size 3. *)
Example C32_example_fss : exists p' t' sfe d0 m0 a,
  good (field 1) /\ good (field 2) /\ proper_sizes (One 3) (field 1) /\ nonnegative (field 1) /\ nonnegative (field 2) /\
  neighborhood_averaging (field 1) (One 3) true = Ok p' /\ neighborhood_averaging (field 2) (One 3) true = Ok t' /\
  statistic_value (SquaredFractionsError (One 3) true) [("rain", field 1)] [("rain", field 2)] "rain" sfe /\
  weighted_input g_grid sfe d0 [] [] [] [] /\ mean_array g_grid sfe m0 /\ point_of (dims m0) env0 /\
  metric_value g_grid [("rain", field 1)] [("rain", field 2)] (FSS (One 3) true) "rain" a /\
  (forall q, 0 <= point_weight g_grid sfe [] [] q).
Proof.
  assert (exists p', neighborhood_averaging (field 1) (One 3) true = Ok p') as [p' Hp] by (eexists; reflexivity).
  assert (exists t', neighborhood_averaging (field 2) (One 3) true = Ok t') as [t' Ht] by (eexists; reflexivity).
  pose proof (nonneg_field 1 ltac:(lra)) as N1. pose proof (nonneg_field 2 ltac:(lra)) as N2.
  destruct (averaging_shape (field 1) (One 3) true p' (good_field 1) eq_refl I Hp) as (D1 & A1 & W1 & Q1). specialize (Q1 N1).
  destruct (averaging_shape (field 2) (One 3) true t' (good_field 2) eq_refl I Ht) as (D2 & A2 & W2 & Q2). specialize (Q2 N2).
  set (sfe := da_map vsq (binop vsub p' t')).
  assert (statistic_value (SquaredFractionsError (One 3) true) [("rain", field 1)] [("rain", field 2)] "rain" sfe) as Sv.
  { cut (forall r1 r2, neighborhood_averaging (field 1) (One 3) true = r1 -> neighborhood_averaging (field 2) (One 3) true = r2 ->
      compute (SquaredFractionsError (One 3) true) [("rain", field 1)] [("rain", field 2)] = (do x <- r1; do y <- r2; Ok [("rain", da_map vsq (binop vsub x y))])).
    - intros C. exists [("rain", sfe)]. split; [|reflexivity]. rewrite (C _ _ Hp Ht). reflexivity.
    - intros r1 r2 <- <-. reflexivity. }
  assert (dims sfe = dims (field 1)) as Ds. { unfold sfe. cbn [da_map dims binop]. rewrite D1, D2. reflexivity. }
  assert (exists m0, mean_array g_grid sfe m0 /\ dims m0 = []) as (m0 & Hm & Dm).
  { unfold sfe. clear - Hp Ht. cbn in Hp, Ht. injection Hp as <-. injection Ht as <-. eexists. split; [eexists; eexists; split; reflexivity|]. reflexivity. }
  exists p', t', sfe, (real_of sfe), m0. eexists. split; [apply good_field|]. split; [apply good_field|]. split; [exact I|]. split; [exact N1|]. split; [exact N2|]. split; [exact Hp|]. split; [exact Ht|]. split; [exact Sv|].
  split; [|split; [exact Hm|split; [|split; [eexists; split; reflexivity|]]]].
  - constructor; [|intros c H|intros ? []|intros ? []|reflexivity|reflexivity|intros ? []|constructor|constructor|].
    + destruct (wf_binop vsub p' t' W1 W2) as (X1 & X2 & X3). split; [exact X1|]. split; [exact X2|]. intros e1 e2 He. cbn [sfe da_map get]. f_equal. now apply X3.
    + exfalso. unfold sfe in H. cbn [da_map binop aux] in H. rewrite A1, A2 in H. discriminate.
    + intros e He _. rewrite Ds in He. unfold real_of. destruct (Q1 e) as (y1 & E1 & _); [rewrite D1; exact He|]. destruct (Q2 e) as (y2 & E2 & _); [rewrite D2; exact He|]. unfold sfe. cbn [da_map get binop]. rewrite E1, E2. reflexivity.
  - rewrite Dm. intros d ls [].
  - intros q. unfold point_weight. cbn. lra.
Qed.
(** Those of C32_mask: a valid 3 x 3 neighbourhood. *)
Definition all_valid : coord := mkCoord ["latitude"; "longitude"] (fun _ => LB true).
Definition masked_field : da := mkDa [("latitude", three); ("longitude", three)] (fun _ => Fin 1) [("mask", all_valid)].
Example C32_example_mask : wf masked_field /\ coords_local masked_field /\ grid masked_field three three /\ boolean_mask masked_field all_valid (fun _ => true) /\
  (exists b, neighborhood_averaging_for_single_size masked_field 3 false = Ok b) /\ point_of (dims masked_field) (fun _ => LZ 1) /\
  at_position three three (fun _ => LZ 1) 1 1 /\ inside 1 false three three 1 1.
Proof.
  split; [|split; [|split; [|split; [|split; [|split; [|split]]]]]].
  - split; [|split].
    + cbn. repeat constructor; cbn; intuition discriminate.
    + intros d ls [E|[E|[]]]; injection E as <- <-; repeat constructor; cbn; intuition discriminate.
    + reflexivity.
  - intros n c H. cbn [masked_field aux dget] in H. destruct (eq_dec n "mask") as [_|]; [|discriminate]. injection H as <-. split; [intros k Hk; exact Hk|reflexivity].
  - split; reflexivity.
  - split; [reflexivity|]. split; [exists []; reflexivity|]. split; [cbn; repeat constructor; cbn; intuition discriminate|reflexivity].
  - eexists. reflexivity.
  - intros d ls [E|[E|[]]]; injection E as <- <-; cbn; auto.
  - split; reflexivity.
  - split; [lia|]. split; [cbn; lia|]. right. cbn. lia.
Qed.
(** Those of C32_threshold_probability. *)
Example C32_example_threshold : wf masked_field /\
  exists out, NeighborhoodThresholdProbabilities [1; 3]%Z (TList [(LZ 0, Fin 0); (LZ 2, Fin 2)]) "threshold" false "rain" masked_field None = Ok out /\
    dims out = [("smoothing_neighborhood", [LZ 1; LZ 3]); ("threshold", [LZ 0; LZ 2]); ("latitude", three); ("longitude", three)].
Proof. split; [apply C32_example_mask|]. eexists. split; [reflexivity|]. reflexivity. Qed.
