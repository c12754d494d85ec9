(** C32: what masks break, and examples. *)
From Coq Require Import String ZArith List Bool Reals Lia Lra Permutation FunctionalExtensionality.
Import ListNotations.
From Verif Require Import Prelude Values Model_XArray Spec_XArray Proofs_XArray Model_Tree Model_MetricsBase Model_Aggregation Spec_Aggregator Spec_Metrics Proofs_Metrics Spec_Means Proofs_Means
  Model_Deterministic Proofs_Deterministic Proofs_Categorical Spec_Statistic Model_Ensemble Proofs_Ensemble2 Proofs_Baseline Model_Wrappers Model_Interp
  Spec_Interp Model_Spatial Spec_Spatial Proofs_Spatial Props_Spatial Props_FSS Props_FSS2.
From Verif Require Import Proofs_Loaders Proofs_Aggregator Proofs_Ensemble2.
From Coq Require Import Reals Lra.
Local Open Scope R_scope.
Local Open Scope string_scope.
Local Open Scope list_scope.

Definition three := [LZ 0; LZ 1; LZ 2].
Definition field (v : R) (x : dict string coord) : da := mkDa [("latitude", three); ("longitude", [LZ 0])] (fun _ => Fin v) x.
Definition all_valid : coord := mkCoord ["latitude"; "longitude"] (fun _ => LB true).
Definition g_masked : aggregator := mkAgg ["latitude"; "longitude"] [] [] true false.

(** A mask on the targets (here: everything valid) makes the score leave [0, 1]: errors and target
    fractions are averaged over the points whose square fits on the grid, the prediction fractions
    over all points. *)
Theorem C32_fss_mask_refuted : exists a,
  metric_value g_masked [("rain", field 1 [])] [("rain", field 0 [("mask", all_valid)])] (FSS (One 3) true) "rain" a /\
  get a env0 = Fin (-2).
Proof.
  eexists. split; [eexists; split; reflexivity|].
  cbn -[Req_EM_T Rplus Rmult Ropp Rdiv IZR Rlt_dec Rabs vdiv isclose_true pow].
  change (Pos.to_nat 3) with 3%nat. cbn -[Req_EM_T Rplus Rmult Ropp Rdiv IZR Rlt_dec Rabs vdiv isclose_true pow].
  assert (isclose_true (Fin 0) = false) as I0 by (apply not_true_is_false; rewrite is_close; replace (0 - 1) with (Ropp 1) by ring; rewrite Rabs_Ropp, Rabs_R1; lra).
  assert (forall x, x = 1 -> isclose_true (Fin x) = true) as I1 by (intros x ->; apply is_close; replace (1 - 1) with 0 by ring; rewrite Rabs_R0; lra).
  match goal with |- context [isclose_true (Fin (?x + ?y))] => rewrite (I1 (x + y)) by field end. rewrite I0. cbn [andb].
  cbn -[Req_EM_T Rplus Rmult Ropp Rdiv IZR Rlt_dec Rabs vdiv isclose_true pow].
  rewrite !vdiv_fin by lra. cbn [vadd]. rewrite vdiv_fin by lra. cbn [vsub vneg vadd]. f_equal. field.
Qed.
Print Assumptions C32_fss_mask_refuted.

(** From size 317 on, an invalid point in the square may go unnoticed. *)
Definition many : list label := map (fun k => LZ (Z.of_nat k)) (seq 0 317).
Definition one_invalid (e : env) : bool := negb (eqb (e "latitude") (LZ 0) && eqb (e "longitude") (LZ 0)).
Definition big_mask : coord := mkCoord ["latitude"; "longitude"] (fun e => LB (one_invalid e)).
Definition big : da := mkDa [("latitude", many); ("longitude", many)] (fun _ => Fin 0) [("mask", big_mask)].
Definition centre : env := fun _ => LZ 158.
Lemma big_wf : wf big.
Proof.
  split; [|split].
  - cbn. repeat constructor; cbn; intuition discriminate.
  - assert (NoDup many) as N. { unfold many. apply FinFun.Injective_map_NoDup; [intros x y E; injection E; lia|apply seq_NoDup]. }
    intros d ls [E|[E|[]]]; injection E as <- <-; exact N.
  - intros e e' _. reflexivity.
Qed.
Lemma big_local : coords_local big.
Proof.
  intros n c H. cbn [big aux dget] in H. destruct (eq_dec n "mask") as [_|]; [|discriminate]. injection H as <-. split; [intros k Hk; exact Hk|].
  intros e e' He. cbn [big_mask c_get]. unfold one_invalid. rewrite (He "latitude"), (He "longitude") by (cbn; auto). reflexivity.
Qed.
Lemma big_Ok : exists b, neighborhood_averaging_for_single_size big 317 false = Ok b.
Proof.
  unfold big. generalize many. intros L. unfold neighborhood_averaging_for_single_size, average_core. cbn [dims aux dget].
  destruct (eq_dec "latitude" "latitude"); [|congruence]. destruct (eq_dec "longitude" "latitude"); [congruence|]. destruct (eq_dec "longitude" "longitude"); [|congruence].
  change (check_size 317) with (@Ok unit tt). cbn [bind aux dget]. destruct (eq_dec "mask" "mask"); [|congruence].
  unfold mask_dims. cbn [big_mask c_dims map dims]. unfold labels_of. cbn [dget].
  destruct (eq_dec "latitude" "latitude"); [|congruence]. destruct (eq_dec "longitude" "latitude"); [congruence|]. destruct (eq_dec "longitude" "longitude"); [|congruence].
  cbn [dget]. destruct (eq_dec "latitude" "latitude"); [|congruence]. destruct (eq_dec "longitude" "latitude"); [congruence|]. destruct (eq_dec "longitude" "longitude"); [|congruence].
  cbn [bind dims]. change (keep _ [("latitude", L); ("longitude", L)]) with (@nil (string * list label)). cbn [app map snd]. destruct (list_eq_dec _ _ _); [|congruence]. eexists. reflexivity.
Qed.
Theorem C32_mask_large_refuted : exists b c' q,
  neighborhood_averaging_for_single_size big 317 false = Ok b /\ dget (aux b) "mask" = Some c' /\ c_get c' centre = LB true /\
  In q (neighbours 158 many many centre 158 158) /\ one_invalid q = false.
Proof.
  assert (exists b, neighborhood_averaging_for_single_size big 317 false = Ok b) as [b Hb].
  { apply big_Ok. }
  assert (at_position many many centre 158 158) as Pos by (split; reflexivity).
  assert (grid big many many) as G by (split; reflexivity).
  assert (inside 158 false many many 158 158) as I by (unfold inside; change (length many) with 317%nat; split; [lia|split; [lia|right; lia]]).
  destruct (C32_mask_tolerance big 158 false b big_mask one_invalid many many centre 158 158 big_wf big_local G) as (c' & A & _ & _ & _ & K).
  - split; [reflexivity|]. split; [exists []; reflexivity|]. split; [cbn; repeat constructor; cbn; intuition discriminate|reflexivity].
  - exact Hb.
  - intros d ls [E|[E|[]]]; injection E as <- <-; apply (nth_error_In many 158); reflexivity.
  - exact Pos.
  - destruct (K I) as (v & V & Hv). exists b, c', (moved many many centre (158 + -158) (158 + -158)). split; [exact Hb|]. split; [exact A|]. split; [rewrite V; f_equal; apply Hv|split].
    + assert (invalid one_invalid (neighbours 158 many many centre 158 158) = 1%nat) as ->; [|lia]. vm_compute. reflexivity.
    + unfold neighbours. apply in_map_iff. exists (-158, -158)%Z. split; [reflexivity|]. unfold square. apply in_prod; apply In_offsets; lia.
    + reflexivity.
Qed.
Print Assumptions C32_mask_large_refuted.
