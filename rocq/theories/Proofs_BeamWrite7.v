(** The library's metrics look at arrays only as labelled arrays (C69). *)
From Coq Require Import String Ascii List Bool Arith Lia Reals.
Import ListNotations.
From Verif Require Import Prelude Values Model_XArray Spec_XArray Proofs_XArray
  Model_MetricsBase Model_Deterministic Model_Categorical Model_Ensemble Model_Spatial Model_Intervals Model_Wrappers Model_Reliability
  Spec_Aggregator Proofs_Aggregator2 Spec_Beam Spec_BeamWrite Proofs_BeamWrite Proofs_BeamWrite2.
Local Open Scope string_scope.
Local Open Scope list_scope.

Lemma dgetE_same l l' k (f : da -> result da) r : items_rel same_array l l' -> (do x <- dgetE l k; f x) = Ok r ->
  exists x y, same_array x y /\ f x = Ok r /\ dgetE l' k = Ok y.
Proof.
  intros H E. unfold dgetE in *. pose proof (items_rel_dget _ _ _ k H) as D. destruct (dget l k) as [x|]; [|discriminate]. destruct (dget l' k) as [y|]; [|destruct D].
  exists x, y. auto.
Qed.
Ltac same := repeat (apply same_binop || apply same_map); auto.
Ltac ext := let l := fresh in let l' := fresh in let r := fresh in let H := fresh "H" in let E := fresh "E" in
  intros l l' r H E; cbv beta zeta in *;
  repeat (let x := fresh "x" in let y := fresh "y" in let S := fresh "S" in let Q := fresh in
    destruct (dgetE_same _ _ _ _ _ H E) as (x & y & S & Q & ->); clear E; rename Q into E; cbn [bind] in E |- *; cbv beta zeta in E |- *);
  injection E as <-; eexists; (split; [reflexivity|]); same.
Ltac nodup := match goal with |- NoDup (keys ?l) => let k := eval vm_compute in (map fst l) in change (NoDup k) end; repeat (apply NoDup_cons || apply NoDup_nil); cbn; intuition discriminate.

Lemma ext_CSI : extensional CSI. Proof. apply extensional_per_variable; [nodup|ext]. Qed.
Lemma ext_Accuracy : extensional Accuracy. Proof. apply extensional_per_variable; [nodup|ext]. Qed.
Lemma ext_Recall : extensional Recall. Proof. apply extensional_per_variable; [nodup|ext]. Qed.
Lemma ext_FalseAlarmRate : extensional FalseAlarmRate. Proof. apply extensional_per_variable; [nodup|ext]. Qed.
Lemma ext_Precision : extensional Precision. Proof. apply extensional_per_variable; [nodup|ext]. Qed.
Lemma ext_F1Score : extensional F1Score. Proof. apply extensional_per_variable; [nodup|unfold times; ext]. Qed.
Lemma ext_FrequencyBias : extensional FrequencyBias. Proof. apply extensional_per_variable; [nodup|ext]. Qed.
Lemma ext_HSS : extensional HSS. Proof. apply extensional_per_variable; [nodup|unfold times; ext]. Qed.
Lemma ext_ETS : extensional ETS. Proof. apply extensional_per_variable; [nodup|ext]. Qed.
Lemma ext_SEDI : extensional SEDI. Proof. apply extensional_per_variable; [nodup|ext]. Qed.
Lemma ext_RMSE : extensional RMSE. Proof. apply extensional_per_variable; [nodup|ext]. Qed.
Lemma ext_ACC clim : extensional (ACC clim). Proof. apply extensional_per_variable; [nodup|ext]. Qed.
Lemma ext_PredictionActivity clim : extensional (PredictionActivity clim). Proof. apply extensional_per_variable; [nodup|ext]. Qed.
Lemma ext_CRPSEnsemble ar d u f sk : extensional (CRPSEnsemble ar d u f sk). Proof. apply extensional_per_variable; [nodup|ext]. Qed.
Lemma ext_CRPSEnsembleDistance ar d u f sk : extensional (CRPSEnsembleDistance ar d u f sk). Proof. apply extensional_per_variable; [nodup|ext]. Qed.
Lemma ext_UnbiasedEnsembleMeanRMSE d sk : extensional (UnbiasedEnsembleMeanRMSE d sk). Proof. apply extensional_per_variable; [nodup|ext]. Qed.
Lemma ext_UnbiasedSpreadSkillRatio d sk : extensional (UnbiasedSpreadSkillRatio d sk). Proof. apply extensional_per_variable; [nodup|ext]. Qed.
Lemma ext_EnsembleRootMeanVariance d sk : extensional (EnsembleRootMeanVariance d sk). Proof. apply extensional_per_variable; [nodup|ext]. Qed.
Lemma ext_FSS s w : extensional (FSS s w). Proof. apply extensional_per_variable; [nodup|ext]. Qed.
Lemma ext_Reliability str str2f bv bd sfx m : Reliability str str2f bv bd sfx = Ok m -> extensional m.
Proof.
  intros E. unfold Reliability in E. destruct (ContinuousToBins _ _ _ _ _ _ _) as [w|]; [|discriminate]. cbn [bind] in E. injection E as <-.
  apply extensional_per_variable; [nodup|ext].
Qed.
Lemma ext_WindVectorRMSE us vs ns m : WindVectorRMSE us vs ns = Ok m -> extensional m.
Proof.
  intros E. unfold WindVectorRMSE in E. destruct (WindVectorSquaredError us vs ns) as [s|]; [|discriminate]. cbn [bind] in E. injection E as <-.
  intros vals vals' r H E. cbn [values_from_mean_statistics] in *. unfold dgetE in *. specialize (H "WindVectorSquaredError").
  destruct (dget vals _) as [x|]; [|discriminate]. destruct (dget vals' _) as [y|]; [|destruct H]. cbn [bind] in *. injection E as <-. eexists. split; [reflexivity|].
  destruct H as (N1 & N2 & H). split; [unfold keys; rewrite map_map; exact N1|]. split; [unfold keys; rewrite map_map; exact N2|].
  intros v. unfold vars, dict in *. rewrite !(dget_map_val (fun a => da_map vsqrt a)). specialize (H v). destruct (dget x v), (dget y v); try (destruct H; fail); cbn; auto. now apply same_map.
Qed.
