(** The viewer of the combined results (C73): relative scores, and that no look-up fails. *)
From Coq Require Import String Ascii ZArith List Bool Reals Lia Lra.
Import ListNotations.
From Verif Require Import Prelude Values Model_XArray Spec_XArray Proofs_XArray Model_MetricsBase Model_Aggregation Model_Loaders
  Proofs_AggState Model_Combine Spec_Combine Proofs_Combine Proofs_Combine2 Proofs_Combine3 Proofs_Combine4 Proofs_Combine5 Model_Viewer Spec_Viewer
  Proofs_Viewer Proofs_Viewer2 Proofs_Viewer3.
Local Open Scope string_scope.
Local Open Scope list_scope.

(** ** The formula *)
Lemma vinf_fin x : isfin (vinf x) = false.
Proof. destruct x; reflexivity. Qed.
Lemma formula_fin metric s b : comparable metric b -> exists p, formula metric (Fin s) (Fin b) = Fin p /\ percent_better metric s b p.
Proof.
  unfold comparable, formula, percent_better. destruct (String.eqb metric "ACC"); intros H; cbn [vsub vneg vadd vdiv].
  - destruct (Req_EM_T (1 + - b) 0) as [E|E]; [exfalso; apply H; lra|]. cbn [vmul]. eexists. split; [reflexivity|]. field. intros K. apply E. lra.
  - destruct (Req_EM_T b 0) as [E|E]; [exfalso; apply H; lra|]. cbn [vmul]. eexists. split; [reflexivity|]. field. exact E.
Qed.
Lemma formula_nan_l metric b : formula metric NaN b = NaN.
Proof. unfold formula. destruct (String.eqb metric "ACC"), b; reflexivity. Qed.
Lemma formula_nan_r metric s : formula metric s NaN = NaN.
Proof. unfold formula. destruct (String.eqb metric "ACC"), s; reflexivity. Qed.
Lemma fin_div x y : isfin (vdiv x y) = true -> (exists a, x = Fin a) /\ ((exists b, y = Fin b /\ b <> 0%R) \/ y = PInf \/ y = NInf).
Proof.
  destruct x as [a| | |], y as [b| | |]; cbn [vdiv]; try discriminate; try (destruct (Req_EM_T b 0) as [E|E]); rewrite ?vinf_fin; try discriminate; intros _; split; eauto.
Qed.
Lemma fin_mul x r : isfin (vmul x (Fin r)) = true -> isfin x = true.
Proof. destruct x; cbn [vmul isfin]; auto; rewrite ?vinf_fin; auto. Qed.
Lemma formula_isfin metric x y : isfin (formula metric x y) = true -> exists s b, x = Fin s /\ y = Fin b /\ comparable metric b.
Proof.
  unfold formula, comparable. destruct (String.eqb metric "ACC"); intros H; apply fin_mul, fin_div in H; destruct H as [(a & Ha) Hb].
  - destruct x as [s| | |], y as [b| | |]; cbn in Ha; try discriminate. exists s, b. split; [reflexivity|]. split; [reflexivity|].
    destruct Hb as [(b' & Eb & N)|[[=]|[=]]]. cbn in Eb. injection Eb as <-. intros ->. apply N. lra.
  - destruct x as [s| | |], y as [b| | |]; cbn in Ha; try discriminate. exists s, b. split; [reflexivity|]. split; [reflexivity|].
    destruct Hb as [(b' & Eb & N)|[[=]|[=]]]. injection Eb as <-. exact N.
Qed.
Lemma masked_isfin c l v : isfin (masked c l v) = true -> isfin v = true.
Proof. unfold masked. destruct (String.eqb _ _); [|auto]. destruct (pos l); [auto|discriminate]. Qed.
Lemma pval_isfin c s b l : isfin (pval c s b l) = true -> isfin s = true.
Proof.
  unfold pval. intros H. apply masked_isfin in H. destruct (c_relative c); [|exact H]. destruct (pos l); [|discriminate]. apply formula_isfin in H. destruct H as (x & y & -> & _). reflexivity.
Qed.

(** ** Names of the combined dataset in the viewer's tables *)
Lemma shown_metric_real m k K : shown_metric m k K -> String.eqb K "Spread/Skill Ratio" = false.
Proof.
  intros H. assert (forallb (fun x => negb (String.eqb (snd x) "Spread/Skill Ratio")) (displayed_metrics m) = true) as C by (destruct m; vm_compute; reflexivity).
  rewrite forallb_forall in C. apply (C (k, K)) in H. apply negb_true_iff in H. exact H.
Qed.
Lemma shown_model_looks m sys M : shown_model m sys M -> In M (keys COLORS) /\ In M (keys SYMBOLS).
Proof.
  intros H. assert (forallb (fun x => memb (snd x) (keys COLORS) && memb (snd x) (keys SYMBOLS)) (displayed_systems m) = true) as C by (destruct m; vm_compute; reflexivity).
  rewrite forallb_forall in C. apply (C (sys, M)) in H. apply andb_true_iff in H. cbn [snd] in H. rewrite !memb_In in H. exact H.
Qed.
Lemma shown_variable_unit v V : shown_variable v V -> In V (keys UNITS).
Proof.
  intros H. assert (forallb (fun x => memb (snd x) (keys UNITS)) displayed_variables = true) as C by (vm_compute; reflexivity).
  rewrite forallb_forall in C. apply (C (v, V)) in H. apply memb_In in H. exact H.
Qed.
Lemma file_score_metric m files c M l x : file_score m files c M l x -> String.eqb (c_metric c) "Spread/Skill Ratio" = false.
Proof.
  intros (mo & M' & y & r & ds & _ & _ & _ & _ & _ & Hv). destruct Hv as (n & k & v & K & a & r' & G & _ & _ & HK & _ & _ & E & _). cbn in E. injection E as E. rewrite E. eapply shown_metric_real, HK.
Qed.

Section Page.
  Variables (m : mode) (files : string -> option (vars da)) (out : output).
  Hypothesis Hf : result_files m files.
  Hypothesis Hp : plain_files m files.
  Hypothesis Em : main m files = Ok out.
  Notation Z := (o_data out).
  Lemma model_shown c s M l : selection_of Z c = Ok s -> In M (models_of s) -> In l (leads s) -> isfin (get s (one M l)) = true -> exists N sys, M = LS N /\ shown_model m sys N.
  Proof.
    intros Es IM Il F. destruct (selection_var m files out Hf Hp Em c s Es) as (b & G & S). destruct (data_ok m files out Hf Em) as ((_ & W & _ & B) & _). destruct (W _ _ G) as [Wb _]. destruct (data_var m files out Hf Hp Em _ _ G) as (_ & _ & D1 & D2).
    rewrite (sm_get _ _ _ S) in F. destruct (B _ _ (upds (one M l) (chosen c)) G) as [H|H].
    - apply (point_of_labels (dims b) _ (proj1 Wb)). intros d I. pose proof (D1 d I) as I7. unfold models_of, leads in IM, Il. rewrite (sm_labels _ _ _ S) in IM, Il by (apply not_chosen; auto).
      cbn [seven In] in I7. destruct I7 as [<-|[<-|[<-|[<-|[<-|[<-|[<-|[]]]]]]]]; unfold upds, chosen, one; cbn; auto; apply (sm_label _ _ _ S); auto; cbn; auto 8.
    - rewrite H in F. discriminate.
    - apply (done_cells m files) in H. destruct H as (sys & N & y & r & ds & Hc & _ & E & _). exists N, sys. split; [exact E|apply Hc].
  Qed.
  Lemma update_ok c previous : offered_choice Z c -> exists p, update_graph m Z (o_lead_time_h out) c previous = Ok p.
  Proof.
    intros [Iv Ho]. unfold update_graph. destruct (seeps_alert c); [eexists; reflexivity|].
    destruct (selection_ok m files out Hf Hp Em c) as (s & Es & Ir).
    { split; [exact Iv|]. intros d x I. apply Ho. cbn in I |- *. tauto. }
    rewrite Es. cbn [bind]. pose proof (selection_curves m files out Hf Hp Em c s Es) as Cu.
    destruct (plotted_ok c s Cu) as ([q al] & Eq); [intros _; exact Ir|]. rewrite Eq. cbn [bind fst snd]. destruct (plotted_Ok c s q al Cu Eq) as (Dq & Gq & _). rewrite Dq.
    pose proof (proj2 (cu_names s Cu "model") (or_introl eq_refl)) as Im. apply names_dget in Im. destruct (dget (dims s) "model") as [ms|] eqn:Ems; [|congruence]. cbn [bind].
    assert (models_of s = ms) as Emo by (unfold models_of, labels_of; rewrite Ems; reflexivity).
    destruct (traces_ok m (o_lead_time_h out) c q ms) as (ts & Et).
    { intros l Il. apply trace_line; unfold dnames; rewrite ?Dq; [apply Cu|apply Cu|fold (models_of s); rewrite Emo; exact Il]. }
    { intros l Il F. apply existsb_exists in F. destruct F as (v & Iv' & F). unfold line in Iv'. apply in_map_iff in Iv'. destruct Iv' as (t & <- & It). rewrite Dq in It. rewrite Gq in F. apply pval_isfin in F.
      destruct (model_shown c s l t Es) as (N & sys & -> & HN); [rewrite Emo; exact Il|exact It|exact F|]. exists N. split; [reflexivity|]. eapply shown_model_looks, HN. }
    rewrite Et. cbn [bind]. unfold ylabel. destruct (c_relative c); [eexists; reflexivity|]. destruct (String.eqb _ _); [eexists; reflexivity|].
    apply keys_dget in Iv. destruct Iv as (b & G). destruct (data_var m files out Hf Hp Em _ _ G) as (_ & (v & HV) & _). apply shown_variable_unit, keys_dget in HV. destruct HV as (u & Eu). unfold dgetE. rewrite Eu. eexists. reflexivity.
  Qed.
End Page.
