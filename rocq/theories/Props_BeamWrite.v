(** C69: the files the aggregated Beam pipeline leaves behind. *)
From Coq Require Import String Ascii List Bool Arith Lia ZArith Reals.
Import ListNotations.
From Verif Require Import Prelude Values Model_XArray Spec_XArray Proofs_XArray Model_Tree
  Model_MetricsBase Model_Deterministic Model_Categorical Model_Ensemble Model_Spatial Model_Wrappers Model_Reliability
  Model_Aggregation Spec_Aggregator Proofs_Aggregator2 Spec_RoundTrip
  Model_TimeChunks Model_Beam Spec_Beam Proofs_Beam5 Proofs_Beam9 Spec_BeamWrite Proofs_BeamWrite Proofs_BeamWrite2 Proofs_BeamWrite3 Proofs_BeamWrite6 Proofs_BeamWrite7
  Model_BeamWrite.
From Verif Require Import Model_AtomicWrite Props_AtomicWrite.
From Verif Require Proofs_Metrics.
Notation state := Model_Aggregation.state.
Notation bytes := Model_AtomicWrite.bytes.
Local Open Scope string_scope.
Local Open Scope list_scope.

Section Run.
  Variables (init lead : list Z) (isz lsz : option Z) (tc : time_chunks) (pl tl : loader).
  Variables (metrics : dict string (metric da)) (g : aggregator) (full : dict string (vars da)) (s : state).
  Hypothesis CE : chunked_evaluation init lead isz lsz tc pl tl metrics g full s.
  Hypothesis PT : per_time tc g full.

  (** Whatever the runner did, every state the pipeline ends with gives the metric values of
      direct evaluation: same "<metric>.<variable>" names, equal arrays. *)
  Theorem C69_metric_values mv : each_statistic_kept full s -> (forall name m, In (name, m) metrics -> extensional m) ->
    metric_tables metrics s = Ok mv -> clean mv ->
    metric_values metrics s = Ok (values_dataset mv) /\
    forall out s', pipeline_states tc pl tl metrics g out -> In s' out ->
      exists d, metric_values metrics s' = Ok d /\ same_dataset d (values_dataset mv).
  Proof.
    intros EK HM E C. split.
    - unfold metric_values. unfold metric_tables in E. destruct (mean_statistics s) as [m|]; [|discriminate]. cbn [bind] in *. destruct (nested m) as [n|]; [|discriminate]. cbn [bind] in *. rewrite E. reflexivity.
    - intros out s' HP I. destruct (state_metrics init lead isz lsz tc pl tl metrics g full s mv out s' CE PT EK HM E C HP I) as (d & Ed & Sd & _). eauto.
  Qed.

  Variables (to_netcdf : dict string da -> result bytes) (open_netcdf : bytes -> result (dict string da)).
  Hypothesis Law : netcdf_law to_netcdf open_netcdf.
  Variables (calls : nat -> option call) (fs0 fs : filesystem) (ph : nat -> phase).
  Hypothesis Fresh : fresh calls fs0.
  Hypothesis Reach : reachable calls fs0 (fs, ph).

  Lemma sink_target out_path state_path ks k s' w q b : sinks out_path state_path = Ok ks -> In k ks -> run_sink to_netcdf metrics k s' = Ok w -> In (q, b) w ->
    k = MetricsSink q /\ out_path = Some q \/ k = StateSink q /\ state_path = Some q.
  Proof.
    intros Es Ik Er Iw. unfold sinks in Es.
    assert (ks = match out_path with Some p => [MetricsSink p] | None => [] end ++ match state_path with Some p => [StateSink p] | None => [] end) as ->.
    { destruct out_path, state_path; congruence. }
    apply in_app_iff in Ik. destruct Ik as [Ik|Ik].
    - destruct out_path as [p|]; [|destruct Ik]. destruct Ik as [<-|[]]. cbn [run_sink] in Er. unfold compute_metrics in Er.
      destruct (metric_values metrics s') as [d|]; [|discriminate]. cbn [bind mapM] in Er. unfold write_metrics in Er. destruct (to_netcdf d) as [b0|]; [|discriminate]. cbn [bind] in Er. injection Er as <-.
      destruct Iw as [[= <- <-]|[]]. auto.
    - destruct state_path as [p|]; [|destruct Ik]. destruct Ik as [<-|[]]. cbn [run_sink] in Er. unfold write_aggregation_state in Er.
      destruct (to_dataset "#"%char s') as [d|]; [|discriminate]. cbn [bind] in Er. destruct (to_netcdf d) as [b0|]; [|discriminate]. cbn [bind] in Er. injection Er as <-.
      destruct Iw as [[= <- <-]|[]]. auto.
  Qed.

  (** The metrics file: at every moment of every execution (attempts repeated, running
      concurrently, failing or crashing anywhere) it is what it was before, and then no write
      to it has returned, or it decodes to the metric values of direct evaluation. *)
  Theorem C69_metrics_file mv p state_path : each_statistic_kept full s -> (forall name m, In (name, m) metrics -> extensional m) ->
    metric_tables metrics s = Ok mv -> clean mv ->
    pipeline_writes to_netcdf tc pl tl metrics g (Some p) state_path calls -> state_path <> Some p -> not_tmp calls p ->
    (fs p = fs0 p /\ forall i c, calls i = Some c -> target c = p -> ph i <> Returned) \/
    (exists b d, fs p = Some b /\ open_netcdf b = Ok d /\ same_dataset d (values_dataset mv)).
  Proof.
    intros EK HM E C PW Hne NT. destruct (i_target _ _ _ (inv_reachable _ _ _ Fresh Reach) p NT) as [L|(i & c & Hi & Et & Er & Ef)]; [left; exact L|]. right. cbn [fst snd] in *.
    destruct (PW i c Hi) as (ks & k & out & s' & w & Es & Ik & HP & I & Ew & Iw).
    destruct (sink_target _ _ _ _ _ _ _ _ Es Ik Ew Iw) as [[-> _]|[_ F]]; [|congruence]. rewrite Et in *.
    destruct (state_metrics init lead isz lsz tc pl tl metrics g full s mv out s' CE PT EK HM E C HP I) as (d & Ed & Sd & Wd & Nd).
    cbn [run_sink] in Ew. unfold compute_metrics in Ew. rewrite Ed in Ew. cbn [bind mapM] in Ew. unfold write_metrics in Ew. destruct (to_netcdf d) as [b|] eqn:Eb; [|discriminate]. cbn [bind] in Ew. injection Ew as <-.
    destruct Iw as [[= Eb']|[]]. destruct (Law d b Wd Eb) as (d' & Ed' & R). exists (data c), d'. split; [exact Ef|]. rewrite <- Eb'. split; [exact Ed'|].
    intros n. eapply opt_same_trans; [|apply Sd]. pose proof (items_rel_dget _ _ _ n R) as Q. destruct (dget d' n), (dget d n); exact Q.
  Qed.

  (** The state file: likewise, and from_dataset reads back a state with the entries of direct
      aggregation, from which the metric values of direct evaluation can be computed. *)
  Theorem C69_state_file p out_path : storable s ->
    pipeline_writes to_netcdf tc pl tl metrics g out_path (Some p) calls -> out_path <> Some p -> not_tmp calls p ->
    (fs p = fs0 p /\ forall i c, calls i = Some c -> target c = p -> ph i <> Returned) \/
    (exists b d s'', fs p = Some b /\ open_netcdf b = Ok d /\ from_dataset "#"%char d = Ok s'' /\ same_entries s'' s /\
      forall ms mv, each_statistic_kept full s -> (forall name m, In (name, m) ms -> extensional m) -> metric_tables ms s = Ok mv -> clean mv ->
        exists d', metric_values ms s'' = Ok d' /\ same_dataset d' (values_dataset mv)).
  Proof.
    intros SO PW Hne NT. destruct (i_target _ _ _ (inv_reachable _ _ _ Fresh Reach) p NT) as [L|(i & c & Hi & Et & Er & Ef)]; [left; exact L|]. right. cbn [fst snd] in *.
    destruct (PW i c Hi) as (ks & k & out & s' & w & Es & Ik & HP & I & Ew & Iw).
    destruct (sink_target _ _ _ _ _ _ _ _ Es Ik Ew Iw) as [[_ F]|[-> _]]; [congruence|]. rewrite Et in *.
    destruct (state_saved init lead isz lsz tc pl tl metrics g full s out s' CE PT SO HP I) as (ds & Ed & Wd & RB).
    cbn [run_sink] in Ew. unfold write_aggregation_state in Ew. rewrite Ed in Ew. cbn [bind] in Ew. destruct (to_netcdf ds) as [b|] eqn:Eb; [|discriminate]. cbn [bind] in Ew. injection Ew as <-.
    destruct Iw as [[= Eb']|[]]. destruct (Law ds b Wd Eb) as (d' & Ed' & R). destruct (RB d' R) as (s'' & d1 & d2 & E2 & Sh & SE).
    exists (data c), d', s''. split; [exact Ef|]. rewrite <- Eb'. split; [exact Ed'|]. split; [exact E2|]. split; [exact SE|].
    intros ms mv EK HM Em C. destruct (direct_shaped g full s (ce_dicts _ _ _ _ _ _ _ _ _ _ _ CE) (ce_direct _ _ _ _ _ _ _ _ _ _ _ CE) EK) as [(d1' & d2' & Sh') B].
    destruct (metric_tables_same ms s s'' d1' d2' d1 d2 mv Sh' Sh B SE HM Em) as (mv' & E' & R'). exists (values_dataset mv'). split.
    - unfold metric_values. unfold metric_tables in E'. destruct (mean_statistics s'') as [m|]; [|discriminate]. cbn [bind] in *. destruct (nested m) as [n|]; [|discriminate]. cbn [bind] in *. rewrite E'. reflexivity.
    - intros n. apply opt_same_sym. now apply (values_same mv mv' R' C).
  Qed.

  (** Nothing else is touched. *)
  Theorem C69_other_files p out_path state_path : pipeline_writes to_netcdf tc pl tl metrics g out_path state_path calls ->
    out_path <> Some p -> state_path <> Some p -> not_tmp calls p -> fs p = fs0 p.
  Proof.
    intros PW H1 H2 NT. eapply C16_other_files_untouched; eauto. intros i c Hi Et. destruct (PW i c Hi) as (ks & k & out & s' & w & Es & Ik & HP & I & Ew & Iw).
    destruct (sink_target _ _ _ _ _ _ _ _ Es Ik Ew Iw) as [[_ F]|[_ F]]; congruence.
  Qed.

  (** Direct aggregation without entries (no statistic variable has the reduced dimensions):
      no state, no write, no file. *)
  Theorem C69_nothing_aggregated out_path state_path : (forall ty k v, entry (part ty s) k v = None) ->
    pipeline_writes to_netcdf tc pl tl metrics g out_path state_path calls -> (forall i, calls i = None) /\ forall p, fs p = fs0 p.
  Proof.
    intros N PW. assert (forall i, calls i = None) as Z.
    { intros i. destruct (calls i) as [c|] eqn:Hi; [|reflexivity]. exfalso. destruct (PW i c Hi) as (ks & k & out & s' & w & Es & Ik & HP & I & Ew & Iw).
      destruct (agrees_states init lead isz lsz tc pl tl metrics g full s CE PT) as [_ A]. destruct (A out HP) as (_ & _ & A3). rewrite (A3 N) in I. destruct I. }
    split; [exact Z|]. intros p. eapply C16_other_files_untouched; eauto; intros i c Hi; rewrite Z in Hi; discriminate.
  Qed.

  (** A run of either branch on a state of the pipeline fails only if to_netcdf does. *)
  Theorem C69_branches_run mv out s' p : each_statistic_kept full s -> (forall name m, In (name, m) metrics -> extensional m) ->
    metric_tables metrics s = Ok mv -> clean mv -> storable s ->
    pipeline_states tc pl tl metrics g out -> In s' out ->
    exists d ds, run_sink to_netcdf metrics (MetricsSink p) s' = (do b <- to_netcdf d; Ok [(p, b)]) /\
      run_sink to_netcdf metrics (StateSink p) s' = (do b <- to_netcdf ds; Ok [(p, b)]) /\
      same_dataset d (values_dataset mv) /\ exists s'', from_dataset "#"%char ds = Ok s'' /\ same_entries s'' s.
  Proof.
    intros EK HM E C SO HP I. destruct (state_metrics init lead isz lsz tc pl tl metrics g full s mv out s' CE PT EK HM E C HP I) as (d & Ed & Sd & _).
    destruct (state_saved init lead isz lsz tc pl tl metrics g full s out s' CE PT SO HP I) as (ds & Es & Ws & RB).
    exists d, ds. split; [|split; [|split; [exact Sd|]]].
    - cbn [run_sink]. unfold compute_metrics. rewrite Ed. cbn [bind mapM]. unfold write_metrics. destruct (to_netcdf d); reflexivity.
    - cbn [run_sink]. unfold write_aggregation_state. rewrite Es. cbn [bind]. destruct (to_netcdf ds); reflexivity.
    - destruct (RB ds) as (s'' & d1 & d2 & E2 & _ & SE); [|eauto]. clear - Ws. induction ds as [|[n a] ds IH]; [constructor|]. constructor; [split; [reflexivity|]; apply same_array_refl; apply (Ws n); now left|].
      apply IH. intros m b J. apply (Ws m). now right.
  Qed.

  (** Without [each_statistic_kept] the claim is false: if the Aggregator drops every variable
      of a statistic that a metric uses, ComputeMetrics raises on every state of the pipeline
      (direct evaluation does not, see C69_dropped_statistic_direct). *)
  Theorem C69_dropped_statistic_refuted name m n st out s' : In (name, m) metrics -> In (n, st) (statistics m) ->
    (forall ty v, entry (part ty s) (unique_name st) v = None) ->
    pipeline_states tc pl tl metrics g out -> In s' out ->
    exists e, compute_metrics metrics s' = Err e.
  Proof.
    intros Im In' HN HP I. unfold compute_metrics. destruct (metric_values metrics s') as [d|e] eqn:Ed; [|exists e; reflexivity]. exfalso.
    destruct (agrees_states init lead isz lsz tc pl tl metrics g full s CE PT) as [_ A]. destruct (A out HP) as [AE _].
    pose proof (direct_both g full s (ce_dicts _ _ _ _ _ _ _ _ _ _ _ CE) (ce_direct _ _ _ _ _ _ _ _ _ _ _ CE)) as B.
    destruct (pipeline_shaped tc pl tl metrics g out s' HP I) as (d1 & d2 & (-> & P1 & P2)).
    assert (forall k v a, look d1 k v = Some a -> exists b, look d2 k v = Some b) as Co.
    { intros k v a L. pose proof (AE _ SumWeightedStatistics k v I) as A1. pose proof (AE _ SumWeights k v I) as A2. specialize (B k v). cbn [part] in A1, A2. rewrite !entry_nest in *. rewrite L in A1.
      destruct (look d2 k v) as [b|]; [eauto|]. exfalso. destruct (entry (part SumWeightedStatistics s) k v); [|destruct A1]. destruct (entry (part SumWeights s) k v); [destruct A2|]. now apply (proj1 B). }
    unfold metric_values in Ed. rewrite (means_nest d1 d2 P1 Co) in Ed. cbn [bind] in Ed. rewrite Proofs_Metrics.nested_nest in Ed. cbn [bind] in Ed.
    destruct (compute_metrics_from_statistics metrics (means d1 d2)) as [mv|] eqn:Ec; [|discriminate]. unfold compute_metrics_from_statistics in Ec.
    destruct (mapM_defined _ _ _ Ec (name, m) Im) as (y & _ & Ey). cbn [fst snd] in Ey. unfold compute_metric_from_statistics in Ey.
    match type of Ey with context [mapM ?f (statistics m)] => destruct (mapM f (statistics m)) as [rn|] eqn:En end; [|discriminate Ey].
    destruct (mapM_defined _ _ _ En (n, st) In') as (z & _ & Ez). cbn [fst snd] in Ez. unfold dgetE in Ez. rewrite dget_means in Ez.
    destruct (dget d1 (unique_name st)) as [vs|] eqn:G; [|discriminate].
    destruct P1 as [N1 W1]. destruct (W1 _ vs (dget_In _ _ G)) as [_ Ne]. destruct vs as [|[v a] vs]; [congruence|].
    pose proof (AE _ SumWeightedStatistics (unique_name st) v I) as A1. cbn [part] in A1. rewrite entry_nest in A1. unfold look in A1. rewrite G in A1. cbn [dget] in A1.
    destruct (eq_dec v v); [|congruence]. rewrite (HN SumWeightedStatistics v) in A1. exact A1.
  Qed.
End Run.

(** Without an output path the pipeline is not built. *)
Theorem C69_no_output_path to_netcdf tc pl tl metrics g : sinks None None = Err ValueError /\
  (forall o st, o <> None \/ st <> None -> exists ks, sinks o st = Ok ks /\
     (forall p, In (MetricsSink p) ks <-> o = Some p) /\ (forall p, In (StateSink p) ks <-> st = Some p)) /\
  forall calls, pipeline_writes to_netcdf tc pl tl metrics g None None calls -> forall i, calls i = None.
Proof.
  split; [reflexivity|]. split.
  - intros o st H. exists (match o with Some p => [MetricsSink p] | None => [] end ++ match st with Some p => [StateSink p] | None => [] end). split; [destruct o, st; try reflexivity; destruct H; congruence|].
    split; intros p; rewrite in_app_iff; destruct o, st; cbn; intuition congruence.
  - intros calls H i. destruct (calls i) as [c|] eqn:E; [|reflexivity]. destruct (H i c E) as (ks & k & out & s & w & E' & _). discriminate.
Qed.

(** The metrics of the library qualify: all statistics used as metrics, the metrics below,
    and whatever wrappers, variable selection and member averaging make of them. *)
Theorem C69_library_metrics :
  (forall st, extensional (metric_of_statistic st)) /\
  Forall extensional [RMSE; CSI; Accuracy; Recall; FalseAlarmRate; Precision; F1Score; FrequencyBias; HSS; ETS; SEDI] /\
  (forall clim, extensional (ACC clim) /\ extensional (PredictionActivity clim)) /\
  (forall us vs ns m, WindVectorRMSE us vs ns = Ok m -> extensional m) /\
  (forall argsort d u f sk, extensional (CRPSEnsemble argsort d u f sk) /\ extensional (CRPSEnsembleDistance argsort d u f sk)) /\
  (forall d sk, extensional (UnbiasedEnsembleMeanRMSE d sk) /\ extensional (UnbiasedSpreadSkillRatio d sk) /\ extensional (EnsembleRootMeanVariance d sk)) /\
  (forall s w, extensional (FSS s w)) /\
  (forall str str2f bv bd sfx m, Reliability str str2f bv bd sfx = Ok m -> extensional m) /\
  (forall m, extensional m -> (forall d sk, extensional (EnsembleAveragedMetric d sk m)) /\
     (forall ts sfx, extensional (WrappedMetric m ts sfx)) /\ (forall vs, extensional (SubselectVariables m vs))).
Proof.
  split; [exact extensional_statistic|]. split.
  { repeat constructor; auto using ext_RMSE, ext_CSI, ext_Accuracy, ext_Recall, ext_FalseAlarmRate, ext_Precision, ext_F1Score, ext_FrequencyBias, ext_HSS, ext_ETS, ext_SEDI. }
  split; [auto using ext_ACC, ext_PredictionActivity|]. split; [exact ext_WindVectorRMSE|]. split; [auto using ext_CRPSEnsemble, ext_CRPSEnsembleDistance|].
  split; [auto using ext_UnbiasedEnsembleMeanRMSE, ext_UnbiasedSpreadSkillRatio, ext_EnsembleRootMeanVariance|]. split; [exact ext_FSS|]. split; [exact ext_Reliability|].
  intros m H. split; [|split]; intros; exact H.
Qed.

(** ** The hypotheses are met *)

(** An encoder that can encode one dataset (and whatever equals it). *)
Definition val_eqb (x y : val) : bool :=
  match x, y with Fin a, Fin b => Reqb a b | NaN, NaN | PInf, PInf | NInf, NInf => true | _, _ => false end.
Lemma val_eqb_eq x y : val_eqb x y = true <-> x = y.
Proof. destruct x, y; cbn; rewrite ?Reqb_true; split; congruence. Qed.
Definition inclb {A} `{EqDec A} (l l' : list A) : bool := forallb (fun x => memb x l') l.
Lemma inclb_incl {A} `{EqDec A} (l l' : list A) : inclb l l' = true <-> incl l l'.
Proof. unfold inclb. rewrite forallb_forall. unfold incl. setoid_rewrite memb_In. reflexivity. Qed.
Definition equivb (a b : da) : bool :=
  inclb (dnames a) (dnames b) && inclb (dnames b) (dnames a) &&
  forallb (fun d => inclb (labels_of (dims a) d) (labels_of (dims b) d) && inclb (labels_of (dims b) d) (labels_of (dims a) d)) (dnames a) &&
  forallb (fun e => val_eqb (get a e) (get b e)) (envs (dims a) env0).
Lemma equivb_equiv a b : wf a -> wf b -> equivb a b = true <-> da_equiv a b.
Proof.
  intros Wa Wb. unfold equivb. rewrite !andb_true_iff, !inclb_incl, !forallb_forall. split.
  - intros [[[H1 H2] H3] H4]. assert (forall d, In d (dnames a) <-> In d (dnames b)) as N by (split; auto).
    assert (forall d x, In x (labels_of (dims a) d) <-> In x (labels_of (dims b) d)) as L.
    { intros d x. destruct (in_dec string_dec d (dnames a)) as [I|NI].
      - specialize (H3 d I). rewrite andb_true_iff, !inclb_incl in H3. split; apply H3.
      - split; intros J; exfalso; apply NI; [|apply N]; eapply labels_of_In; eauto. }
    split; [exact N|]. split; [exact L|]. intros e He.
    set (e1 := fun d => if memb d (dnames a) then e d else env0 d).
    assert (forall d, In d (dnames a) -> e d = e1 d) as A1 by (intros d I; unfold e1; now rewrite (proj2 (memb_In _ _) I)).
    assert (In e1 (envs (dims a) env0)) as I1.
    { apply envs_spec; [apply Wa|]. split.
      - intros d ls I. rewrite <- A1 by (apply in_map_iff; exists (d, ls); auto). eapply He; eauto.
      - intros d NI. unfold e1. destruct (memb d (dnames a)) eqn:M; [|reflexivity]. apply memb_In in M. contradiction. }
    specialize (H4 e1 I1). apply val_eqb_eq in H4. destruct Wa as (_ & _ & La), Wb as (_ & _ & Lb). rewrite (La e e1 A1), (Lb e e1); [exact H4|]. intros d I. apply A1. now apply N.
  - intros (N & L & V). split; [split; [split|]|].
    + intros d I. now apply N. + intros d I. now apply N.
    + intros d I. rewrite andb_true_iff, !inclb_incl. split; intros x J; now apply L.
    + intros e I. apply val_eqb_eq. apply V. apply envs_spec in I; [|apply Wa]. apply I.
Qed.
Fixpoint same_itemsb (d d' : dict string da) : bool :=
  match d, d' with
  | [], [] => true
  | (n, a) :: d, (n', b) :: d' => String.eqb n n' && equivb a b && same_itemsb d d'
  | _, _ => false
  end.
Definition encode_only (D : dict string da) (d : dict string da) : result bytes := if same_itemsb D d then Ok [1] else Err ValueError.
Definition decode_only (D : dict string da) (b : bytes) : result (dict string da) := match b with [1] => Ok D | _ => Err ValueError end.
Lemma encoder_law D : (forall n a, In (n, a) D -> wf a) -> netcdf_law (encode_only D) (decode_only D) /\
  forall d, items_rel same_array D d -> encode_only D d = Ok [1].
Proof.
  intros WD. split.
  - intros d b Wd E. unfold encode_only in E. destruct (same_itemsb D d) eqn:S; [|discriminate]. injection E as <-. exists D. split; [reflexivity|].
    revert d Wd S. induction D as [|[n a] D IH]; intros [|[n' b] d] Wd S; try discriminate; [constructor|]. cbn in S. rewrite !andb_true_iff in S. destruct S as [[S1 S2] S3].
    assert (wf a) as Wa by (apply (WD n); now left). assert (wf b) as Wb by (apply (Wd n'); now left). constructor.
    + split; [now apply String.eqb_eq in S1|]. split; auto. split; auto. now apply equivb_equiv.
    + apply IH; auto; intros m c J; [apply (WD m)|apply (Wd m)]; now right.
  - intros d R. unfold encode_only. assert (same_itemsb D d = true) as ->; [|reflexivity]. clear WD. induction R as [|[n a] [n' b] D d [E S] HF IH]; [reflexivity|]. cbn in *. subst n'.
    rewrite String.eqb_refl, IH. destruct S as (Wa & Wb & S). rewrite (proj2 (equivb_equiv a b Wa Wb) S). reflexivity.
Qed.

From Verif Require Props_Beam.
Section Example.
  Import Props_Beam.
  Lemma ex_direct : exists a b, aggregate_statistics ex_agg (present ex_full) = Ok (Some (nest_tree [("s", [("t2m", a)])], nest_tree [("s", [("t2m", b)])])) /\
    wf a /\ wf b /\ dims a = [("lead_time", [LZ 0; LZ 24])] /\ dims b = [("lead_time", [LZ 0; LZ 24])].
  Proof.
    do 2 eexists. split; [reflexivity|]. split; [|split; [|split; reflexivity]].
    all: split; [repeat constructor; cbn; tauto|]; split; [intros d ls [[= <- <-]|[]]; repeat constructor; cbn; intuition discriminate|].
    all: intros e e' H; assert (e "lead_time" = e' "lead_time") as Hl by (apply H; cbn; auto).
    all: cbn -[Rplus Rmult IZR ex_values]; unfold ex_values; cbn -[Rplus Rmult IZR]; rewrite ?Hl; reflexivity.
  Qed.

  Definition ex_path : path := ("d", "out.nc").
  Definition ex_fs : filesystem := fun q => if eq_dec q ex_path then Some [9] else None.
  (** One write that returns. *)
  Lemma one_write tc metrics g out_path state_path to_netcdf ks k out s' b : sinks out_path state_path = Ok ks -> In k ks ->
    pipeline_states tc ex_loader ex_loader metrics g out -> In s' out -> run_sink to_netcdf metrics k s' = Ok [(ex_path, b)] ->
    exists calls fs ph, pipeline_writes to_netcdf tc ex_loader ex_loader metrics g out_path state_path calls /\
      fresh calls ex_fs /\ not_tmp calls ex_path /\ reachable calls ex_fs (fs, ph) /\ calls 0 = Some (mkCall ex_path b "u") /\ ph 0 = Returned.
  Proof.
    intros Es Ik HP I Ew. set (calls := fun i : nat => match i with 0 => Some (mkCall ex_path b "u") | _ => None end).
    assert (fresh calls ex_fs) as F.
    { split; intros; repeat match goal with H : calls ?i = Some _ |- _ => destruct i; simpl in H; [injection H as <-|discriminate] end; try reflexivity; try congruence; discriminate. }
    destruct (C16_can_complete calls _ _ (fun _ => Start) 0 _ F (r_init _ _) eq_refl eq_refl) as (fs & ph & Rc & E1 & _).
    exists calls, fs, ph. split; [|split; [exact F|split; [|split; [exact Rc|split; [reflexivity|exact E1]]]]].
    - intros i c Hi. destruct i; simpl in Hi; [|discriminate]. injection Hi as <-. exists ks, k, out, s', [(ex_path, b)]. cbn. auto 10.
    - intros i c Hi. destruct i; simpl in Hi; [|discriminate]. injection Hi as <-. discriminate.
  Qed.

  (** Three init times in chunks of at most two: all premises hold, the pipeline runs, and
      there are executions in which its metrics and state writes return. *)
  Example C69_example : exists tc s mv,
    chunked_evaluation [0; 6; 12]%Z [0; 24]%Z (Some 2%Z) (Some 1%Z) tc ex_loader ex_loader ex_metrics ex_agg ex_full s /\
    per_time tc ex_agg ex_full /\ each_statistic_kept ex_full s /\ (forall name m, In (name, m) ex_metrics -> extensional m) /\
    metric_tables ex_metrics s = Ok mv /\ clean mv /\ keys (values_dataset mv) = ["m.t2m"] /\ storable s /\
    (exists to_netcdf open_netcdf, netcdf_law to_netcdf open_netcdf /\
      exists calls fs ph c, pipeline_writes to_netcdf tc ex_loader ex_loader ex_metrics ex_agg (Some ex_path) None calls /\
        fresh calls ex_fs /\ not_tmp calls ex_path /\ reachable calls ex_fs (fs, ph) /\ calls 0 = Some c /\ target c = ex_path /\ ph 0 = Returned) /\
    (exists to_netcdf open_netcdf, netcdf_law to_netcdf open_netcdf /\
      exists calls fs ph c, pipeline_writes to_netcdf tc ex_loader ex_loader ex_metrics ex_agg None (Some ex_path) calls /\
        fresh calls ex_fs /\ not_tmp calls ex_path /\ reachable calls ex_fs (fs, ph) /\ calls 0 = Some c /\ target c = ex_path /\ ph 0 = Returned).
  Proof.
    destruct C08_example as (tc & s & CE & W & B). destruct ex_direct as (a & b & Ed & Wa & Wb & Da & Db).
    pose proof (ce_direct _ _ _ _ _ _ _ _ _ _ _ CE) as Es. rewrite Ed in Es. injection Es as <-.
    set (s := Some (nest_tree [("s", [("t2m", a)])], nest_tree [("s", [("t2m", b)])])) in *.
    assert (forall ty k v x, entry (part ty s) k v = Some x -> k = "s" /\ v = "t2m" /\ (x = a \/ x = b)) as EN.
    { intros ty k v x E. destruct ty; cbn [part s] in E; rewrite entry_nest in E; unfold look in E; cbn [dget] in E; (destruct (eq_dec k "s"); [|discriminate]); cbn [dget] in E; (destruct (eq_dec v "t2m"); [|discriminate]); injection E as <-; auto. }
    assert (per_time tc ex_agg ex_full) as PT by (split; [exact W|left; exact B]).
    assert (each_statistic_kept ex_full s) as EK by (intros k [<-|[]]; exists "t2m", b; reflexivity).
    assert (forall name m, In (name, m) ex_metrics -> extensional m) as HM by (intros name m [[= <- <-]|[]]; apply extensional_statistic).
    set (mv := [("m", [("t2m", binop vdiv a b)])] : dict string (vars da)).
    assert (metric_tables ex_metrics s = Ok mv) as Em by reflexivity.
    assert (clean mv) as Cl.
    { split.
      - repeat constructor; intros [].
      - intros n vs [[= <- <-]|[]]. repeat constructor; intros [].
      - intros n vs v x [[= <- <-]|[]] [[= <- <-]|[]]. now apply Proofs_Deterministic.wf_binop.
      - intros n vs v x n' vs' v' y [[= <- <-]|[]] [[= <- <-]|[]] [[= <- <-]|[]] [[= <- <-]|[]] d _ _ l. reflexivity.
      - intros n vs v x n' vs' v' y [[= <- <-]|[]] [[= <- <-]|[]] [[= <- <-]|[]] [[= <- <-]|[]] _. auto. }
    assert (storable s) as SO.
    { split.
      - intros ty k v x E. destruct (EN _ _ _ _ E) as (-> & -> & _). split; repeat split; try discriminate; cbn; intuition discriminate.
      - intros ty k v x ty' k' v' y E E'. destruct (EN _ _ _ _ E) as (_ & _ & Hx), (EN _ _ _ _ E') as (_ & _ & Hy). intros d _ _ l.
        assert (dims x = [("lead_time", [LZ 0; LZ 24])]) as -> by (destruct Hx as [->| ->]; assumption). assert (dims y = [("lead_time", [LZ 0; LZ 24])]) as -> by (destruct Hy as [->| ->]; assumption). reflexivity. }
    destruct (agrees_states _ _ _ _ _ _ _ _ _ _ _ CE PT) as [(out & HP) A]. destruct (A out HP) as (_ & A2 & _).
    destruct A2 as [s' ->]; [exists SumWeights, "s", "t2m", b; reflexivity|]. assert (In s' [s']) as I by (now left).
    exists tc, s, mv. do 8 (split; [first [assumption|reflexivity]|]). split.
    - destruct (state_metrics _ _ _ _ _ _ _ _ _ _ _ mv [s'] s' CE PT EK HM Em Cl HP I) as (d & Ed' & Sd & Wd & Nd).
      destruct (encoder_law d Wd) as [Law En]. exists (encode_only d), (decode_only d). split; [exact Law|].
      assert (run_sink (encode_only d) ex_metrics (MetricsSink ex_path) s' = Ok [(ex_path, [1])]) as Er.
      { cbn [run_sink]. unfold compute_metrics. rewrite Ed'. cbn [bind mapM]. unfold write_metrics. rewrite En; [reflexivity|]. clear - Wd. induction d as [|[n x] d IH]; constructor.
        - split; [reflexivity|]. apply same_array_refl. apply (Wd n). now left. - apply IH. intros m y J. apply (Wd m). now right. }
      destruct (one_write tc ex_metrics ex_agg (Some ex_path) None _ [MetricsSink ex_path] (MetricsSink ex_path) [s'] s' [1] eq_refl (or_introl eq_refl) HP I Er) as (calls & fs & ph & H1 & H2 & H3 & H4 & H5 & H6).
      exists calls, fs, ph, (mkCall ex_path [1] "u"). auto 10.
    - destruct (state_saved _ _ _ _ _ _ _ _ _ _ _ [s'] s' CE PT SO HP I) as (d & Ed' & Wd & _).
      destruct (encoder_law d Wd) as [Law En]. exists (encode_only d), (decode_only d). split; [exact Law|].
      assert (run_sink (encode_only d) ex_metrics (StateSink ex_path) s' = Ok [(ex_path, [1])]) as Er.
      { cbn [run_sink]. unfold write_aggregation_state. rewrite Ed'. cbn [bind]. rewrite En; [reflexivity|]. clear - Wd. induction d as [|[n x] d IH]; constructor.
        - split; [reflexivity|]. apply same_array_refl. apply (Wd n). now left. - apply IH. intros m y J. apply (Wd m). now right. }
      destruct (one_write tc ex_metrics ex_agg None (Some ex_path) _ [StateSink ex_path] (StateSink ex_path) [s'] s' [1] eq_refl (or_introl eq_refl) HP I Er) as (calls & fs & ph & H1 & H2 & H3 & H4 & H5 & H6).
      exists calls, fs, ph, (mkCall ex_path [1] "u"). auto 10.
  Qed.

  (** Averaging over init times and latitude: the statistic "s" has a latitude, "z" has not. *)
  Definition on_latitude (a : da) : da := mkDa (dims a ++ [("latitude", [LZ 0])]) (get a) [].
  Definition ex_stat_lat : statistic da := mkStat "s" (fun p t => Ok (map (fun va => (fst va, on_latitude (snd va))) p)).
  Definition ex_stat_z : statistic da := mkStat "z" (fun p t => Ok p).
  Definition ex_metrics2 : dict string (metric da) := [("m", metric_of_statistic ex_stat_lat); ("n", metric_of_statistic ex_stat_z)].
  Definition ex_agg2 : aggregator := mkAgg ["init_time"; "latitude"] [] [] false true.
  Definition ex_full2 : dict string (vars da) :=
    [("s", [("t2m", on_latitude (ex_load [0; 6; 12]%Z [0; 24]%Z))]); ("z", [("t2m", ex_load [0; 6; 12]%Z [0; 24]%Z)])].
  Lemma lat_wf I L : NoDup I -> NoDup L -> wf (on_latitude (ex_load I L)).
  Proof.
    intros HI HL. split; [|split].
    - repeat constructor; simpl; intuition discriminate.
    - intros d ls [[= <- <-]|[[= <- <-]|[[= <- <-]|[]]]]; [apply FinFun.Injective_map_NoDup; [intros x y [=]; auto|auto]..|]. repeat constructor; simpl; tauto.
    - intros e e' H. simpl. unfold ex_values. rewrite (H "init_time"), (H "lead_time"); simpl; auto.
  Qed.
  Lemma lat_slice I L I' L' : filter (fun l => memb l (map LZ I')) (map LZ I) = map LZ I' ->
    filter (fun l => memb l (map LZ L')) (map LZ L) = map LZ L' -> time_slice (map LZ I') (map LZ L') (on_latitude (ex_load I L)) (on_latitude (ex_load I' L')).
  Proof.
    intros H1 H2. split; [|split; reflexivity]. unfold on_latitude, ex_load, chunk_dims. cbn [dims map fst snd app].
    change (in_chunkb (map LZ I') (map LZ L') "init_time") with (fun l => memb l (map LZ I')).
    change (in_chunkb (map LZ I') (map LZ L') "lead_time") with (fun l => memb l (map LZ L')). now rewrite H1, H2.
  Qed.

  (** Direct evaluation has a metric for "s" and none for "z"; the pipeline ends with one state
      on which ComputeMetrics raises. *)
  Example C69_dropped_statistic_direct : exists tc s d,
    chunked_evaluation [0; 6; 12]%Z [0; 24]%Z (Some 2%Z) (Some 1%Z) tc ex_loader ex_loader ex_metrics2 ex_agg2 ex_full2 s /\
    per_time tc ex_agg2 ex_full2 /\ (forall ty v, entry (part ty s) "z" v = None) /\
    metric_values ex_metrics2 s = Ok d /\ keys d = ["m.t2m"] /\
    exists s' e, pipeline_states tc ex_loader ex_loader ex_metrics2 ex_agg2 [s'] /\ compute_metrics ex_metrics2 s' = Err e.
  Proof.
    destruct (make_time_chunks [0; 6; 12]%Z (LeadArr [0; 24]%Z) (Some 2%Z) (Some 1%Z)) as [tc|] eqn:Et; [|discriminate Et].
    assert (tc_iter tc = [([0; 6]%Z, ChunkArr [0]%Z); ([0; 6]%Z, ChunkArr [24]%Z); ([12]%Z, ChunkArr [0]%Z); ([12]%Z, ChunkArr [24]%Z)]) as Ei.
    { vm_compute in Et. injection Et as <-. reflexivity. }
    assert (exists a b, aggregate_statistics ex_agg2 (present ex_full2) = Ok (Some (nest_tree [("s", [("t2m", a)]); ("z", [])], nest_tree [("s", [("t2m", b)]); ("z", [])])) /\
      dims a = [("lead_time", [LZ 0; LZ 24])] /\ dims b = [("lead_time", [LZ 0; LZ 24])]) as (a & b & Ed & Da & Db).
    { do 2 eexists. split; [reflexivity|]. split; reflexivity. }
    set (s := Some (nest_tree [("s", [("t2m", a)]); ("z", [])], nest_tree [("s", [("t2m", b)]); ("z", [])])) in *.
    assert (forall ty k v x, entry (part ty s) k v = Some x -> k = "s" /\ (x = a \/ x = b)) as EN.
    { intros ty k v x E. destruct ty; cbn [part s] in E; rewrite entry_nest in E; unfold look in E; cbn [dget] in E; (destruct (eq_dec k "s"); [cbn [dget] in E; destruct (eq_dec v "t2m"); [injection E as <-; auto|discriminate]|]);
        (destruct (eq_dec k "z"); discriminate). }
    assert (chunked_evaluation [0; 6; 12]%Z [0; 24]%Z (Some 2%Z) (Some 1%Z) tc ex_loader ex_loader ex_metrics2 ex_agg2 ex_full2 s) as CE.
    { split; auto.
      - repeat constructor; simpl; intuition discriminate.
      - repeat constructor; simpl; intuition discriminate.
      - split; discriminate.
      - split; [repeat constructor; simpl; intuition discriminate|]. intros k vs [[= <- <-]|[[= <- <-]|[]]]; repeat constructor; simpl; tauto.
      - assert (forall x, labels_of (dims x) "init_time" = map LZ [0; 6; 12]%Z -> labels_of (dims x) "lead_time" = map LZ [0; 24]%Z -> times_are [0; 6; 12]%Z [0; 24]%Z x) as TA.
        { intros x E1 E2. split; intros l; rewrite ?E1, ?E2, in_map_iff; split; intros (t & A & C); eauto. }
        intros k v st H. unfold stat, ex_full2 in H. cbn [dget] in H. destruct (eq_dec k "s"); [|destruct (eq_dec k "z"); [|discriminate]]; cbn [dget] in H; (destruct (eq_dec v "t2m"); [|discriminate]); injection H as <-.
        + split; [apply lat_wf; repeat constructor; simpl; intuition discriminate|]. split; [intros m Hm; discriminate|]. apply TA; reflexivity.
        + split; [apply ex_wf; repeat constructor; simpl; intuition discriminate|]. split; [intros m Hm; discriminate|]. apply TA; reflexivity.
      - intros I L HI. rewrite Ei in HI. exists [("s", [("t2m", on_latitude (ex_load I L))]); ("z", [("t2m", ex_load I L)])]. split; [reflexivity|].
        constructor; [|constructor; [|constructor]]; (split; [reflexivity|]); (constructor; [|constructor]); (split; [reflexivity|]); cbn [snd];
        destruct HI as [[= <- <-]|[[= <- <-]|[[= <- <-]|[[= <- <-]|[]]]]]; (split; [(apply lat_wf || apply ex_wf); repeat constructor; simpl; intuition discriminate|(apply lat_slice || apply ex_slice); reflexivity]).
      - intros ty k v x d E Hd. destruct (EN _ _ _ _ E) as (_ & Hx). assert (dims x = [("lead_time", [LZ 0; LZ 24])]) as Dx by (destruct Hx as [->| ->]; assumption).
        unfold dnames in Hd. rewrite Dx in *. destruct Hd as [<-|[]]. discriminate. }
    assert (per_time tc ex_agg2 ex_full2) as PT by (split; [intros w []|left; intros w []]).
    assert (forall ty v, entry (part ty s) "z" v = None) as Hz by (intros [] v; reflexivity).
    exists tc, s. eexists. split; [exact CE|]. split; [exact PT|]. split; [exact Hz|]. split; [reflexivity|]. split; [reflexivity|].
    destruct (agrees_states _ _ _ _ _ _ _ _ _ _ _ CE PT) as [(out & HP) A]. destruct (A out HP) as (_ & A2 & _).
    destruct A2 as [s' ->]; [exists SumWeights, "s", "t2m", b; reflexivity|].
    destruct (C69_dropped_statistic_refuted _ _ _ _ _ _ _ _ _ _ _ CE PT "n" (metric_of_statistic ex_stat_z) "self" ex_stat_z [s'] s') as [e He]; [right; now left|now left|exact Hz|exact HP|now left|].
    eauto.
  Qed.
End Example.

Print Assumptions C69_metric_values.
Print Assumptions C69_metrics_file.
Print Assumptions C69_state_file.
Print Assumptions C69_dropped_statistic_refuted.
Print Assumptions C69_library_metrics.
