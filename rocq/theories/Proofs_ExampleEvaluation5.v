(** The example evaluation: from the regions of the model to those of the specification, and the file. *)
From Coq Require Import String Ascii ZArith QArith Qreals Reals List Bool Lia Lra.
Import ListNotations.
From Verif Require Import Prelude Values Model_XArray Spec_XArray Proofs_XArray Model_Tree Model_MetricsBase Spec_Metrics Model_Calendar Model_TimeChunks Spec_TimeChunks Model_Deterministic Model_Aggregation
  Model_Beam Spec_Beam Spec_RoundTrip Model_BeamWrite Spec_BeamWrite Proofs_BeamWrite Proofs_BeamWrite7 Proofs_Deterministic Model_AtomicWrite Props_AtomicWrite Props_BeamWrite
  Model_Loaders Model_Binning Spec_Binning Model_Weighting Spec_Weighting Spec_EndToEnd Proofs_EndToEnd Proofs_EndToEnd2 Props_EndToEnd
  Proofs_Metrics Model_ExampleEvaluation Spec_ExampleEvaluation Proofs_ExampleEvaluation Proofs_ExampleEvaluation2 Proofs_ExampleEvaluation3 Proofs_ExampleEvaluation4.
From Coq Require Lqa.
Local Open Scope string_scope.
Local Open Scope list_scope.

(** The regions. *)
Lemma example_region_iff label q lat lon : is_number (q "latitude") lat -> is_number (q "longitude") lon -> (-90 <= lat <= 90)%Q ->
  (in_region example_regions None label q <-> in_example_region label q).
Proof.
  intros N1 N2 R. split.
  - intros H. inversion H as [name la lo q' lat' lon' I M1 M2 H1 H2|]; subst; [|discriminate]. destruct I as [[= <- <- <-]|[[= <- <- <-]|[]]]; [left; reflexivity|right].
    split; [reflexivity|]. exists lat'. split; [exact M1|]. cbn [fst snd] in H1. apply H1.
  - intros [->|(-> & lat' & M1 & H)].
    + eapply (in_limits _ _ _ (-90, 90)%Q (0, 360)%Q); eauto; [now left|apply on_globe].
    + pose proof (is_number_fun _ _ _ N1 M1) as <-. eapply (in_limits _ _ _ (20, 90)%Q (0, 360)%Q); eauto; [right; now left|cbn [fst snd]; Lqa.lra|apply on_globe].
Qed.
Lemma degrees_Q lat x : x = Q2R lat -> (-90 <= x <= 90)%R -> (-90 <= lat <= 90)%Q.
Proof.
  intros -> [A B]. assert (Q2R (-90) = (-90)%R) as E1 by (unfold Q2R; cbn; lra). assert (Q2R 90 = 90%R) as E2 by (unfold Q2R; cbn; lra).
  split; apply Rle_Qle; lra.
Qed.
Lemma Forall2_In_l {A B} (R : A -> B -> Prop) l m x : Forall2 R l m -> In x l -> exists y, In y m /\ R x y.
Proof. induction 1 as [|a b l m H F IH]; intros I; [destruct I|]. destruct I as [->|I]; [exists b; split; [now left|exact H]|]. destruct (IH I) as (y & J & K). exists y. split; [now right|exact K]. Qed.

Section MAIN.
  Variables (inits leads : list Z) (over : list string) (pd td : vars da) (lats : list R).
  Hypothesis Ni : NoDup inits.
  Hypothesis Nl : NoDup leads.
  Hypothesis Ne : inits <> [] /\ leads <> [].
  Hypothesis Ks : keys pd = keys td.
  Hypothesis Nk : NoDup (keys pd).
  Hypothesis Np : pd <> [].
  Hypothesis EV : evaluable inits leads pd td lats.
  Hypothesis Over : forall v P, dget pd v = Some P -> incl over (dnames P).
  Let g := example_aggregator over.

  Section VAR.
    Variables (v : string) (P T : da).
    Hypothesis EP : dget pd v = Some P.
    Hypothesis ET : dget td v = Some T.
    Lemma target_labels d : In d (dnames P) -> labels_of (dims (target_at inits leads T)) d = eval_labels inits leads P d.
    Proof.
      intros I. pose proof (var_matched _ _ _ _ _ EV v P T EP ET) as M. unfold labels_of at 1. rewrite <- (matched_box inits leads P T M d).
      apply (eval_label_cut inits leads P d I). apply M.
    Qed.
    Lemma target_dims_iff d : In d (dnames (target_at inits leads T)) <-> In d (dnames P).
    Proof. pose proof (var_matched _ _ _ _ _ EV v P T EP ET) as M. rewrite <- (same_box_names _ _ d (matched_box inits leads P T M)), forecast_names. reflexivity. Qed.
    Lemma result_point_iff label e : result_point example_regions None over (target_at inits leads T) label e <-> example_point inits leads over P label e.
    Proof.
      unfold result_point, example_point. assert (In label (region_names example_regions (@None da)) <-> label = "global" \/ label = "northern-hemisphere") as ->.
      { cbn. split; intros [H|[H|H]] || intros [H|H]; try tauto; subst; auto. }
      split.
      - intros (A & B & C). split; [exact B|]. split; [exact A|]. intros d I J. rewrite <- target_labels by exact I. apply C; [apply target_dims_iff, I|exact J].
      - intros (B & A & C). split; [exact A|]. split; [exact B|]. intros d I J. apply target_dims_iff in I. rewrite target_labels by exact I. apply C; auto.
    Qed.
    Lemma lat_number q : In (q "latitude") (eval_labels inits leads P "latitude") -> exists lat, is_number (q "latitude") lat /\ (-90 <= lat <= 90)%Q.
    Proof.
      intros I. destruct (ev_lat _ _ _ _ _ EV v P EP) as (ls & D & F). unfold eval_labels, labels_of in I. cbn in I. rewrite D in I.
      destruct (Forall2_In_l _ _ _ _ F I) as (x & Ix & lat & N & Ex). exists lat. split; [exact N|]. apply (degrees_Q lat x Ex). apply (ev_lats _ _ _ _ _ EV), Ix.
    Qed.
    Lemma lon_number q : In (q "longitude") (eval_labels inits leads P "longitude") -> exists lon, is_number (q "longitude") lon.
    Proof. intros I. apply (ev_lon _ _ _ _ _ EV v P _ EP). exact I. Qed.
    Lemma sample_iff label e Q : example_point inits leads over P label e ->
      (pair_sample example_regions None false false over (forecast_at inits leads P) (target_at inits leads T) label e Q <-> example_sample inits leads over P label e Q).
    Proof.
      intros (_ & _ & Pt). destruct (ev_pd _ _ _ _ _ EV v P EP) as (_ & _ & A3 & _).
      assert (forall q, (forall d, ~ In d over -> q d = e d) -> (forall d, In d over -> In (q d) (eval_labels inits leads P d)) -> (in_region example_regions None label q <-> in_example_region label q)) as RI.
      { intros q H1 H2. assert (forall d, In d (dnames P) -> In (q d) (eval_labels inits leads P d)) as H3.
        { intros d I. destruct (in_dec string_dec d over) as [J|J]; [apply H2, J|]. rewrite H1 by exact J. apply Pt; auto. }
        destruct (lat_number q) as (lat & N1 & R); [apply H3, A3; cbn; auto|]. destruct (lon_number q) as (lon & N2); [apply H3, A3; cbn; auto|]. apply (example_region_iff label q lat lon); auto. }
      unfold pair_sample, example_sample. split; intros [N H]; (split; [exact N|]); intros q; rewrite H; clear H; split.
      - intros (H1 & H2 & _ & _ & H3). assert (forall d, In d over -> In (q d) (eval_labels inits leads P d)) as H2' by (intros d I; rewrite <- target_labels by (apply (Over v P EP), I); auto).
        split; [exact H1|]. split; [exact H2'|]. apply RI; auto.
      - intros (H1 & H2 & H3). split; [exact H1|]. split; [intros d I; rewrite target_labels by (apply (Over v P EP), I); auto|]. split; [discriminate|]. split; [discriminate|]. apply RI; auto.
      - intros (H1 & H2 & H3). split; [exact H1|]. split; [intros d I; rewrite target_labels by (apply (Over v P EP), I); auto|]. split; [discriminate|]. split; [discriminate|]. apply RI; auto.
      - intros (H1 & H2 & _ & _ & H3). assert (forall d, In d over -> In (q d) (eval_labels inits leads P d)) as H2' by (intros d I; rewrite <- target_labels by (apply (Over v P EP), I); auto).
        split; [exact H1|]. split; [exact H2'|]. apply RI; auto.
    Qed.
  End VAR.

  (** ** The file *)
  Variables (isz lsz : option Z) (tc : time_chunks) (pl tl : loader).
  Hypothesis Chunks : make_time_chunks inits (LeadArr leads) isz lsz = Ok tc.
  Hypothesis Hpl : forall I Lc ref, pl I (ChunkArr Lc) ref = PredictionsFromXarray pd I (Some (ChunkArr Lc)).
  Hypothesis Htl : forall I Lc ref, tl I (ChunkArr Lc) ref = TargetsFromXarray td I (Some (ChunkArr Lc)).
  Variables (to_netcdf : dict string da -> result (list nat)) (open_netcdf : list nat -> result (dict string da)).
  Hypothesis Law : netcdf_law to_netcdf open_netcdf.
  Variables (calls : nat -> option Model_AtomicWrite.call) (fs0 fs : filesystem) (ph : nat -> phase).
  Hypothesis Fresh : fresh calls fs0.
  Hypothesis Reach : reachable calls fs0 (fs, ph).

  (** The two metrics are scores of C72. *)
  Lemma scores_in name post : In (name, post) example_scores -> exists m, In (name, m) example_metrics /\ score m (fun d => d * d)%R post.
  Proof. intros [[= <- <-]|[[= <- <-]|[]]]; eexists; (split; [|constructor]); cbn; auto. Qed.
  Lemma tables_has L name post : In (name, post) example_scores -> exists vs, In (name, vs) (tables L) /\ keys vs = keys (meanof L).
  Proof. intros [[= <- <-]|[[= <- <-]|[]]]; eexists; (split; [cbn; eauto|]); [apply (keys_map_val (fun kv => da_map vsqrt (snd kv)))|reflexivity]. Qed.

  Lemma file_result path state_path : pipeline_writes to_netcdf tc pl tl example_metrics g (Some path) state_path calls -> state_path <> Some path -> not_tmp calls path ->
    (fs path = fs0 path /\ forall i c, calls i = Some c -> target c = path -> ph i <> Returned) \/
    exists b d, fs path = Some b /\ open_netcdf b = Ok d /\
      forall name post v P T, In (name, post) example_scores -> dget pd v = Some P -> dget td v = Some T ->
        exists a, dget d (name ++ "." ++ v)%string = Some a /\
          forall label e, example_point inits leads over P label e ->
            (exists Q, example_sample inits leads over P label e Q) /\
            forall Q, example_sample inits leads over P label e Q ->
              (exists area, cell_areas lats Q area) /\
              forall area, cell_areas lats Q area -> get a e = post (area_mean Q area (squared_error_at P T)).
  Proof.
    intros PW Ns NT.
    destruct (example_chunked inits leads over pd td lats Ni Nl Ne Ks Nk Np EV Over isz lsz tc pl tl Chunks Hpl Htl) as (s & CE & Kept & L & HL & Tables).
    pose proof (errors_computed inits leads pd td Nk ltac:(intros k Ik; rewrite <- Ks; exact Ik)) as EC.
    destruct (C72_file example_regions None over true false false example_proper inits leads isz lsz tc pl tl example_metrics
      (loaded_predictions inits leads pd) (loaded_targets inits leads td) [("SquaredError", all_errors inits leads pd td)] s (tables L)) with
      (to_netcdf := to_netcdf) (open_netcdf := open_netcdf) (calls := calls) (fs0 := fs0) (fs := fs) (ph := ph) (path := path) (state_path := state_path) as [Old|(b & d & Eb & Ed & K)]; auto.
    - apply example_statistics, EC.
    - intros st x I Ex. assert (st = SquaredError) as -> by (cbn in I; intuition). rewrite EC in Ex. injection Ex as <-. rewrite all_errors_keys. exact Nk.
    - intros st st' I I' _. assert (st = SquaredError) as -> by (cbn in I; intuition). assert (st' = SquaredError) as -> by (cbn in I'; intuition). reflexivity.
    - unfold loaded_predictions. rewrite keys_map_val. exact Nk.
    - intros name m [[= <- <-]|[[= <- <-]|[]]]; [apply ext_RMSE|apply extensional_statistic].
    - apply (example_clean inits leads over pd td lats); auto.
    - right. exists b, d. split; [exact Eb|]. split; [exact Ed|]. intros name post v P T Is EP ET.
      destruct (scores_in name post Is) as (m & Im & Sm). destruct (tables_has L name post Is) as (vs & Iv & Kv).
      destruct (K name m (fun d => d * d)%R post v (forecast_at inits leads P) (target_at inits leads T) lats (fun q => real (get P q)) (fun q => real (truth T q)) vs Im Sm) as (a & Ga & Va); auto.
      + unfold loaded_predictions. rewrite dget_map_snd. unfold vars in EP. rewrite EP. reflexivity.
      + unfold loaded_targets. rewrite dget_map_snd. unfold vars in ET. rewrite ET. reflexivity.
      + rewrite Kv, (meanof_keys inits leads over pd td L HL). eapply dget_Some_keys, EP.
      + apply (data_gridded inits leads pd td lats) with (v := v); auto.
      + apply (data_numbers inits leads pd td lats) with (v := v); auto.
      + exists a. split; [exact Ga|]. intros label e Pt. destruct (Va label e) as [[Q0 HQ0] HV]; [apply (result_point_iff v P T EP ET), Pt|]. split.
        * exists Q0. apply (sample_iff v P T EP ET label e Q0 Pt), HQ0.
        * intros Q HQ. apply HV. apply (sample_iff v P T EP ET label e Q Pt), HQ.
  Qed.
End MAIN.
