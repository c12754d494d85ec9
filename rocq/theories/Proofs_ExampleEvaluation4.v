(** The example evaluation: the pipeline evaluates the stored data. *)
From Coq Require Import String Ascii ZArith QArith Qreals Reals List Bool Lia Lra.
Import ListNotations.
From Verif Require Import Prelude Values Model_XArray Spec_XArray Proofs_XArray Model_Tree Model_MetricsBase Spec_Metrics Model_Calendar Model_TimeChunks Spec_TimeChunks Proofs_TimeChunks Props_TimeChunks Model_Deterministic Model_Aggregation Spec_Aggregator Proofs_Aggregator Proofs_Aggregator2
  Spec_Means Proofs_Means Proofs_Beam Model_Beam Spec_Beam Proofs_Beam6 Spec_RoundTrip Proofs_RoundTrip Spec_BeamWrite Proofs_BeamWrite Proofs_Deterministic
  Model_Loaders Spec_Loaders Proofs_Loaders Model_Prepare Model_Binning Spec_Binning Model_Weighting Spec_Weighting Proofs_Weighting Spec_EndToEnd Proofs_EndToEnd Proofs_EndToEnd2 Props_EndToEnd
  Proofs_Metrics Model_ExampleEvaluation Spec_ExampleEvaluation Proofs_ExampleEvaluation Proofs_ExampleEvaluation2 Proofs_ExampleEvaluation3.
From Coq Require Lqa.
Local Open Scope string_scope.
Local Open Scope list_scope.

(** The loader serves the prepared dataset. *)
Lemma stored_loader_prepared o src w d I lc ref : prepared_dataset o w = Ok d -> stored_loader o src w I lc ref = src d I (Some lc).
Proof.
  unfold prepared_dataset, stored_loader, loader_load_chunk. destruct (maybe_prepare_dataset o w (mkState None false)) as [s [u|e]]; [|discriminate].
  destruct (st_ds s) as [d'|]; [|discriminate]. intros [= ->]. cbn [snd r_inits r_leads r_reference]. unfold load_chunk, example_cfg. cbn. destruct (src d I (Some lc)); reflexivity.
Qed.

Lemma NoDup_both {A} (a b : list A) : NoDup (a ++ b) -> NoDup a /\ NoDup b.
Proof.
  induction a as [|x a IH]; cbn; intros H; [split; [constructor|exact H]|]. inversion H as [|? ? H1 H2]; subst. destruct (IH H2) as [I1 I2]. split; [|exact I2]. constructor; auto. intros C. apply H1, in_or_app. now left.
Qed.

Section MAIN.
  Variables (inits leads : list Z) (over : list string) (pd td : vars da) (lats : list R).
  Hypothesis Ni : NoDup inits.
  Hypothesis Nl : NoDup leads.
  Hypothesis Ne : inits <> [] /\ leads <> [].
  Hypothesis Ks : keys pd = keys td.
  Hypothesis Nk : NoDup (keys pd).
  Hypothesis Np : pd <> [].
  Hypothesis EV : evaluable inits leads pd td lats.
  Hypothesis Over : forall v P, dget pd v = Some P -> incl over (dnames P).
  Let g := example_aggregator over.

  Lemma td_of v P : dget pd v = Some P -> dget td v = Some (target_of td v).
  Proof. intros E. unfold target_of. assert (In v (keys td)) as I by (rewrite <- Ks; eapply dget_Some_keys, E). apply keys_dget in I. destruct I as [T ->]. reflexivity. Qed.
  Lemma td_ne : td <> [].
  Proof. intros ->. destruct pd as [|kv l]; [congruence|]. discriminate Ks. Qed.
  Lemma var_matched v P T : dget pd v = Some P -> dget td v = Some T -> matched P T.
  Proof.
    intros E E'. destruct (ev_pd _ _ _ _ _ EV v P E) as (A1 & A2 & A3 & A4 & A5 & A6 & A7). destruct (ev_td _ _ _ _ _ EV v _ E') as (B1 & B2 & B3 & B4 & B5 & B6).
    constructor; auto. { repeat split; auto; apply A3; cbn; auto. } intros d. apply (ev_grid _ _ _ _ _ EV v P _ d E E').
  Qed.
  Lemma eval_label_cut P d : In d (dnames P) -> wf P -> labels_of (dims (forecast_at inits leads P)) d = eval_labels inits leads P d.
  Proof.
    intros I W. unfold labels_of, eval_labels. rewrite forecast_dims, dget_cut. unfold labels_of. apply keys_dget in I. destruct I as [x ->]. reflexivity.
  Qed.
  Lemma point_eval v P T q : dget pd v = Some P -> dget td v = Some T ->
    (point_of (dims (target_at inits leads T)) q <-> forall d, In d (dnames P) -> In (q d) (eval_labels inits leads P d)).
  Proof.
    intros E E'. pose proof (var_matched v P T E E') as M. pose proof (matched_box inits leads P T M) as B.
    destruct (ev_td _ _ _ _ _ EV v _ E') as (B1 & _ & _ & _ & _ & B6).
    assert (wf (target_at inits leads T)) as WT by (apply target_wf; auto). assert (wf (forecast_at inits leads P)) as WF by (apply forecast_wf; auto; apply M).
    rewrite point_of_labels by apply WT. split; intros H d I.
    - rewrite <- eval_label_cut by (auto; apply M). unfold labels_of. rewrite (B d). apply H. apply (same_box_names _ _ d B). rewrite forecast_names. exact I.
    - apply (same_box_names _ _ d B) in I. rewrite forecast_names in I. unfold labels_of. rewrite <- (B d). fold (labels_of (dims (forecast_at inits leads P)) d). rewrite eval_label_cut by (auto; apply M). apply H, I.
  Qed.
  Lemma target_get T q : wf T -> get (target_at inits leads T) q = get T (upd q "valid_time" (LZ (valid_time q))).
  Proof. intros W. cbn [target_at get]. apply W. intros d _. unfold upd, vt_index. cbn [dget]. destruct (eq_dec d "valid_time") as [->|N]; destruct (string_dec _ _); congruence || reflexivity. Qed.
  Lemma target_truth v P T q : dget pd v = Some P -> dget td v = Some T -> point_of (dims (target_at inits leads T)) q -> get (target_at inits leads T) q = truth T q.
  Proof.
    intros E E' Pq. rewrite target_get by apply (ev_td _ _ _ _ _ EV v _ E'). unfold truth. f_equal. f_equal. f_equal. pose proof (proj1 (point_eval v P T q E E') Pq) as Pq'. destruct (ev_pd _ _ _ _ _ EV v P E) as (_ & _ & A3 & _).
    pose proof (Pq' "init_time" ltac:(apply A3; cbn; auto)) as I1. pose proof (Pq' "lead_time" ltac:(apply A3; cbn; auto)) as I2. cbn in I1, I2. apply in_map_iff in I1, I2. destruct I1 as (t & E1 & _), I2 as (l & E2 & _).
    unfold valid_time, verification_time. rewrite <- E1, <- E2. reflexivity.
  Qed.

  (** ** The hypotheses of C72 *)
  Lemma data_gridded v P T : dget pd v = Some P -> dget td v = Some T -> gridded (forecast_at inits leads P) (target_at inits leads T) lats.
  Proof.
    intros E E'. pose proof (var_matched v P T E E') as M. pose proof (matched_box inits leads P T M) as B.
    destruct (ev_pd _ _ _ _ _ EV v P E) as (A1 & A2 & A3 & A4 & A5 & A6 & A7). destruct (ev_td _ _ _ _ _ EV v _ E') as (B1 & B2 & B3 & B4 & B5 & B6).
    assert (wf (target_at inits leads T)) as WT by (apply target_wf; auto). assert (wf (forecast_at inits leads P)) as WF by (apply forecast_wf; auto).
    assert (aux (target_at inits leads T) = [("valid_time", mkCoord ["init_time"; "lead_time"] (fun e => LZ (valid_time e)))]) as AT by (unfold target_at; cbn [aux]; rewrite B2; reflexivity).
    assert (forall d, In d (dnames P) -> dget (dims (target_at inits leads T)) d = Some (eval_labels inits leads P d)) as TL.
    { intros d I. rewrite <- (B d), forecast_dims, dget_cut. unfold eval_labels, labels_of. apply keys_dget in I. destruct I as [x ->]. reflexivity. }
    constructor; auto.
    - split; intros k c Gk; [rewrite forecast_aux, A2 in Gk; discriminate|]. rewrite AT in Gk. cbn [dget] in Gk. destruct (eq_dec k "valid_time"); [|discriminate]. injection Gk as <-. split.
      + intros d Id. apply (target_names inits leads T d B4 B5). cbn in Id. intuition.
      + intros u u1 H. cbn [c_get]. f_equal. unfold valid_time. rewrite (H "init_time"), (H "lead_time"); cbn; auto.
    - rewrite forecast_aux, A2, AT. split; repeat constructor. intros [].
    - rewrite forecast_aux, A2. split; [intros []|]. intros c Gc. rewrite AT in Gc. discriminate.
    - destruct (ev_lat _ _ _ _ _ EV v P E) as (ls & D & F). exists ls. split; [|exact F]. apply dget_In. rewrite TL by (apply A3; cbn; auto). unfold eval_labels, labels_of. cbn. rewrite D. reflexivity.
    - apply (ev_lats _ _ _ _ _ EV).
    - exists (labels_of (dims P) "longitude"). split; [apply dget_In; rewrite TL by (apply A3; cbn; auto); reflexivity|]. intros l Il. apply (ev_lon _ _ _ _ _ EV v P l E Il).
    - intros I. apply (same_box_names _ _ "region" B) in I. rewrite forecast_names in I. auto.
  Qed.
  Lemma data_numbers v P T : dget pd v = Some P -> dget td v = Some T -> numbers false false (forecast_at inits leads P) (target_at inits leads T) (fun q => real (get P q)) (fun q => real (truth T q)).
  Proof.
    intros E E' q Pq _ _. rewrite (target_truth v P T q E E' Pq), forecast_get. apply (ev_values _ _ _ _ _ EV v P T q E E'). exact (proj1 (point_eval v P T q E E') Pq).
  Qed.

  (** ** The statistics *)
  Let full : dict string (vars da) := [("SquaredError", all_errors inits leads pd td)].
  Lemma stat_full k v st : stat full k v = Some st -> k = "SquaredError" /\ exists P T, dget pd v = Some P /\ dget td v = Some T /\ st = errors_at inits leads P T.
  Proof.
    unfold stat, full. cbn [dget]. destruct (eq_dec k "SquaredError") as [->|]; [|discriminate]. unfold all_errors. rewrite (dget_map_both (fun k a => errors_at inits leads a (target_of td k))).
    intros H. split; [reflexivity|]. destruct (dget pd v) as [P|] eqn:E; [|discriminate]. injection H as <-. exists P, (target_of td v). split; [reflexivity|]. split; [eapply td_of, E|reflexivity].
  Qed.
  Lemma all_errors_keys I L : keys (all_errors I L pd td) = keys pd.
  Proof. unfold all_errors. apply (keys_map_val (fun kv => errors_at I L (snd kv) (target_of td (fst kv)))). Qed.
  Lemma error_facts v P T : dget pd v = Some P -> dget td v = Some T -> let st := errors_at inits leads P T in
    wf st /\ coords_local st /\ mask_spans st /\ dget (aux st) "mask" = None /\ (forall d, In d (dnames st) <-> In d (dnames P)) /\ (forall d, In d (dnames P) -> labels_of (dims st) d = eval_labels inits leads P d).
  Proof.
    intros E E' st. pose proof (var_matched v P T E E') as M. destruct (ev_td _ _ _ _ _ EV v _ E') as (B1 & B2 & B3 & B4 & B5 & B6). destruct (ev_pd _ _ _ _ _ EV v P E) as (A1 & A2 & A3 & _).
    assert (forall d, In d (dnames st) <-> In d (dnames P)) as N by (intros d; unfold st, dnames; rewrite errors_dims by auto; change (map fst (dims (forecast_at inits leads P))) with (dnames (forecast_at inits leads P)); rewrite forecast_names; reflexivity).
    assert (aux st = [("valid_time", mkCoord ["init_time"; "lead_time"] (fun e => LZ (valid_time e)))]) as AT by (apply errors_aux, M).
    split; [apply errors_wf; auto|]. split; [|split; [|split; [rewrite AT; reflexivity|split; [exact N|]]]].
    - intros k c Gk. rewrite AT in Gk. cbn [dget] in Gk. destruct (eq_dec k "valid_time"); [|discriminate]. injection Gk as <-. split.
      + intros d Id. apply N, A3. cbn in *. intuition.
      + intros u u1 H. cbn [c_get]. f_equal. unfold valid_time. rewrite (H "init_time"), (H "lead_time"); cbn; auto.
    - intros c Gc. rewrite AT in Gc. discriminate.
    - intros d I. unfold st. rewrite errors_dims by exact M. apply eval_label_cut; auto.
  Qed.
  Lemma error_grid v P T : dget pd v = Some P -> dget td v = Some T -> let st := errors_at inits leads P T in exists ls, In ("latitude", ls) (dims st) /\ Forall2 latitude ls lats /\
    In ("longitude", labels_of (dims P) "longitude") (dims st) /\ ~ In "region" (dnames st).
  Proof.
    intros E E' st. destruct (error_facts v P T E E') as (W & _ & _ & _ & N & Lb). fold st in W, N, Lb. destruct (ev_pd _ _ _ _ _ EV v P E) as (A1 & A2 & A3 & A4 & A5 & _).
    destruct (ev_lat _ _ _ _ _ EV v P E) as (ls & D & F). exists ls.
    assert (forall d, In d (dnames P) -> In (d, labels_of (dims st) d) (dims st)) as K.
    { intros d I. apply N in I. apply dget_In. unfold labels_of. apply keys_dget in I. destruct I as [x Ex]. unfold st in *. rewrite Ex. reflexivity. }
    split; [|split; [exact F|split]].
    - pose proof (K "latitude" ltac:(apply A3; cbn; auto)) as K1. rewrite Lb in K1 by (apply A3; cbn; auto). unfold eval_labels in K1. cbn in K1. unfold labels_of in K1. rewrite D in K1. exact K1.
    - pose proof (K "longitude" ltac:(apply A3; cbn; auto)) as K1. rewrite Lb in K1 by (apply A3; cbn; auto). exact K1.
    - intros I. apply N in I. auto.
  Qed.
  Lemma region_names_distinct : NoDup (region_names example_regions (@None da)).
  Proof. clear. repeat constructor; cbn; intuition discriminate. Qed.
  Lemma example_proper : proper_regions example_regions None.
  Proof. split; [exact region_names_distinct|]. intros lm [=]. Qed.
  Lemma error_mean v P T : dget pd v = Some P -> dget td v = Some T -> exists xy, aggregate_stat_var g (errors_at inits leads P T) = Ok (Some xy).
  Proof.
    intros E E'. destruct (error_facts v P T E E') as (W & Cl & Ms & _ & N & Lb). destruct (error_grid v P T E E') as (ls & D1 & F & D2 & NR).
    assert (exists m, mean_array (mkAgg over [Regions example_regions "region" None] [GridAreaWeighting "latitude" true] false false) (errors_at inits leads P T) m) as (m & x & y & H & _).
    { apply (region_defined example_regions None over true false false lats (errors_at inits leads P T) ls W); auto.
      - apply (in_map fst) in D2. exact D2.
      - split; apply (ev_lats _ _ _ _ _ EV).
      - exact region_names_distinct.
      - intros lm [=].
      - discriminate.
      - intros name la lo [[= <- <- <-]|[[= <- <- <-]|[]]]; reflexivity.
      - intros d I. apply N, (Over v P E), I. }
    exists (x, y). exact H.
  Qed.
  Lemma means_exist : exists L, Forall2 (fun kv kp => fst kp = fst kv /\ aggregate_stat_var g (snd kv) = Ok (Some (snd kp))) (all_errors inits leads pd td) L.
  Proof.
    assert (forall l, incl l (all_errors inits leads pd td) -> exists L : list (string * (da * da)), Forall2 (fun kv kp => fst kp = fst kv /\ aggregate_stat_var g (snd kv) = Ok (Some (snd kp))) l L) as X; [|apply X, incl_refl].
    induction l as [|[v st] l IH]; intros Hi; [exists []; constructor|]. destruct IH as [L HL]; [intros z Hz; apply Hi; now right|].
    pose proof (Hi _ (or_introl eq_refl)) as I. unfold all_errors in I. apply in_map_iff in I. destruct I as ([v0 P] & [= <- <-] & I). cbn [fst snd] in *. apply (In_dget _ _ _ Nk) in I.
    destruct (error_mean v0 P (target_of td v0) I (td_of v0 P I)) as [xy Exy]. exists ((v0, xy) :: L). constructor; auto.
  Qed.
  (** Each entry of the state and each mean lies over the regions and the dimensions kept. *)
  Lemma entry_shape v P T x y : dget pd v = Some P -> dget td v = Some T -> aggregate_stat_var g (errors_at inits leads P T) = Ok (Some (x, y)) ->
    wf x /\ wf y /\ dims x = dims y /\ (forall d, In d (dnames x) <-> ~ In d over /\ (d = "region" \/ In d (dnames P))) /\
    (forall d l, In d (dnames x) -> (In l (labels_of (dims x) d) <-> if eq_dec d "region" then In l [LS "global"; LS "northern-hemisphere"] else In l (eval_labels inits leads P d))).
  Proof.
    intros E E' H. destruct (error_facts v P T E E') as (W & Cl & Ms & _ & N & Lb). destruct (error_grid v P T E E') as (ls & D1 & F & D2 & NR).
    destruct (region_entry example_regions None over true false false lats (errors_at inits leads P T) ls (labels_of (dims P) "longitude") W Cl Ms D1 D2) with (x := x) (y := y) as (R1 & R2 & R3 & R4 & R5); auto.
    - intros l Il. apply (ev_lon _ _ _ _ _ EV v P l E Il).
    - apply (ev_lats _ _ _ _ _ EV).
    - exact region_names_distinct.
    - intros lm [=].
    - split; [exact R1|]. split; [exact R2|]. split; [exact R3|]. split.
      + intros d. rewrite R4, N. reflexivity.
      + intros d l I. rewrite (R5 d l I). destruct (eq_dec d "region"); [reflexivity|]. rewrite Lb; [reflexivity|]. apply R4 in I. destruct I as [_ [C|I]]; [congruence|]. apply N, I.
  Qed.

  (** ** The run *)
  Variables (isz lsz : option Z) (tc : time_chunks) (pl tl : loader).
  Hypothesis Chunks : make_time_chunks inits (LeadArr leads) isz lsz = Ok tc.
  Hypothesis Hpl : forall I Lc ref, pl I (ChunkArr Lc) ref = PredictionsFromXarray pd I (Some (ChunkArr Lc)).
  Hypothesis Htl : forall I Lc ref, tl I (ChunkArr Lc) ref = TargetsFromXarray td I (Some (ChunkArr Lc)).

  Lemma loads I L : NoDup I -> NoDup L -> incl I inits -> incl L leads ->
    PredictionsFromXarray pd I (Some (ChunkArr L)) = Ok (loaded_predictions I L pd) /\ TargetsFromXarray td I (Some (ChunkArr L)) = Ok (loaded_targets I L td).
  Proof.
    intros N1 N2 I1 I2. split.
    - apply load_predictions; auto. intros v P I0. apply (In_dget _ _ _ Nk) in I0. destruct (ev_pd _ _ _ _ _ EV v P I0) as (A1 & A2 & A3 & A4 & A5 & A6 & A7). split; [intros d Id; apply A3; cbn in *; tauto|].
      split; intros l Il; apply in_map_iff in Il; destruct Il as (t & <- & It); [apply A6|apply A7]; apply in_map; auto.
    - apply load_targets; auto using td_ne. intros v T I0. assert (NoDup (keys td)) as Nt by (rewrite <- Ks; exact Nk). apply (In_dget _ _ _ Nt) in I0. destruct (ev_td _ _ _ _ _ EV v T I0) as (B1 & B2 & B3 & B4 & B5 & B6). auto.
  Qed.
  Lemma statistics_of I L : NoDup I -> NoDup L -> incl I inits -> incl L leads ->
    compute_unique_statistics example_metrics (loaded_predictions I L pd) (loaded_targets I L td) = Ok [("SquaredError", all_errors I L pd td)].
  Proof. intros N1 N2 I1 I2. apply example_statistics, errors_computed; [exact Nk|]. intros k Ik. rewrite <- Ks. exact Ik. Qed.

  Lemma example_chunked : exists s, chunked_evaluation inits leads isz lsz tc pl tl example_metrics g full s /\ each_statistic_kept full s /\
    exists L, Forall2 (fun kv kp => fst kp = fst kv /\ aggregate_stat_var g (snd kv) = Ok (Some (snd kp))) (all_errors inits leads pd td) L /\ metric_tables example_metrics s = Ok (tables L).
  Proof.
    destruct means_exist as [L HL]. assert (NoDup (keys (all_errors inits leads pd td))) as Nr by (rewrite all_errors_keys; exact Nk).
    destruct (state_tables g (all_errors inits leads pd td) L Nr HL) as (s & [(Es & Et & Ek)|C]).
    2:{ exfalso. assert (keys pd = []) as E by (rewrite <- (all_errors_keys inits leads), C; reflexivity). destruct pd; [congruence|discriminate]. }
    assert (dicts full) as Df by (split; [repeat constructor; intros []|intros k vs [[= <- <-]|[]]; exact Nr]).
    exists s. split; [|split; [exact Ek|exists L; auto]]. split; auto.
    - intros k v st H. destruct (stat_full k v st H) as (_ & P & T & E & E' & ->). destruct (error_facts v P T E E') as (W & Cl & Ms & Nm & N & Lb).
      split; [exact W|]. split; [intros m C; congruence|]. destruct (ev_pd _ _ _ _ _ EV v P E) as (A1 & A2 & A3 & _).
      split; intros l; rewrite Lb by (apply A3; cbn; auto); unfold eval_labels; cbn; rewrite in_map_iff; split; intros (t & X & Y); eauto.
    - intros I Lc HI. destruct (C01_chunks_partition_pairs _ _ _ _ _ Chunks) as (ics & lcs & Ei & P1 & P2 & _). rewrite Ei in HI. apply in_prod_iff in HI. destruct HI as [HI HL0]. apply in_map_iff in HL0. destruct HL0 as (L1 & [= ->] & HL1).
      assert (forall (l p : list Z) ps z, pieces_of z l ps -> In p ps -> NoDup l -> NoDup p /\ incl p l) as Sub.
      { intros l p ps z H Hp N. assert (concat ps = l) as E by apply H. split; [|intros x Hx; rewrite <- E; apply in_concat; eauto].
        rewrite <- E in N. clear - Hp N. induction ps as [|q ps IH]; [destruct Hp|]. cbn [concat] in N. destruct (NoDup_both _ _ N) as [N1 N2]. destruct Hp as [->|Hp]; auto. }
      destruct (Sub _ _ _ _ P1 HI Ni) as [N1 S1]. destruct (Sub _ _ _ _ P2 HL1 Nl) as [N2 S2].
      exists [("SquaredError", all_errors I Lc pd td)]. split.
      + unfold chunk_stats. cbn [fst snd]. rewrite Htl. destruct (loads I Lc N1 N2 S1 S2) as [L3 L4]. rewrite L4. cbn [bind]. rewrite Hpl, L3. cbn [bind]. apply statistics_of; auto.
      + constructor; [|constructor]. split; [reflexivity|]. cbn [snd]. unfold all_errors. pose proof (piece_filter inits I ics _ Ni P1 HI) as F1. pose proof (piece_filter leads Lc lcs _ Nl P2 HL1) as F2.
        assert (forall l, incl l pd -> items_rel (fun a c => wf c /\ time_slice (map LZ I) (map LZ Lc) a c) (map (fun kv => (fst kv, errors_at inits leads (snd kv) (target_of td (fst kv)))) l) (map (fun kv => (fst kv, errors_at I Lc (snd kv) (target_of td (fst kv)))) l)) as X; [|apply X, incl_refl].
        induction l as [|[v P] l IH]; intros Hi; [constructor|]. constructor; [|apply IH; intros z Hz; apply Hi; now right]. split; [reflexivity|]. cbn [fst snd].
        assert (dget pd v = Some P) as E by (apply In_dget; [exact Nk|apply Hi; now left]). pose proof (td_of v P E) as E'. pose proof (var_matched v P _ E E') as M. split.
        * apply errors_wf; auto. intros i l0 Ii Il0. apply (ev_td _ _ _ _ _ EV v _ E'); auto.
        * apply errors_slice; auto.
    - intros ty k v a d H Id. pose proof (direct_entry g full s ty k v Df Es) as DE. destruct (stat full k v) as [st|] eqn:Sf; [|congruence]. destruct DE as (r & Er & Ee). rewrite H in Ee.
      destruct r as [[x y]|]; [|discriminate]. injection Ee as ->. destruct (stat_full k v st Sf) as (_ & P & T & E & E' & ->).
      destruct (entry_shape v P T x y E E' Er) as (W1 & W2 & D & N & Lb).
      assert (dims (sel ty (x, y)) = dims x) as Dx by (destruct ty; cbn; auto). unfold dnames in Id. rewrite Dx in *. specialize (Lb d). intros C. rewrite C in Lb.
      destruct (eq_dec d "region") as [->|Nrg]; [apply (Lb (LS "global") Id); cbn; auto|].
      apply N in Id as Id'. destruct Id' as [_ [C'|Id']]; [congruence|]. assert (eval_labels inits leads P d <> []) as Nel.
      { unfold eval_labels. destruct (eq_dec d "init_time"); [destruct inits; [tauto|discriminate]|]. destruct (eq_dec d "lead_time"); [destruct leads; [tauto|discriminate]|]. apply (ev_some _ _ _ _ _ EV v P d E Id'). }
      destruct (eval_labels inits leads P d) as [|l0 ls0]; [congruence|]. apply (Lb l0 Id). now left.
  Qed.

  Section CLEAN.
    Variable L : list (string * (da * da)).
    Hypothesis HL : Forall2 (fun kv kp => fst kp = fst kv /\ aggregate_stat_var g (snd kv) = Ok (Some (snd kp))) (all_errors inits leads pd td) L.
    Lemma mean_of v m : In (v, m) (meanof L) -> exists P T x y, dget pd v = Some P /\ dget td v = Some T /\ aggregate_stat_var g (errors_at inits leads P T) = Ok (Some (x, y)) /\ m = binop vdiv x y.
    Proof.
      intros I. unfold meanof in I. apply in_map_iff in I. destruct I as ([v0 [x y]] & [= <- <-] & I). cbn [fst snd].
      assert (exists st, In (v0, st) (all_errors inits leads pd td) /\ aggregate_stat_var g st = Ok (Some (x, y))) as (st & Ist & Ag).
      { clear - HL I. induction HL as [|[k st] [k' xy] r l [E1 E2] F IH]; [destruct I|]. cbn [fst snd] in *. destruct I as [[= -> ->]|I]; [subst; exists st; split; [now left|exact E2]|]. destruct (IH F I) as (st' & A & B). exists st'. split; [now right|exact B]. }
      unfold all_errors in Ist. apply in_map_iff in Ist. destruct Ist as ([v1 P] & [= <- <-] & Ist). cbn [fst snd] in *. apply (In_dget _ _ _ Nk) in Ist. exists P, (target_of td v1), x, y. split; [exact Ist|]. split; [eapply td_of, Ist|auto].
    Qed.
    Lemma mean_facts v m : In (v, m) (meanof L) -> exists P, dget pd v = Some P /\ wf m /\ (forall d, In d (dnames m) <-> ~ In d over /\ (d = "region" \/ In d (dnames P))) /\
      (forall d l, In d (dnames m) -> (In l (labels_of (dims m) d) <-> if eq_dec d "region" then In l [LS "global"; LS "northern-hemisphere"] else In l (eval_labels inits leads P d))).
    Proof.
      intros I. destruct (mean_of v m I) as (P & T & x & y & E & E' & Ag & ->). destruct (entry_shape v P T x y E E' Ag) as (W1 & W2 & D & N & Lb). exists P. split; [exact E|].
      assert (same_box x y) as B by (intros d; rewrite D; reflexivity). assert (wf (binop vdiv x y)) as W by (apply wf_binop; auto).
      pose proof (binop_box vdiv x y W1 W2 B) as BB.
      assert (forall d, In d (dnames (binop vdiv x y)) <-> In d (dnames x)) as Nb.
      { intros d. assert (same_box (binop vdiv x y) x) as B2 by (intros k; rewrite BB, D; reflexivity). apply (same_box_names _ _ d B2). }
      split; [exact W|]. split; [intros d; rewrite Nb; apply N|]. intros d l Id. apply Nb in Id. unfold labels_of at 1. rewrite BB, <- D. apply (Lb d l Id).
    Qed.
    Lemma meanof_keys : keys (meanof L) = keys pd.
    Proof. unfold meanof. rewrite (keys_map_val (fun vp => binop vdiv (fst (snd vp)) (snd (snd vp)))), (L_keys _ _ _ HL), all_errors_keys. reflexivity. Qed.
    Lemma tables_In n vs v a : In (n, vs) (tables L) -> In (v, a) vs -> (n = "rmse" \/ n = "mse") /\ exists m, In (v, m) (meanof L) /\ dims a = dims m /\ (wf m -> wf a).
    Proof.
      intros [[= <- <-]|[[= <- <-]|[]]] I.
      - split; [auto|]. apply in_map_iff in I. destruct I as ([v0 m] & [= <- <-] & I). exists m. split; [exact I|]. split; [reflexivity|apply wf_map].
      - split; [auto|]. exists a. auto.
    Qed.
    Lemma example_clean : clean (tables L).
    Proof.
      assert (NoDup (keys (meanof L))) as Nm by (rewrite meanof_keys; exact Nk). split.
      - repeat constructor; cbn; intuition discriminate.
      - intros n vs [[= <- <-]|[[= <- <-]|[]]]; [rewrite (keys_map_val (fun kv => da_map vsqrt (snd kv)))|]; exact Nm.
      - intros n vs v a I1 I2. destruct (tables_In n vs v a I1 I2) as (_ & m & Im & _ & W). destruct (mean_facts v m Im) as (P & _ & Wm & _). auto.
      - intros n vs v a n' vs' v' b I1 I2 I1' I2' d Ha Hb l. destruct (tables_In n vs v a I1 I2) as (_ & m & Im & Dm & _). destruct (tables_In n' vs' v' b I1' I2') as (_ & m' & Im' & Dm' & _).
        destruct (mean_facts v m Im) as (P & E & _ & N & Lb). destruct (mean_facts v' m' Im') as (P' & E2 & _ & N' & Lb'). unfold dnames in Ha, Hb. rewrite Dm, Dm' in *. rewrite (Lb d l Ha), (Lb' d l Hb).
        destruct (eq_dec d "region"); [reflexivity|]. apply N in Ha. apply N' in Hb. destruct Ha as [_ [C|Ha]]; [congruence|]. destruct Hb as [_ [C|Hb]]; [congruence|].
        unfold eval_labels. destruct (eq_dec d "init_time"); [reflexivity|]. destruct (eq_dec d "lead_time"); [reflexivity|]. apply (ev_shared _ _ _ _ _ EV v P v' P' E E2 d Ha Hb l).
      - intros n vs v a n' vs' v' b I1 I2 I1' I2' H. destruct (tables_In n vs v a I1 I2) as (Hn & _). destruct (tables_In n' vs' v' b I1' I2') as (Hn' & _).
        destruct Hn as [-> | ->], Hn' as [-> | ->]; cbn in H; try discriminate; injection H as ->; auto.
    Qed.
  End CLEAN.
End MAIN.
