(** C08 for aggregators made of the library's own weightings and binnings. *)
From Coq Require Import String ZArith QArith Qround Qcanon Bool List Lia.
Import ListNotations.
From Verif Require Import Prelude Values Model_XArray Spec_XArray Proofs_XArray Model_Deterministic Model_MetricsBase Model_Aggregation Spec_Aggregator Model_TimeChunks Model_Beam Spec_Beam
  Model_Calendar Model_Binning Spec_Binning Proofs_Binning3 Model_Weighting Spec_BeamComponents Proofs_Local Proofs_Local2 Proofs_Local3 Proofs_Local4 Props_Beam.
From Coq Require Import Reals.
Local Open Scope string_scope.
Local Open Scope list_scope.

Lemma library_weighting_local w : library_weighting w -> time_local [] w.
Proof. intros []. now apply grid_area_local. Qed.
Lemma fixed_bins_local b : fixed_bins b -> time_local [] (create_bin_mask b).
Proof.
  intros [].
  - now apply regions_local.
  - now apply regions_land_local.
  - now apply land_sea_local.
  - eapply latitude_bins_local; eauto.
  - eapply longitude_bins_local; eauto.
  - now apply coord_bins_local.
  - eapply sets_local; eauto.
  - now apply time_unit_sets_local.
  - now apply from_seconds_local.
Qed.
Lemma time_local_weaken b f : time_local [] f -> time_local b f.
Proof.
  intros H a x Wa Ha. destruct (H a x Wa Ha) as (Wx & A & B). split; auto. split; auto. intros I L c Wc S. destruct (B I L c Wc S) as (y & E & P). exists y. split; auto.
  destruct P. split; auto.
Qed.
Lemma time_local_zero f : time_local [] f -> zero_where_missing f.
Proof.
  intros H a x I L c y e Wa Wc Ha S Hc P T NP. exfalso. apply NP. destruct (H a x Wa Ha) as (Wx & A & B). destruct (B I L c Wc S) as (y' & E & Q).
  rewrite Hc in E. injection E as <-. intros d ls Id. assert (In d (dnames x)) as Ix by (apply (po_dims _ _ _ _ _ Q), (in_map fst _ _ Id)).
  assert (labels_of (dims y) d = ls) as Ly by (unfold labels_of; rewrite (@In_dget string (list label) _ (dims y) d ls); auto; apply (po_wf _ _ _ _ _ Q)).
  rewrite <- Ly. apply (po_all _ _ _ _ _ Q); [intros []| |].
  - apply keys_dget in Ix. destruct Ix as [lx Ex]. unfold labels_of. rewrite Ex. apply (P d lx), dget_In, Ex.
  - split; intros Ed; [apply T|apply T]; auto; unfold time_dim; auto.
Qed.
Lemma data_bins_local b : data_bins b -> ~ time_dim (bin_dim_name b) /\ time_local [bin_dim_name b] (create_bin_mask b) /\ zero_where_missing (create_bin_mask b).
Proof.
  intros [fmt name H|fmt delta unit dim g H Hf]; (split; [exact H|]).
  - apply exact_coord_local, H.
  - apply time_unit_local; auto.
Qed.

(** An evaluation whose aggregator uses the library's weightings and fixed bins: whatever the
    chunking and the order in which the runner combines, the pipeline's result is that of
    evaluating the whole data at once. *)
Theorem C08_library_components init lead isz lsz tc pl tl metrics g full s :
  chunked_evaluation init lead isz lsz tc pl tl metrics g full s ->
  (forall w, In w (weigh_by g) -> library_weighting w) -> (forall b, In b (bin_by g) -> fixed_bins b) ->
  (exists out, pipeline_states tc pl tl metrics g out) /\
  forall out, pipeline_states tc pl tl metrics g out -> agrees out s.
Proof.
  intros C W B. apply (C08_pipeline_equals_direct _ _ _ _ _ _ _ _ _ _ _ C).
  - intros w Hw. apply library_weighting_local, W, Hw.
  - intros b Hb. apply fixed_bins_local, B, Hb.
Qed.
(** The same when some bins are made of the values that occur in the data. *)
Theorem C08_library_data_bins init lead isz lsz tc pl tl metrics g full s :
  chunked_evaluation init lead isz lsz tc pl tl metrics g full s ->
  (forall w, In w (weigh_by g) -> library_weighting w) ->
  (forall b, In b (bin_by g) -> data_bins b \/ (fixed_bins b /\ ~ time_dim (bin_dim_name b))) ->
  (forall k v st, stat full k v = Some st -> varying_bins (tc_iter tc) g st) ->
  (exists out, pipeline_states tc pl tl metrics g out) /\
  forall out, pipeline_states tc pl tl metrics g out -> agrees out s.
Proof.
  intros C W B V. apply (C08_pipeline_with_chunk_dependent_bins _ _ _ _ _ _ _ _ _ _ _ C); auto.
  - intros w Hw. apply library_weighting_local, W, Hw.
  - intros b Hb. destruct (B b Hb) as [D|[D N]]; [apply data_bins_local, D|]. split; auto. apply fixed_bins_local in D. split; [apply time_local_weaken, D|apply time_local_zero, D].
Qed.

(** A concrete evaluation with two library components. *)
Definition ex_lib_agg : aggregator :=
  mkAgg ["init_time"] [ByTimeUnitSets false [("night", [LZ 0; LZ 1]); ("day", [LZ 12])] "hour" "init_time" None true] [GridAreaWeighting "latitude" true] false true.
Example C08_library_example : exists tc s, chunked_evaluation [0; 6; 12]%Z [0; 24]%Z (Some 2%Z) (Some 1%Z) tc ex_loader ex_loader ex_metrics ex_lib_agg ex_full s /\
  (forall w, In w (weigh_by ex_lib_agg) -> library_weighting w) /\ (forall b, In b (bin_by ex_lib_agg) -> fixed_bins b).
Proof.
  destruct (make_time_chunks [0; 6; 12]%Z (LeadArr [0; 24]%Z) (Some 2%Z) (Some 1%Z)) as [tc|] eqn:Et; [|discriminate Et].
  destruct (aggregate_statistics ex_lib_agg (present ex_full)) as [s|] eqn:Es; [|cbv -[vsum vprod vmul vadd b2v envs isin hour_of time_value ex_values project IZR upd isnan] in Es; discriminate Es].
  exists tc, s. split; [|split; [intros w [<-|[]]; constructor; intros [C|C]; discriminate|]].
  2:{ intros b [<-|[]]. constructor; [cbn; intros [C|C]; discriminate|]. repeat constructor; cbn; intuition discriminate. }
  assert (tc_iter tc = [([0; 6]%Z, ChunkArr [0]%Z); ([0; 6]%Z, ChunkArr [24]%Z); ([12]%Z, ChunkArr [0]%Z); ([12]%Z, ChunkArr [24]%Z)]) as Ei.
  { vm_compute in Et. injection Et as <-. reflexivity. }
  split; auto.
  - repeat constructor; simpl; intuition discriminate.
  - repeat constructor; simpl; intuition discriminate.
  - split; discriminate.
  - split; [repeat constructor; simpl; tauto|]. intros k vs [[= <- <-]|[]]. repeat constructor. simpl. tauto.
  - intros k v st H. unfold stat, ex_full in H. cbn [dget] in H. destruct (eq_dec k "s"); [|discriminate]. cbn [dget] in H. destruct (eq_dec v "t2m"); [|discriminate].
    injection H as <-. split; [apply ex_wf; repeat constructor; simpl; intuition discriminate|]. split; [intros m Hm; discriminate|].
    split; intros l; change (labels_of (dims (ex_load [0; 6; 12]%Z [0; 24]%Z)) _) with (map LZ [0; 6; 12]%Z) || change (labels_of (dims (ex_load [0; 6; 12]%Z [0; 24]%Z)) _) with (map LZ [0; 24]%Z);
      rewrite in_map_iff; split; intros (t & A & C); eauto.
  - intros I L HI. rewrite Ei in HI. exists [("s", [("t2m", ex_load I L)])]. split; [reflexivity|].
    constructor; [|constructor]. split; [reflexivity|]. constructor; [|constructor]. split; [reflexivity|]. cbn [snd].
    destruct HI as [[= <- <-]|[[= <- <-]|[[= <- <-]|[[= <- <-]|[]]]]]; (split; [apply ex_wf; repeat constructor; simpl; intuition discriminate|apply ex_slice; reflexivity]).
  - intros ty k v a d H Hd. cbv -[vsum vprod vmul vadd b2v envs isin hour_of time_value ex_values project IZR upd isnan] in Es. injection Es as <-.
    destruct ty; unfold part, entry in H; cbn [dget] in H; (destruct (eq_dec k "s"); [|discriminate]); cbn [dget] in H; (destruct (eq_dec v "t2m"); [|discriminate]); injection H as <-;
      cbn in Hd; repeat destruct Hd as [<-|Hd]; try contradiction; discriminate.
Qed.

Print Assumptions C08_library_components.
Print Assumptions C08_library_data_bins.
