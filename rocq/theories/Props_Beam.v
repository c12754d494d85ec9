(** C07, C08, C09: the Beam combiner and pipeline. *)
From Coq Require Import String ZArith Bool List Permutation Lia.
Import ListNotations.
From Verif Require Import Prelude Values Model_XArray Spec_XArray Proofs_XArray Model_Tree
  Model_TimeChunks Model_MetricsBase Model_Aggregation Spec_Aggregator Proofs_Aggregator Proofs_Aggregator2
  Model_Beam Spec_Beam Proofs_Beam Proofs_Beam6 Proofs_Beam9 Proofs_Beam10.
From Coq Require Import Reals.
Local Open Scope string_scope.
Local Open Scope list_scope.

(** ** C07 *)

(** However a runner arranges create_accumulator, add_input and merge_accumulators calls, as
    long as the arrangement consumes exactly the elements [arrs] (each once, in any order):
    nothing in gives None out, otherwise the result is the combining_sum of the elements. *)
Theorem C07_schedule_independent s arrs :
  Permutation (inputs_of s) arrs -> (forall a, In a arrs -> wf a) -> (forall a b, In a arrs -> In b arrs -> same_dims a b) ->
  (arrs = [] -> extract_output (run_schedule s) = None) /\
  (arrs <> [] -> exists r, extract_output (run_schedule s) = Some r /\ wf r /\ da_equiv r (combining_sum arrs)).
Proof. exact (schedule_independent s arrs). Qed.

(** Hence two arrangements of the same elements agree. *)
Theorem C07_any_two_schedules s1 s2 arrs :
  Permutation (inputs_of s1) arrs -> Permutation (inputs_of s2) arrs ->
  (forall a, In a arrs -> wf a) -> (forall a b, In a arrs -> In b arrs -> same_dims a b) ->
  opt_rel da_equiv (extract_output (run_schedule s1)) (extract_output (run_schedule s2)).
Proof.
  intros P1 P2 W S. destruct (schedule_independent s1 arrs P1 W S) as [A1 A2]. destruct (schedule_independent s2 arrs P2 W S) as [B1 B2].
  destruct arrs as [|a l].
  - now rewrite A1, B1.
  - destruct A2 as (r1 & -> & W1 & E1); [discriminate|]. destruct B2 as (r2 & -> & W2 & E2); [discriminate|]. cbn [opt_rel].
    pose proof (wf_comb_sum _ W : wf (combining_sum (a :: l))) as WC.
    eapply da_equiv_trans; [exact W1|exact WC|exact E1|]. now apply da_equiv_sym.
Qed.

Definition ex_arr (l : list Z) : da := mkDa [("x", map LZ l)] (fun _ => Fin 1) [].
Example C07_example_hypotheses :
  let s := MergeAccumulators [AddInput NewAccumulator (ex_arr [2; 3]%Z); NewAccumulator; AddInput (AddInput NewAccumulator (ex_arr [1]%Z)) (ex_arr [1; 2]%Z)] in
  let arrs := [ex_arr [1]; ex_arr [1; 2]; ex_arr [2; 3]]%Z in
  Permutation (inputs_of s) arrs /\ (forall a, In a arrs -> wf a) /\ (forall a b, In a arrs -> In b arrs -> same_dims a b).
Proof.
  cbv zeta. split; [|split].
  - simpl. eapply perm_trans; [apply perm_swap|]. apply perm_skip, perm_swap.
  - assert (forall l, NoDup l -> wf (ex_arr l)) as H.
    { intros l Hl. split; [repeat constructor; simpl; tauto|]. split; [|reflexivity]. intros d ls [[= <- <-]|[]]. apply FinFun.Injective_map_NoDup; auto. intros x y [=]. auto. }
    intros a [<-|[<-|[<-|[]]]]; apply H; repeat constructor; simpl; intros F; repeat destruct F as [F|F]; try discriminate; auto.
  - intros a b Ha Hb d. simpl in Ha, Hb. repeat destruct Ha as [<-|Ha]; repeat destruct Hb as [<-|Hb]; simpl; try tauto.
Qed.

(** ** C08 *)

(** Let the times be cut into chunks and let the statistics of each chunk be the chunk's part
    of the statistics of everything ([chunked_evaluation]).  If weights and bin masks look at
    each time separately, then the pipeline runs, and whatever a runner does, it ends with
    exactly one state whose entries equal those of direct aggregation (no state when direct
    aggregation has no entry).  Values are arbitrary: NaN and infinities included. *)
Theorem C08_pipeline_equals_direct init lead isz lsz tc pl tl metrics g full s :
  chunked_evaluation init lead isz lsz tc pl tl metrics g full s ->
  (forall w, In w (weigh_by g) -> time_local [] w) ->
  (forall b, In b (bin_by g) -> time_local [] (create_bin_mask b)) ->
  (exists out, pipeline_states tc pl tl metrics g out) /\
  forall out, pipeline_states tc pl tl metrics g out -> agrees out s.
Proof. exact (pipeline_time_local init lead isz lsz tc pl tl metrics g full s). Qed.

(** The same for bins whose labels depend on the chunk (such as bins by the values of a time
    coordinate that occur): labels missing in a chunk must have mask 0 there, every label
    must occur in some chunk, and counted values, weights and masks must be finite. *)
Theorem C08_pipeline_with_chunk_dependent_bins init lead isz lsz tc pl tl metrics g full s :
  chunked_evaluation init lead isz lsz tc pl tl metrics g full s ->
  (forall w, In w (weigh_by g) -> time_local [] w) ->
  (forall b, In b (bin_by g) -> ~ time_dim (bin_dim_name b) /\
     time_local [bin_dim_name b] (create_bin_mask b) /\ zero_where_missing (create_bin_mask b)) ->
  (forall k v st, stat full k v = Some st -> varying_bins (tc_iter tc) g st) ->
  (exists out, pipeline_states tc pl tl metrics g out) /\
  forall out, pipeline_states tc pl tl metrics g out -> agrees out s.
Proof. exact (pipeline_varying_bins init lead isz lsz tc pl tl metrics g full s). Qed.

(** ** C09 *)

(** The elements a chunk emits: two per variable that direct aggregation of the chunk keeps,
    keyed by statistic, variable, component and the chunk's offsets along the time
    dimensions still present. *)
Theorem C09_elements metrics g off pt E : process metrics g off pt = Ok E ->
  exists sc, compute_unique_statistics metrics (fst pt) (snd pt) = Ok sc /\
  (forall k vs v st, In (k, vs) sc -> In (v, st) vs -> exists r, aggregate_stat_var g st = Ok r) /\
  forall kk a, In (kk, a) E <-> exists vs st xy, In (k_statistic kk, vs) sc /\ In (k_variable kk, st) vs /\ aggregate_stat_var g st = Ok (Some xy) /\
    a = match k_type kk with SumWeightedStatistics => fst xy | SumWeights => snd xy end /\
    k_init kk = (if memb "init_time" (dnames (fst xy)) then Some (off_init off) else None) /\
    k_lead kk = (if memb "lead_time" (dnames (fst xy)) then Some (off_lead off) else None).
Proof. exact (process_elements metrics g off pt E). Qed.

(** The entry of a state for (component, statistic, variable) is made from exactly the
    elements emitted under that component, statistic and variable: elements with equal
    offsets are summed, the sums are concatenated; no such element, no entry. *)
Theorem C09_keys_separate tc pl tl metrics g out : pipeline_states tc pl tl metrics g out ->
  exists os elems, tc_iter_offsets tc = Ok os /\
    Forall2 (fun oc E => exists p t, tl (fst (snd oc)) (snd (snd oc)) None = Ok t /\ pl (fst (snd oc)) (snd (snd oc)) (Some t) = Ok p /\ process metrics g (fst oc) (p, t) = Ok E) os elems /\
    (concat elems = [] <-> out = []) /\
    forall s ty k v, In s out ->
      (entry (part ty s) k v = None <-> ~ exists i l a, In (mkKey ty k v i l, a) (concat elems)) /\
      forall a, entry (part ty s) k v = Some a -> exists sums,
        a = combine_data_arrays_by_coords (map snd sums) /\ NoDup (map fst sums) /\
        (forall kk, In kk (map fst sums) <-> exists i l x, kk = mkKey ty k v i l /\ In (kk, x) (concat elems)) /\
        (forall kk z, In (kk, z) sums -> exists sch, Permutation (inputs_of sch) (under kk (concat elems)) /\ run_schedule sch = Some z).
Proof. exact (keys_separate tc pl tl metrics g out). Qed.

(** ** A concrete evaluation: three init times in chunks of at most two, one missing value,
    averaged over init times. *)
Section Example.
  Definition ex_values (e : env) : val :=
    match e "init_time", e "lead_time" with LZ 6, LZ 0 => NaN | LZ t, LZ l => Fin (IZR (t + l)) | _, _ => NaN end.
  Definition ex_load (I L : list Z) : da := mkDa [("init_time", map LZ I); ("lead_time", map LZ L)] ex_values [].
  Definition ex_loader : loader := fun I lc _ => match lc with ChunkArr L => Ok [("t2m", ex_load I L)] | _ => Err ValueError end.
  Definition ex_stat : statistic da := mkStat "s" (fun p t => Ok p).
  Definition ex_metrics : dict string (metric da) := [("m", metric_of_statistic ex_stat)].
  Definition ex_agg : aggregator := mkAgg ["init_time"] [] [] false true.
  Definition ex_full : dict string (vars da) := [("s", [("t2m", ex_load [0; 6; 12]%Z [0; 24]%Z)])].

  Lemma ex_wf I L : NoDup I -> NoDup L -> wf (ex_load I L).
  Proof.
    intros HI HL. split; [|split].
    - repeat constructor; simpl; intuition discriminate.
    - intros d ls [[= <- <-]|[[= <- <-]|[]]]; (apply FinFun.Injective_map_NoDup; [intros x y [=]; auto|auto]).
    - intros e e' H. simpl. unfold ex_values. rewrite (H "init_time"), (H "lead_time"); simpl; auto.
  Qed.
  Lemma ex_slice I L I' L' : filter (fun l => memb l (map LZ I')) (map LZ I) = map LZ I' ->
    filter (fun l => memb l (map LZ L')) (map LZ L) = map LZ L' -> time_slice (map LZ I') (map LZ L') (ex_load I L) (ex_load I' L').
  Proof.
    intros H1 H2. split; [|split; reflexivity]. unfold ex_load, chunk_dims. cbn [dims map fst snd].
    change (in_chunkb (map LZ I') (map LZ L') "init_time") with (fun l => memb l (map LZ I')).
    change (in_chunkb (map LZ I') (map LZ L') "lead_time") with (fun l => memb l (map LZ L')). now rewrite H1, H2.
  Qed.

  Example C08_example : exists tc s, chunked_evaluation [0; 6; 12]%Z [0; 24]%Z (Some 2%Z) (Some 1%Z) tc ex_loader ex_loader ex_metrics ex_agg ex_full s /\
    (forall w, In w (weigh_by ex_agg) -> time_local [] w) /\ (forall b, In b (bin_by ex_agg) -> time_local [] (create_bin_mask b)).
  Proof.
    destruct (make_time_chunks [0; 6; 12]%Z (LeadArr [0; 24]%Z) (Some 2%Z) (Some 1%Z)) as [tc|] eqn:Et; [|discriminate Et].
    destruct (aggregate_statistics ex_agg (present ex_full)) as [s|] eqn:Es; [|discriminate Es].
    exists tc, s. split; [|split; intros ? []]. assert (tc_iter tc = [([0; 6]%Z, ChunkArr [0]%Z); ([0; 6]%Z, ChunkArr [24]%Z); ([12]%Z, ChunkArr [0]%Z); ([12]%Z, ChunkArr [24]%Z)]) as Ei.
    { vm_compute in Et. injection Et as <-. reflexivity. }
    split; auto.
    - repeat constructor; simpl; intuition discriminate.
    - repeat constructor; simpl; intuition discriminate.
    - split; discriminate.
    - split; [repeat constructor; simpl; tauto|]. intros k vs [[= <- <-]|[]]. repeat constructor. simpl. tauto.
    - intros k v st H. unfold stat, ex_full in H. cbn [dget] in H. destruct (eq_dec k "s"); [|discriminate]. cbn [dget] in H. destruct (eq_dec v "t2m"); [|discriminate].
      injection H as <-. split; [apply ex_wf; repeat constructor; simpl; intuition discriminate|]. split; [intros m Hm; discriminate|].
      split; intros l; change (labels_of (dims (ex_load [0; 6; 12]%Z [0; 24]%Z)) _) with (map LZ [0; 6; 12]%Z) || change (labels_of (dims (ex_load [0; 6; 12]%Z [0; 24]%Z)) _) with (map LZ [0; 24]%Z);
        rewrite in_map_iff; split; intros (t & A & C); eauto.
    - intros I L HI. rewrite Ei in HI. exists [("s", [("t2m", ex_load I L)])]. split; [reflexivity|].
      constructor; [|constructor]. split; [reflexivity|]. constructor; [|constructor]. split; [reflexivity|]. cbn [snd].
      destruct HI as [[= <- <-]|[[= <- <-]|[[= <- <-]|[[= <- <-]|[]]]]]; (split; [apply ex_wf; repeat constructor; simpl; intuition discriminate|apply ex_slice; reflexivity]).
    - intros ty k v a d H Hd. vm_compute in Es. injection Es as <-. 
      destruct ty; unfold part, entry in H; cbn [dget] in H; (destruct (eq_dec k "s"); [|discriminate]); cbn [dget] in H; (destruct (eq_dec v "t2m"); [|discriminate]); injection H as <-;
        simpl in Hd; destruct Hd as [<-|[]]; discriminate.
  Qed.
End Example.

Print Assumptions C07_schedule_independent.
Print Assumptions C08_pipeline_equals_direct.
Print Assumptions C08_pipeline_with_chunk_dependent_bins.
Print Assumptions C09_keys_separate.
