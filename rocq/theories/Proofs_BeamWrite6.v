(** What the pipeline's writes contain (C69). *)
From Coq Require Import String Ascii List Bool Arith Lia ZArith.
Import ListNotations.
From Verif Require Import Prelude Values Model_XArray Spec_XArray Proofs_XArray Model_Tree Spec_Tree
  Model_MetricsBase Model_Aggregation Spec_Aggregation Spec_Aggregator Proofs_Aggregator2 Spec_RoundTrip Proofs_RoundTrip Proofs_MetricValues
  Model_TimeChunks Model_Beam Spec_Beam Proofs_Beam5 Proofs_Beam6 Proofs_Beam9 Proofs_Beam10 Spec_BeamWrite Proofs_BeamWrite Proofs_BeamWrite2 Proofs_BeamWrite3 Proofs_BeamWrite4 Proofs_BeamWrite5
  Model_BeamWrite.
Local Open Scope string_scope.
Local Open Scope list_scope.

Lemma opt_same_sym (a b : option da) : opt_rel same_array a b -> opt_rel same_array b a.
Proof. destruct a, b; cbn; auto. apply same_array_sym. Qed.
Lemma opt_same_trans (a b c : option da) : opt_rel same_array a b -> opt_rel same_array b c -> opt_rel same_array a c.
Proof. destruct a, b, c; cbn; try tauto. apply same_array_trans. Qed.
Lemma agrees_states init lead isz lsz tc pl tl metrics g full s : chunked_evaluation init lead isz lsz tc pl tl metrics g full s -> per_time tc g full ->
  (exists out, pipeline_states tc pl tl metrics g out) /\ forall out, pipeline_states tc pl tl metrics g out -> agrees out s.
Proof.
  intros CE [W [B|[B V]]].
  - exact (pipeline_time_local init lead isz lsz tc pl tl metrics g full s CE W B).
  - exact (pipeline_varying_bins init lead isz lsz tc pl tl metrics g full s CE W B V).
Qed.
Lemma direct_both g full s : dicts full -> aggregate_statistics g (present full) = Ok s ->
  forall k v, entry (part SumWeightedStatistics s) k v <> None <-> entry (part SumWeights s) k v <> None.
Proof.
  intros D H k v. pose proof (direct_entry g full s SumWeightedStatistics k v D H) as E1. pose proof (direct_entry g full s SumWeights k v D H) as E2.
  destruct (stat full k v) as [st|]; [|rewrite E1, E2; tauto]. destruct E1 as (r & Er & ->), E2 as (r' & Er' & ->). rewrite Er in Er'. injection Er' as <-.
  destruct r; split; intros; discriminate || congruence.
Qed.

(** ** The metrics *)
Theorem state_metrics init lead isz lsz tc pl tl metrics g full s mv out s' :
  chunked_evaluation init lead isz lsz tc pl tl metrics g full s -> per_time tc g full -> each_statistic_kept full s ->
  (forall name m, In (name, m) metrics -> extensional m) -> metric_tables metrics s = Ok mv -> clean mv ->
  pipeline_states tc pl tl metrics g out -> In s' out ->
  exists d, metric_values metrics s' = Ok d /\ same_dataset d (values_dataset mv) /\ (forall n a, In (n, a) d -> wf a) /\ NoDup (keys d).
Proof.
  intros CE PT EK HM E C HP I. destruct (agrees_states _ _ _ _ _ _ _ _ _ _ _ CE PT) as [_ A]. destruct (A out HP) as [AE _].
  destruct (direct_shaped g full s (ce_dicts _ _ _ _ _ _ _ _ _ _ _ CE) (ce_direct _ _ _ _ _ _ _ _ _ _ _ CE) EK) as [(d1 & d2 & Sh) B].
  destruct (pipeline_shaped tc pl tl metrics g out s' HP I) as (d1' & d2' & Sh').
  destruct (metric_tables_same metrics s s' d1 d2 d1' d2' mv Sh Sh' B (fun ty k v => AE s' ty k v I) HM E) as (mv' & E' & R).
  exists (values_dataset mv'). pose proof (values_same mv mv' R C) as V.
  assert (NoDup (keys (values_dataset mv'))) as ND.
  { rewrite values_flat. change (NoDup (keys (assign_all (flat mv')))). rewrite keys_assign_all. clear. induction (map fst (flat mv')) as [|x m IHm]; simpl; [constructor|]. constructor.
    - rewrite filter_In. rewrite String.eqb_refl. simpl. intros [_ ?]; discriminate. - now apply NoDup_filter. }
  split.
  - unfold metric_values. unfold metric_tables in E'. destruct (mean_statistics s') as [m|]; [|discriminate]. cbn [bind] in *. destruct (nested m) as [n|]; [|discriminate]. cbn [bind] in *. rewrite E'. reflexivity.
  - split; [intros n; apply opt_same_sym, V|]. split; [|exact ND]. intros n a J. specialize (V n). rewrite (In_dget _ _ _ ND J) in V.
    destruct (dget (values_dataset mv) n); [apply V|destruct V].
Qed.

(** ** The state *)
Lemma tree_same x1 x' X : tree_rel same_array x1 x' -> tree_rel da_equiv x1 X -> (forall p a, at_path X p = Some (Leaf a) -> wf a) -> tree_rel same_array X x'.
Proof.
  intros T U W p. specialize (T p). specialize (U p). specialize (W p). destruct (at_path x1 p) as [[a| | |]|], (at_path x' p) as [[b| | |]|], (at_path X p) as [[c| | |]|]; try tauto; try congruence.
  destruct T as (Wa & Wb & T). pose proof (W c eq_refl) as Wc. split; auto. split; auto. apply (da_equiv_trans c a b); auto. now apply da_equiv_sym.
Qed.
Theorem read_back s d1 d2 : shaped s d1 d2 -> (forall k v, look d1 k v <> None <-> look d2 k v <> None) -> storable s ->
  (forall ty k v a, entry (part ty s) k v = Some a -> wf a) ->
  exists ds, to_dataset "#"%char s = Ok ds /\ (forall n a, In (n, a) ds -> wf a) /\
    forall ds', items_rel same_array ds' ds -> exists s' d1' d2', from_dataset "#"%char ds' = Ok s' /\ shaped s' d1' d2' /\ same_entries s' s.
Proof.
  intros (-> & P1 & P2) B [SN SL] W. cbn [part] in *.
  assert (forall k v a, look d1 k v = Some a -> plain_name "#"%char k /\ plain_name "#"%char v) as N1 by (intros k v a E; apply (SN SumWeightedStatistics k v a); cbn [part]; now rewrite entry_nest).
  assert (forall a, in_state (nest_tree d1, nest_tree d2) a -> exists ty k v, entry (part ty (Some (nest_tree d1, nest_tree d2))) k v = Some a) as IS.
  { intros a [p [H|H]]; cbn [fst snd] in H; destruct (nest_leaf _ _ _ H) as (k & v & L); [exists SumWeightedStatistics|exists SumWeights]; exists k, v; cbn [part]; now rewrite entry_nest. }
  assert (same_keys (nest_tree d1) (nest_tree d2)) as SK.
  { apply tree_rel_nest; auto. intros k v. specialize (B k v). destruct (look d1 k v), (look d2 k v); cbn; auto; [apply (proj1 B)|apply (proj2 B)]; congruence. }
  assert (nested_dict (plain_name "#"%char) (nest_tree d1)) as ND by (now apply nested_nest_tree).
  assert (forall a, in_state (nest_tree d1, nest_tree d2) a -> wf a) as WS by (intros a H; destruct (IS a H) as (ty & k & v & E); eapply W; exact E).
  assert (forall a b, in_state (nest_tree d1, nest_tree d2) a -> in_state (nest_tree d1, nest_tree d2) b -> labels_agree a b) as LS.
  { intros a b Ha Hb. destruct (IS a Ha) as (ty & k & v & E), (IS b Hb) as (ty' & k' & v' & E'). eapply SL; eauto. }
  assert (~ Spec_RoundTrip.occurs "#"%char "sum_weighted_statistics") as V1 by (cbn; intuition discriminate). assert (~ Spec_RoundTrip.occurs "#"%char "sum_weights") as V2 by (cbn; intuition discriminate).
  destruct (dataset_round_trip_state "#"%char _ _ V1 V2 ND (inner_nonempty_nest d1 P1) SK WS LS) as (ds & s1 & E1 & E2 & SE).
  exists ds. split; [exact E1|]. pose proof (dataset_wf "#"%char _ _ ds V1 V2 ND SK WS E1) as WD. split; [exact WD|]. intros ds' R.
  destruct s1 as [[x1 y1]|]; [|destruct SE]. destruct SE as [Sx Sy].
  assert (items_rel same_array ds ds') as R'.
  { clear - R. induction R as [|[k a] [k' b] l l' [E S] HF IH]; constructor; auto. cbn [fst snd] in *. split; [auto|now apply same_array_sym]. }
  destruct (from_dataset_cong same_array "#"%char ds ds' x1 y1 R' E2) as (x' & y' & E' & Tx & Ty).
  assert (tree_rel same_array (nest_tree d1) x') as Ux by (eapply tree_same; [exact Tx|exact Sx|]; intros p a H; apply WS; exists p; now left).
  assert (tree_rel same_array (nest_tree d2) y') as Uy by (eapply tree_same; [exact Ty|exact Sy|]; intros p a H; apply WS; exists p; now right).
  destruct (from_dataset_nested "#"%char ds' x' y' E') as [Nx Ny].
  destruct (nest_of_rel same_array d1 x' P1 Nx Ux) as (d1' & -> & P1' & L1). destruct (nest_of_rel same_array d2 y' P2 Ny Uy) as (d2' & -> & P2' & L2).
  exists (Some (nest_tree d1', nest_tree d2')), d1', d2'. split; [exact E'|]. split; [split; auto|].
  intros ty k v. destruct ty; cbn [part]; rewrite !entry_nest; apply opt_same_sym; auto.
Qed.

Theorem state_saved init lead isz lsz tc pl tl metrics g full s out s' :
  chunked_evaluation init lead isz lsz tc pl tl metrics g full s -> per_time tc g full -> storable s ->
  pipeline_states tc pl tl metrics g out -> In s' out ->
  exists ds, to_dataset "#"%char s' = Ok ds /\ (forall n a, In (n, a) ds -> wf a) /\
    forall ds', items_rel same_array ds' ds -> exists s'' d1 d2, from_dataset "#"%char ds' = Ok s'' /\ shaped s'' d1 d2 /\ same_entries s'' s.
Proof.
  intros CE PT [SN SL] HP I. destruct (agrees_states _ _ _ _ _ _ _ _ _ _ _ CE PT) as [_ A]. destruct (A out HP) as [AE _].
  pose proof (direct_both g full s (ce_dicts _ _ _ _ _ _ _ _ _ _ _ CE) (ce_direct _ _ _ _ _ _ _ _ _ _ _ CE)) as B.
  destruct (pipeline_shaped tc pl tl metrics g out s' HP I) as (d1 & d2 & Sh).
  assert (forall ty k v a, entry (part ty s') k v = Some a -> exists b, entry (part ty s) k v = Some b /\ same_array a b) as Q.
  { intros ty k v a E. specialize (AE s' ty k v I). rewrite E in AE. destruct (entry (part ty s) k v) as [b|]; [eauto|destruct AE]. }
  destruct (read_back s' d1 d2 Sh) as (ds & E1 & WD & RB).
  - intros k v. pose proof (AE s' SumWeightedStatistics k v I) as A1. pose proof (AE s' SumWeights k v I) as A2. specialize (B k v).
    destruct Sh as (-> & _). cbn [part] in *. rewrite !entry_nest in *.
    destruct (look d1 k v), (look d2 k v), (entry (part SumWeightedStatistics s) k v), (entry (part SumWeights s) k v); cbn in *; try tauto; split; intros; try discriminate; exfalso; destruct B as [B1 B2]; (now apply B1) || (now apply B2).
  - split.
    + intros ty k v a E. destruct (Q _ _ _ _ E) as (b & Eb & _). eapply SN; eauto.
    + intros ty k v a ty' k' v' b E E'. destruct (Q _ _ _ _ E) as (a0 & Ea & Sa), (Q _ _ _ _ E') as (b0 & Eb & Sb). eapply labels_agree_same; [apply same_array_sym; exact Sa|apply same_array_sym; exact Sb|]. eapply SL; eauto.
  - intros ty k v a E. destruct (Q _ _ _ _ E) as (b & _ & S). apply S.
  - exists ds. split; auto. split; auto. intros ds' R. destruct (RB ds' R) as (s'' & d1' & d2' & E2 & Sh' & SE). exists s'', d1', d2'. split; auto. split; auto.
    intros ty k v. eapply opt_same_trans; [apply SE|]. apply AE. exact I.
Qed.
