(** C66: the unaggregated pipeline: errors, what does not hold, and a run. *)
From Coq Require Import String ZArith List Bool Permutation Lia Reals.
Import ListNotations.
From Verif Require Import Prelude Values Model_XArray Spec_XArray Proofs_XArray Model_Tree Model_MetricsBase Model_TimeChunks Spec_TimeChunks Proofs_TimeChunks
  Model_Aggregation Spec_Aggregator Model_Beam Spec_Beam Model_Unaggregated Spec_Unaggregated Proofs_Unaggregated Proofs_Unaggregated2 Props_Unaggregated Props_Unaggregated2.
Local Open Scope Z_scope.
Local Open Scope string_scope.
Local Open Scope list_scope.

(** Under distinct names the dataset of the first chunk has every statistic and variable. *)
Lemma distinct_dataset (sc : dict string (vars da)) : dicts sc ->
  (forall k1 v1 a1 k2 v2 a2, stat sc k1 v1 = Some a1 -> stat sc k2 v2 = Some a2 -> (k1 ++ "." ++ v1 = k2 ++ "." ++ v2)%string -> k1 = k2 /\ v1 = v2) ->
  first_dataset sc = map (fun x => (output_name (fst (fst x)) (snd (fst x)), snd x)) (flat sc).
Proof.
  intros D U. pose proof (NoDup_flat sc (proj1 D) (proj2 D)) as N. apply dict_of_flat.
      assert (forall x y, In x (flat sc) -> In y (flat sc) -> output_name (fst (fst x)) (snd (fst x)) = output_name (fst (fst y)) (snd (fst y)) -> fst x = fst y) as Inj.
      { intros [[k1 v1] a1] [[k2 v2] a2] J1 J2 Eo. cbn [fst snd] in *. destruct (U k1 v1 a1 k2 v2 a2 (proj1 (flat_stat sc _ _ _ D) J1) (proj1 (flat_stat sc _ _ _ D) J2) Eo) as [-> ->]. reflexivity. }
      clear -N Inj. induction (flat sc) as [|x l IH]; [constructor|]. cbn [map] in *. apply NoDup_cons_iff in N. destruct N as [N1 N2]. constructor.
      - intros Q. apply in_map_iff in Q. destruct Q as (y & E & Iy). apply N1. rewrite <- (Inj y x (or_intror Iy) (or_introl eq_refl) E). now apply in_map.
      - apply IH; [exact N2|]. intros y z Iy Iz. apply Inj; now right.
Qed.

(** No init or no lead time: the error is a ValueError whatever the loaders do.  A statistic of the first chunk with a mask
    coordinate: likewise. *)
Theorem C66_errors : forall metrics pl tl,
  (forall init lead isz lsz tc, make_time_chunks init (LeadArr lead) isz lsz = Ok tc -> init = [] \/ lead = [] ->
     get_template metrics pl tl tc = Err ValueError /\ forall t s, ~ unaggregated_pipeline metrics pl tl tc t s) /\
  (forall init lead isz lsz tc I L rest sc k v a, make_time_chunks init (LeadArr lead) isz lsz = Ok tc -> tc_iter tc = (I, L) :: rest ->
     chunk_stats pl tl metrics (I, L) = Ok sc -> (forall k1 v1 a1 k2 v2 a2, stat sc k1 v1 = Some a1 -> stat sc k2 v2 = Some a2 -> (k1 ++ "." ++ v1 = k2 ++ "." ++ v2)%string -> k1 = k2 /\ v1 = v2) ->
     dicts sc -> stat sc k v = Some a -> In "mask" (map fst (aux a)) ->
     get_template metrics pl tl tc = Err ValueError /\ forall t s, ~ unaggregated_pipeline metrics pl tl tc t s).
Proof.
  intros metrics pl tl. split.
  - intros init lead isz lsz tc M E. assert (get_template metrics pl tl tc = Err ValueError) as G.
    { unfold get_template. rewrite getitem_spec. change (0 <? 0)%Z with false. change (Z.to_nat 0%Z) with 0%nat. cbv iota.
      destruct (tc_iter tc) as [|[ic lc] l] eqn:Ei; [reflexivity|]. exfalso.
      pose proof (make_arr_inv _ _ _ _ _ M) as (ics' & lcs' & H1 & H2 & H3 & H4 & Et).
      pose proof (split_Ok_pos _ _ _ H1 H3) as Hp1. pose proof (split_Ok_pos _ _ _ H2 H4) as Hp2.
      pose proof (split_chunks_eq _ _ _ Hp1 H3) as E1. pose proof (split_chunks_eq _ _ _ Hp2 H4) as E2.
      assert (ics' = [] \/ lcs' = []) as [->| ->].
      { destruct E as [->| ->]; [left; rewrite E1|right; rewrite E2]; unfold npieces, zlen; cbn [length]; rewrite Z.div_small by lia; reflexivity. }
      - subst tc. discriminate Ei.
      - subst tc. unfold tc_iter in Ei. cbn [tc_init_chunks tc_lead_chunks map] in Ei. assert (In (ic, lc) (list_prod ics' (@nil lead_chunk))) as I by (rewrite Ei; now left). apply in_prod_iff in I. destruct I as [_ []]. }
    split; [exact G|]. intros t s [G' _]. congruence.
  - intros init lead isz lsz tc I L rest sc k v a M Ei S U D Es Im. assert (get_template metrics pl tl tc = Err ValueError) as G.
    { unfold get_template. rewrite getitem_spec. change (0 <? 0)%Z with false. change (Z.to_nat 0%Z) with 0%nat. cbv iota. rewrite Ei. cbn [nth_error bind].
      unfold chunk_stats in S. unfold load_predictions_and_targets. destruct (tl (fst (I, L)) (snd (I, L)) None) as [t|]; [|discriminate]. cbn [bind] in *. destruct (pl (fst (I, L)) (snd (I, L)) (Some t)) as [p|]; [|discriminate]. cbn [bind fst snd] in *. rewrite S. cbn [bind].
      assert (existsb (fun kv : string * da => memb "mask" (keys (aux (snd kv)))) (first_dataset sc) = true) as ->; [|reflexivity].
      apply existsb_exists. exists ((k ++ "." ++ v)%string, a). split; [|apply memb_In; exact Im].
      rewrite (distinct_dataset sc D U). apply in_map_iff. exists (k, v, a). split; [reflexivity|]. now apply flat_stat. }
    split; [exact G|]. intros t s [G' _]. congruence.
Qed.
Print Assumptions C66_errors.

(** An interval of lead times: as soon as a statistic of the first chunk has a lead_time dimension the template is a TypeError;
    with no lead_time_chunk_size (None) the emission of chunks is one whatever the statistics are. *)
Theorem C66_interval : forall metrics pl tl init a b isz lsz tc, make_time_chunks init (LeadSlice (Some a) (Some b) None) isz lsz = Ok tc -> init <> [] ->
  (lsz = None -> emitted metrics pl tl tc = Err TypeError) /\
  (forall I L rest sc, tc_iter tc = (I, L) :: rest -> chunk_stats pl tl metrics (I, L) = Ok sc -> dicts sc ->
     (forall k1 v1 a1 k2 v2 a2, stat sc k1 v1 = Some a1 -> stat sc k2 v2 = Some a2 -> (k1 ++ "." ++ v1 = k2 ++ "." ++ v2)%string -> k1 = k2 /\ v1 = v2) ->
     (forall k v a, stat sc k v = Some a -> ~ In "mask" (map fst (aux a))) ->
     (exists k v a, stat sc k v = Some a /\ In "lead_time" (dnames a)) ->
     get_template metrics pl tl tc = Err TypeError).
Proof.
  intros metrics pl tl init a b isz lsz tc M Ni. split.
  - intros ->. unfold emitted. rewrite (offsets_slice_TypeError _ _ _ _ _ M); [reflexivity|].
    unfold make_time_chunks in M. destruct (negative isz) eqn:Nz; [discriminate|]. cbn [negative] in M. destruct (split_chunks init (effective_size isz init)) as [ics|] eqn:Sp; [|discriminate]. cbn [bind falsy] in M. injection M as <-. unfold tc_iter. cbn [tc_init_chunks tc_lead_chunks].
    pose proof (split_Ok_pos _ _ _ Nz Sp) as Hp. rewrite (split_chunks_eq _ _ _ Hp Sp). destruct init as [|i init']; [congruence|].
    pose proof (npieces_cover (zlen (i :: init')) (effective_size isz (i :: init')) (zlen_nonneg _) Hp) as C. destruct (npieces (zlen (i :: init')) (effective_size isz (i :: init'))) as [|n]; [unfold zlen in C; cbn [length] in C; lia|]. discriminate.
  - intros I L rest sc Ei S D U Nm (k & v & x & Es & Dx). unfold get_template. rewrite getitem_spec. change (0 <? 0)%Z with false. change (Z.to_nat 0%Z) with 0%nat. cbv iota. rewrite Ei. cbn [nth_error bind].
    unfold chunk_stats in S. unfold load_predictions_and_targets. destruct (tl (fst (I, L)) (snd (I, L)) None) as [t|]; [|discriminate]. cbn [bind] in *. destruct (pl (fst (I, L)) (snd (I, L)) (Some t)) as [p|]; [|discriminate]. cbn [bind fst snd] in *. rewrite S. cbn [bind].
    rewrite (distinct_dataset sc D U).
    assert (forall y, In y (map (fun x : string * string * da => (output_name (fst (fst x)) (snd (fst x)), snd x)) (flat sc)) -> exists k v a, stat sc k v = Some a /\ y = ((k ++ "." ++ v)%string, a)) as A.
    { intros y J. apply in_map_iff in J. destruct J as ([[k1 v1] a1] & <- & J). exists k1, v1, a1. split; [now apply flat_stat|reflexivity]. }
    assert (existsb (fun kv : string * da => memb "mask" (keys (aux (snd kv)))) (map (fun x : string * string * da => (output_name (fst (fst x)) (snd (fst x)), snd x)) (flat sc)) = false) as ->.
    { destruct (existsb _ _) eqn:Q; [|reflexivity]. exfalso. apply existsb_exists in Q. destruct Q as (y & J & Q). destruct (A y J) as (k1 & v1 & a1 & E1 & ->). apply memb_In in Q. exact (Nm _ _ _ E1 Q). }
    match goal with |- context [has_dim "lead_time" ?t] => assert (has_dim "lead_time" t = true) as -> end.
    { unfold has_dim. apply existsb_exists. exists ((k ++ "." ++ v)%string, dims x). split; [|apply memb_In; exact Dx]. rewrite map_map. apply in_map_iff. exists (k, v, x). split; [reflexivity|now apply flat_stat]. }
    assert (tc_lead_times tc = LeadSlice (Some a) (Some b) None) as ->; [|reflexivity].
    unfold make_time_chunks in M. destruct (negative isz); [discriminate|]. destruct (negative lsz); [discriminate|]. destruct (split_chunks _ _); [|discriminate]. cbn [bind] in M. destruct (falsy lsz); [|discriminate]. now injection M as <-.
Qed.
Print Assumptions C66_interval.

(** ** A run: two init chunks, two lead chunks *)
Definition g0 (e : env) : val := match e "init_time", e "lead_time" with LZ i, LZ l => Fin (IZR (10 * i + l)) | _, _ => NaN end.
Definition load (I : list Z) (c : lead_chunk) (_ : option (vars da)) : result (vars da) :=
  match c with ChunkArr L => Ok [("t", mkDa [("lead_time", map LZ L); ("init_time", map LZ I)] g0 [])] | _ => Err TypeError end.
Definition copy (name : string) : statistic da := mkStat name (fun p _ => Ok p).
Definition ms : dict string (metric da) := [("m", metric_of_statistic (copy "S"))].
Definition all_stats : dict string (vars da) := [("S", [("t", mkDa [("lead_time", [LZ 0; LZ 6]); ("init_time", [LZ 0; LZ 6; LZ 12])] g0 [])])].

Lemma wf_loaded I L : NoDup I -> NoDup L -> wf (mkDa [("lead_time", map LZ L); ("init_time", map LZ I)] g0 []).
Proof.
  intros NI NL. assert (forall l : list Z, NoDup l -> NoDup (map LZ l)) as K.
  { intros l N. apply FinFun.Injective_map_NoDup; [|exact N]. intros x y E. now injection E. }
  split; [|split].
  - unfold dnames. cbn [dims map fst]. repeat constructor; cbn; intuition discriminate.
  - intros d ls [[= <- <-]|[[= <- <-]|[]]]; now apply K.
  - intros e e' E. cbn [get]. unfold g0. rewrite (E "init_time"), (E "lead_time") by (unfold dnames; cbn; auto). reflexivity.
Qed.
Ltac no_dup := repeat constructor; cbn; intuition discriminate.
Example C66_evaluation : exists tc, unaggregated_evaluation [0; 6; 12]%Z [0; 6]%Z (Some 2%Z) (Some 1%Z) tc load load ms all_stats /\ length (tc_iter tc) = 4%nat.
Proof.
  eexists. split; [|shelve]. constructor.
  - reflexivity.
  - no_dup.
  - no_dup.
  - split; [no_dup|]. intros k vs [[= <- <-]|[]]. no_dup.
  - intros k v st E. assert (st = mkDa [("lead_time", map LZ [0; 6]%Z); ("init_time", map LZ [0; 6; 12]%Z)] g0 []) as ->.
    { unfold stat, all_stats in E. cbn [dget] in E. destruct (eq_dec k "S"); [|discriminate]. cbn [dget] in E. destruct (eq_dec v "t"); [|discriminate]. now injection E as <-. }
    split; [apply wf_loaded; no_dup|]. split; [intros ls Q; now injection Q as <-|]. split; [intros ls Q; now injection Q as <-|reflexivity].
  - intros k v st k' v' st' E E' _. unfold stat, all_stats in E, E'. cbn [dget] in E, E'. destruct (eq_dec k "S") as [->|]; [|discriminate]. destruct (eq_dec k' "S") as [->|]; [|discriminate]. cbn [dget] in E, E'. destruct (eq_dec v "t") as [->|]; [|discriminate]. destruct (eq_dec v' "t") as [->|]; [|discriminate]. auto.
  - intros I L J. exists [("S", [("t", mkDa [("lead_time", map LZ L); ("init_time", map LZ I)] g0 [])])]. split; [reflexivity|].
    repeat (destruct J as [J|J]; [injection J as <- <-; (constructor; [|constructor]); split; [reflexivity|]; (constructor; [|constructor]); split; [reflexivity|]; split; [apply wf_loaded; no_dup|]; split; [reflexivity|]; split; [reflexivity|reflexivity]|]). destruct J.
  Unshelve. reflexivity.
Qed.

(** ** Two statistics and variables of the same name *)
Definition const (x : R) : da := mkDa [] (fun _ => Fin x) [].
Definition clash : dict string (metric da) :=
  [("m", metric_of_statistic (mkStat "a" (fun _ _ => Ok [("b.c", const 1)]))); ("n", metric_of_statistic (mkStat "a.b" (fun _ _ => Ok [("c", const 2)])))].
(** Without the condition on names the store does not determine a statistic: the variable b.c of statistic a and the variable c of
    statistic a.b share the name a.b.c, and either may be what is left in the store. *)
Theorem C66_name_clash_refuted : exists tc t s1 s2, make_time_chunks [0%Z] (LeadArr [0%Z]) None None = Ok tc /\
  unaggregated_pipeline clash load load tc t s1 /\ unaggregated_pipeline clash load load tc t s2 /\
  s1 "a.b.c" (fun _ => 0%Z) = Some (Fin 1) /\ s2 "a.b.c" (fun _ => 0%Z) = Some (Fin 2).
Proof.
  exists (Build_time_chunks [0%Z] (LeadArr [0%Z]) 1%Z (Some 1%Z) [[0%Z]] [ChunkArr [0%Z]]).
  eexists. eexists. eexists. split; [reflexivity|]. split; [split; [reflexivity|]; eexists; eexists; split; [reflexivity|]; split; [apply perm_swap|reflexivity]|].
  split; [split; [reflexivity|]; eexists; eexists; split; [reflexivity|]; split; [apply Permutation_refl|reflexivity]|]. split; reflexivity.
Qed.
Print Assumptions C66_name_clash_refuted.
