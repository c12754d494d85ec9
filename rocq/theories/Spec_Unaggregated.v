(** Vocabulary for the unaggregated pipeline. *)
From Coq Require Import String ZArith List Bool Permutation.
Import ListNotations.
From Verif Require Import Prelude Values Model_XArray Spec_XArray Model_Tree Model_MetricsBase Model_TimeChunks Model_Aggregation Model_Beam Spec_Beam.
Local Open Scope string_scope.
Local Open Scope list_scope.

(** A position in an array: an index for every dimension; what it holds. *)
Definition in_array (a : da) (p : string -> Z) : Prop :=
  forall d ls, dget (dims a) d = Some ls -> (0 <= p d < Z.of_nat (length ls))%Z.
Definition value_by_position (a : da) (p : string -> Z) : val :=
  get a (fun d => nth (Z.to_nat (p d)) (labels_of (dims a) d) (LZ 0)).

(** [full] are the statistics of all times: what the loaders and metrics give for each chunk is the chunk's part.
    Time dimensions carry all times in order (a statistic need not have both); there is no mask coordinate; no two
    statistics and variables share a name of the form statistic.variable. *)
Record unaggregated_evaluation (init lead : list Z) (isz lsz : option Z) (tc : time_chunks) (pl tl : loader)
    (metrics : dict string (metric da)) (full : dict string (vars da)) : Prop := {
  ue_chunks : make_time_chunks init (LeadArr lead) isz lsz = Ok tc;
  ue_init : NoDup init; ue_lead : NoDup lead;
  ue_dicts : dicts full;
  ue_vars : forall k v st, stat full k v = Some st -> wf st /\
     (forall ls, dget (dims st) "init_time" = Some ls -> ls = map LZ init) /\
     (forall ls, dget (dims st) "lead_time" = Some ls -> ls = map LZ lead) /\
     dget (aux st) "mask" = None;
  ue_names : forall k v st k' v' st', stat full k v = Some st -> stat full k' v' = Some st' ->
     (k ++ "." ++ v = k' ++ "." ++ v')%string -> k = k' /\ v = v';
  ue_local : forall I L, In (I, ChunkArr L) (tc_iter tc) ->
     exists sc, chunk_stats pl tl metrics (I, ChunkArr L) = Ok sc /\ stats_slice I L full sc }.

(** The dimensions in the order init_time, lead_time, others. *)
Definition times_first (ds : dimlist) : dimlist :=
  filter (fun p => String.eqb (fst p) "init_time") ds ++ filter (fun p => String.eqb (fst p) "lead_time") ds ++
  filter (fun p => negb (String.eqb (fst p) "init_time" || String.eqb (fst p) "lead_time")) ds.
