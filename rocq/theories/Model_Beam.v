(** Model of weatherbenchX/beam_utils.py (CombiningSum, GroupAll) and of the aggregated
    evaluation pipeline of weatherbenchX/beam_pipeline.py.

    Apache Beam is not in /repo.  A PCollection is a list read as a multiset; the freedom a
    Beam runner has (element order, combiner trees, order of groups) is expressed by
    relations quantifying over all admissible executions. *)
From Coq Require Import String ZArith Bool List Permutation.
Import ListNotations.
From Verif Require Import Prelude Values Model_XArray Model_Tree Model_MetricsBase Model_Aggregation Model_TimeChunks.
From Coq Require Import Reals.
Local Open Scope string_scope.
Local Open Scope list_scope.

(** ** beam_utils.py 30-50: CombiningSum *)
Definition create_accumulator : option da := None.                             (* 33-34 *)
Definition add_input (acc : option da) (x : da) : option da :=                 (* 36-42 *)
  match acc with None => Some x | Some a => Some (combining_sum [a; x]) end.
Definition somes {A} (l : list (option A)) : list A :=
  flat_map (fun o => match o with Some x => [x] | None => [] end) l.
Definition merge_accumulators (accs : list (option da)) : option da :=         (* 44-47 *)
  match somes accs with [] => None | l => Some (combining_sum l) end.
Definition extract_output (acc : option da) : option da := acc.                (* 49-50 *)

(** How a runner may combine the elements of one key: any tree of the three calls. *)
Inductive schedule :=
| NewAccumulator
| AddInput (s : schedule) (x : da)
| MergeAccumulators (ss : list schedule).
Fixpoint run_schedule (s : schedule) : option da :=
  match s with
  | NewAccumulator => create_accumulator
  | AddInput s x => add_input (run_schedule s) x
  | MergeAccumulators ss =>
      merge_accumulators ((fix go l := match l with [] => [] | s' :: l' => run_schedule s' :: go l' end) ss)
  end.
(** The elements consumed by it. *)
Fixpoint inputs_of (s : schedule) : list da :=
  match s with
  | NewAccumulator => []
  | AddInput s x => inputs_of s ++ [x]
  | MergeAccumulators ss =>
      (fix go l := match l with [] => [] | s' :: l' => inputs_of s' ++ go l' end) ss
  end.

(** ** beam_pipeline.py 120-135: _AggregationKey *)
Inductive key_type := SumWeightedStatistics | SumWeights.
Record key := mkKey {
  k_type : key_type; k_statistic : string; k_variable : string;
  k_init : option Z; k_lead : option Z }.
#[global] Instance EqDec_key : EqDec key.
Proof.
  intros [a1 a2 a3 a4 a5] [b1 b2 b3 b4 b5].
  destruct (ltac:(decide equality) : {a1 = b1} + {a1 <> b1}) as [->|]; [|right; congruence].
  destruct (string_dec a2 b2) as [->|]; [|right; congruence].
  destruct (string_dec a3 b3) as [->|]; [|right; congruence].
  destruct (ltac:(decide equality; apply Z.eq_dec) : {a4 = b4} + {a4 <> b4}) as [->|]; [|right; congruence].
  destruct (ltac:(decide equality; apply Z.eq_dec) : {a5 = b5} + {a5 <> b5}) as [->|]; [|right; congruence].
  now left.
Defined.
Definition drop_offsets (k : key) : key :=
  mkKey (k_type k) (k_statistic k) (k_variable k) None None.

(** ** beam_pipeline.py 34-115: LoadPredictionsAndTargets.process.  A loader is a function
    of init times, lead times and (for predictions) the targets chunk. *)
Definition loader := list Z -> lead_chunk -> option (vars da) -> result (vars da).
Definition load_predictions_and_targets (predictions_loader targets_loader : loader)
  (chunk : list Z * lead_chunk) : result (vars da * vars da) :=
  do t <- targets_loader (fst chunk) (snd chunk) None;
  do p <- predictions_loader (fst chunk) (snd chunk) (Some t);
  Ok (p, t).

(** ** beam_pipeline.py 138-240: ComputeStatisticsAggregateAndPrepareForCombine.process.
    Statistics are arrays here; a statistic that is None is an AttributeError there
    (unlike in aggregation.py 361-375). *)
Definition elements_of (off : offsets) (stat_name var_name : string) (xy : da * da) : list (key * da) :=
  let io := if memb "init_time" (dnames (fst xy)) then Some (off_init off) else None in
  let lo := if memb "lead_time" (dnames (fst xy)) then Some (off_lead off) else None in
  [(mkKey SumWeightedStatistics stat_name var_name io lo, fst xy);
   (mkKey SumWeights stat_name var_name io lo, snd xy)].
Definition process (metrics : dict string (metric da)) (g : aggregator)
  (off : offsets) (pt : vars da * vars da) : result (list (key * da)) :=
  do stats <- compute_unique_statistics metrics (fst pt) (snd pt);
  do es <- mapM (fun kv => mapM (fun va =>
                   do r <- aggregate_stat_var g (snd va);
                   Ok (match r with None => [] | Some xy => elements_of off (fst kv) (fst va) xy end))
                 (snd kv)) stats;
  Ok (concat (concat es)).

(** ** beam_pipeline.py 243-309: ConcatPerStatisticPerVariable.  Non-dimension coordinates
    are not tracked here (they are absent from aggregated arrays). *)
Definition combine_data_arrays_by_coords (arrs : list da) : da :=
  let aligned := align_outer ["init_time"; "lead_time"] (Fin 0%R) arrs in   (* 266-271 *)
  let nonempty := filter (fun a => Nat.ltb 0 (da_size a)) aligned in            (* 276 *)
  match nonempty with [] => da_empty | _ => combine_by_coords nonempty end.     (* 293-295 *)

(** ** beam_pipeline.py 312-339: reconstruct_aggregation_state *)
Definition set_nested (d : dict string (dict string da)) (k v : string) (a : da) : dict string (dict string da) :=
  dset d k (dset (match dget d k with Some vs => vs | None => [] end) v a).
Definition nest_tree (d : dict string (dict string da)) : tree da :=
  Dict (map (fun kv => (fst kv, Dict (map (fun va => (fst va, Leaf (snd va))) (snd kv)))) d).
Definition reconstruct (pairs : list (key * da)) : state :=
  let xy := fold_left (fun acc ka =>
      match k_type (fst ka) with
      | SumWeightedStatistics => (set_nested (fst acc) (k_statistic (fst ka)) (k_variable (fst ka)) (snd ka), snd acc)
      | SumWeights => (fst acc, set_nested (snd acc) (k_statistic (fst ka)) (k_variable (fst ka)) (snd ka))
      end) pairs ([], []) in
  Some (nest_tree (fst xy), nest_tree (snd xy)).

(** ** Beam transforms *)
Definition under {V} (k : key) (l : list (key * V)) : list V :=
  map snd (filter (fun p => if eq_dec (fst p) k then true else false) l).

(** One output per key that occurs; its value is the output of some schedule consuming
    exactly the key's elements. *)
Definition combine_per_key (inp out : list (key * da)) : Prop :=
  NoDup (map fst out) /\
  (forall k, In k (map fst out) <-> In k (map fst inp)) /\
  (forall k x, In (k, x) out ->
     exists s, Permutation (inputs_of s) (under k inp) /\ extract_output (run_schedule s) = Some x).
Definition group_by_key {V} (inp : list (key * V)) (out : list (key * list V)) : Prop :=
  NoDup (map fst out) /\
  (forall k, In k (map fst out) <-> In k (map fst inp)) /\
  (forall k vs, In (k, vs) out -> Permutation vs (under k inp)).
(** beam_utils.py 53-61: GroupAll: one group with all elements in some order, none for an
    empty collection. *)
Definition group_all {V} (inp : list V) (out : list (list V)) : Prop :=
  match inp with [] => out = [] | _ => exists l, Permutation l inp /\ out = [l] end.

(** ** beam_pipeline.py 407-485: define_pipeline up to the aggregation state. *)
Definition pipeline_states (tc : time_chunks) (predictions_loader targets_loader : loader)
  (metrics : dict string (metric da)) (g : aggregator) (out : list state) : Prop :=
  exists chunks elems summed grouped groups,
    tc_iter_offsets tc = Ok chunks /\
    mapM (fun oc => do pt <- load_predictions_and_targets predictions_loader targets_loader (snd oc);
                    process metrics g (fst oc) pt) chunks = Ok elems /\
    combine_per_key (concat elems) summed /\
    group_by_key (map (fun ka => (drop_offsets (fst ka), snd ka)) summed) grouped /\
    group_all (map (fun kv => (fst kv, combine_data_arrays_by_coords (snd kv))) grouped) groups /\
    out = map reconstruct groups.
