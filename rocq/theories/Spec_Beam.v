(** Specification vocabulary for the Beam pipeline. *)
From Coq Require Import String ZArith Bool List.
Import ListNotations.
From Verif Require Import Prelude Values Model_XArray Spec_XArray Model_Tree Model_MetricsBase Model_TimeChunks Model_Aggregation Spec_Aggregator Model_Beam.
From Coq Require Import Reals.
Local Open Scope string_scope.
Local Open Scope list_scope.

(** The dimensions along which the pipeline cuts its work. *)
Definition time_dim (d : string) : Prop := d = "init_time" \/ d = "lead_time".

(** The label lies in the chunk with init times [I] and lead times [L]. *)
Definition in_chunk (I L : list label) (d : string) (l : label) : Prop :=
  (d = "init_time" -> In l I) /\ (d = "lead_time" -> In l L).
Definition in_chunkb (I L : list label) (d : string) (l : label) : bool :=
  if String.eqb d "init_time" then memb l I
  else if String.eqb d "lead_time" then memb l L else true.
Definition chunk_dims (I L : list label) (ds : dimlist) : dimlist :=
  map (fun p => (fst p, filter (in_chunkb I L (fst p)) (snd p))) ds.

(** [c] is the part of [a] for the chunk: a selection along init_time and lead_time. *)
Definition time_slice (I L : list label) (a c : da) : Prop :=
  dims c = chunk_dims I L (dims a) /\ aux c = aux a /\
  (forall e, point_of (dims c) e -> get c e = get a e).

(** [y] is the part of [x] for the chunk, except that dimensions in [b] may have lost labels. *)
Record part_of (b : list string) (I L : list label) (x y : da) : Prop := {
  po_wf : wf y;
  po_dims : same_dims x y;
  po_labels : forall d l, In l (labels_of (dims y) d) -> In l (labels_of (dims x) d) /\ in_chunk I L d l;
  po_all : forall d l, ~ In d b -> In l (labels_of (dims x) d) -> in_chunk I L d l -> In l (labels_of (dims y) d);
  po_values : forall e, point_of (dims y) e -> get y e = get x e }.

(** A weighting or bin mask looking at each time separately: computed on a chunk it is the
    chunk of what is computed on the whole, and along a time dimension it has all times of
    the statistic.  [b]: dimensions whose labels may depend on the chunk. *)
Definition time_local (b : list string) (f : da -> result da) : Prop :=
  forall a x, wf a -> f a = Ok x ->
    wf x /\
    (forall d l, time_dim d -> In d (dnames x) -> In l (labels_of (dims a) d) -> In l (labels_of (dims x) d)) /\
    (forall I L c, wf c -> time_slice I L a c -> exists y, f c = Ok y /\ part_of b I L x y).

(** Bin labels absent from a chunk: the mask is 0 at all its points. *)
Definition zero_where_missing (f : da -> result da) : Prop :=
  forall a x I L c y e, wf a -> wf c -> f a = Ok x -> time_slice I L a c -> f c = Ok y ->
    point_of (dims x) e -> (forall d, time_dim d -> In d (dnames x) -> in_chunk I L d (e d)) ->
    ~ point_of (dims y) e -> get x e = Fin 0%R.
(** Every label of the bin dimension [d] occurs in the mask of some chunk. *)
Definition labels_met (chunks : list (list Z * lead_chunk)) (f : da -> result da) (a : da) (d : string) : Prop :=
  forall x l, f a = Ok x -> In l (labels_of (dims x) d) ->
    exists I L, In (I, ChunkArr L) chunks /\
      forall c y, wf c -> time_slice (map LZ I) (map LZ L) a c -> f c = Ok y -> In l (labels_of (dims y) d).

(** The mask coordinate is an array over dimensions of the variable. *)
Definition mask_local (a : da) : Prop :=
  forall m, dget (aux a) "mask" = Some m ->
  forall e e', (forall d, In d (dnames a) -> e d = e' d) -> c_get m e = c_get m e'.
(** The variable has exactly these init and lead times. *)
Definition times_are (init lead : list Z) (a : da) : Prop :=
  (forall l, In l (labels_of (dims a) "init_time") <-> exists t, l = LZ t /\ In t init) /\
  (forall l, In l (labels_of (dims a) "lead_time") <-> exists t, l = LZ t /\ In t lead).

(** Variable [v] of statistic [k]. *)
Definition stat (full : dict string (vars da)) (k v : string) : option da :=
  match dget full k with Some vs => dget vs v | None => None end.
Definition dicts (full : dict string (vars da)) : Prop :=
  NoDup (map fst full) /\ forall k vs, In (k, vs) full -> NoDup (map fst vs).
(** The statistics [sc] of a chunk are the chunk's part of the statistics [full]. *)
Definition stats_slice (I L : list Z) (full sc : dict string (vars da)) : Prop :=
  items_rel (items_rel (fun a c => wf c /\ time_slice (map LZ I) (map LZ L) a c)) full sc.
(** Statistics as the Aggregator takes them (none is None). *)
Definition present (full : dict string (vars da)) : dict string (dict string (option da)) :=
  map (fun kv => (fst kv, map (fun va => (fst va, Some (snd va))) (snd kv))) full.

(** The array of variable [v] of statistic [k] in a state component. *)
Definition entry (t : tree da) (k v : string) : option da :=
  match t with
  | Dict kvs => match dget kvs k with
                | Some (Dict vs) => match dget vs v with Some (Leaf a) => Some a | _ => None end
                | _ => None
                end
  | _ => None
  end.


(** The component of a state holding entries of a type. *)
Definition part (ty : key_type) (s : state) : tree da :=
  match s with Some (x, y) => match ty with SumWeightedStatistics => x | SumWeights => y end | None => Dict [] end.


(** The statistics of what the loaders return for a chunk: the targets are loaded first, the
    predictions loader sees them. *)
Definition chunk_stats (pl tl : loader) (metrics : dict string (metric da)) (c : list Z * lead_chunk) : result (dict string (vars da)) :=
  do t <- tl (fst c) (snd c) None; do p <- pl (fst c) (snd c) (Some t); compute_unique_statistics metrics p t.


(** Facts about the run common to both theorems. *)
Record chunked_evaluation (init lead : list Z) (isz lsz : option Z) (tc : time_chunks) (pl tl : loader)
    (metrics : dict string (metric da)) (g : aggregator) (full : dict string (vars da)) (s : state) : Prop := {
  ce_chunks : make_time_chunks init (LeadArr lead) isz lsz = Ok tc;
  ce_init : NoDup init; ce_lead : NoDup lead; ce_ne : init <> [] /\ lead <> [];
  ce_dicts : dicts full;
  ce_direct : aggregate_statistics g (present full) = Ok s;
  ce_vars : forall k v st, stat full k v = Some st -> wf st /\ mask_local st /\ times_are init lead st;
  ce_local : forall I L, In (I, ChunkArr L) (tc_iter tc) ->
     exists sc, chunk_stats pl tl metrics (I, ChunkArr L) = Ok sc /\ stats_slice I L full sc;
  ce_labels : forall ty k v a d, entry (part ty s) k v = Some a -> In d (dnames a) -> labels_of (dims a) d <> [] }.

(** Two proper arrays (distinct dimensions, distinct labels) that are equal as labelled arrays. *)
Definition same_array (a b : da) : Prop := wf a /\ wf b /\ da_equiv a b.

Definition agrees (out : list state) (s : state) : Prop :=
  (forall s' ty k v, In s' out -> opt_rel same_array (entry (part ty s') k v) (entry (part ty s) k v)) /\
  ((exists ty k v a, entry (part ty s) k v = Some a) -> exists s', out = [s']) /\
  ((forall ty k v, entry (part ty s) k v = None) -> out = []).


(** Chunk-dependent bins: [b]'s own dimension may lose labels on a chunk. *)
Record varying_bins (chunks : list (list Z * lead_chunk)) (g : aggregator) (st : da) : Prop := {
  vb_coords_w : forall w, In w (weigh_by g) -> uses_coords w;
  vb_coords_b : forall b, In b (bin_by g) -> uses_coords (create_bin_mask b);
  vb_spans : mask_spans st;
  vb_dims : forall b, In b (bin_by g) -> ~ In (bin_dim_name b) (dnames st) /\
     (forall w a, In w (weigh_by g) -> w st = Ok a -> ~ In (bin_dim_name b) (dnames a));
  vb_met : forall b, In b (bin_by g) -> labels_met chunks (create_bin_mask b) st (bin_dim_name b);
  vb_finite : forall e, point_of (dims st) e -> counted g st e = true -> exists r, get st e = Fin r;
  vb_weights : forall w a e, In w (weigh_by g) -> w st = Ok a -> point_of (dims a) e -> exists r, get a e = Fin r;
  vb_masks : forall b a e, In b (bin_by g) -> create_bin_mask b st = Ok a -> point_of (dims a) e -> exists r, get a e = Fin r }.

