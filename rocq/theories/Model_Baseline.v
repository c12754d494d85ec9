(** Model of weatherbenchX/statistical_inference/baseline_comparison.py. *)
From Coq Require Import String List Bool.
Import ListNotations.
From Verif Require Import Prelude Values Model_XArray Model_Tree Model_MetricsBase Model_Aggregation Model_Wrappers.
Local Open Scope string_scope.
Local Open Scope list_scope.

(** baseline_comparison.py 27-28 *)
Definition comparison := vars da -> vars da -> result (vars da).

(** baseline_comparison.py 31-38.  The iteration order of a Python set is arbitrary, here:
    the order of [main_result]. *)
Definition difference : comparison := fun main_result baseline_result =>
  mapM (fun k => do x <- dgetE main_result k; do y <- dgetE baseline_result k; Ok (k, binop vsub x y))
       (filter (fun k => memb k (keys baseline_result)) (keys main_result)).

(** Python [s[len(p):]] if [s.startswith(p)]. *)
Fixpoint strip_prefix (p s : string) : option string :=
  match p, s with
  | EmptyString, _ => Some s
  | String a p', String b s' => if Ascii.eqb a b then strip_prefix p' s' else None
  | String _ _, EmptyString => None
  end.

(** A dict comprehension [{prefix + name: f(name, value) for name, value in d.items()}]. *)
Definition prefixed {A B} (prefix : string) (f : A -> B) (d : list (string * A)) : list (string * B) :=
  map (fun kv => ((prefix ++ fst kv)%string, f (snd kv))) d.
(** [{name[len(prefix):]: v for name, v in d.items() if name.startswith(prefix)}] *)
Definition unprefixed {A} (prefix : string) (d : list (string * A)) : list (string * A) :=
  dict_of (flat_map (fun kv => match strip_prefix prefix (fst kv) with Some n => [(n, snd kv)] | None => [] end) d).

Definition main_ : string := "main_".
Definition baseline_ : string := "baseline_".

(** baseline_comparison.py 94-112 *)
Definition renamed_statistic (prefix : string) (s : statistic da) : statistic da :=
  RenamedStatistic s (prefix ++ unique_name s)%string.
Definition comparison_statistics (m b : metric da) : dict string (statistic da) :=
  dict_of (prefixed main_ (renamed_statistic main_) (statistics m)
           ++ prefixed baseline_ (renamed_statistic baseline_) (statistics b)).

(** baseline_comparison.py 114-131 *)
Definition comparison_values (m b : metric da) (cmp : comparison) (vals : dict string (vars da)) : result (vars da) :=
  let main_stat_values := unprefixed main_ vals in
  let baseline_stat_values := unprefixed baseline_ vals in
  do main_result <- values_from_mean_statistics m main_stat_values;
  do baseline_result <- values_from_mean_statistics b baseline_stat_values;
  cmp main_result baseline_result.

(** baseline_comparison.py 41-131; [baseline_metric = None] means the same metric (91). *)
Definition BaselineComparison (m : metric da) (baseline : option (metric da)) (cmp : comparison) : metric da :=
  let b := match baseline with Some b => b | None => m end in
  mkMetric (comparison_statistics m b) (comparison_values m b cmp).

(** [t.items()] of a field of an AggregationState; None (the zero state) and arrays have
    no items (AttributeError). *)
Definition items (t : tree da) : result (list (string * tree da)) :=
  match t with
  | Dict kvs => Ok kvs
  | Dset kvs => Ok (map (fun kv => (fst kv, Leaf (snd kv))) kvs)
  | _ => Err AttributeError
  end.

(** baseline_comparison.py 140-164 *)
Definition combine_aggregation_states (s b : state) : result state :=
  match s, b with
  | Some (ws, w), Some (bws, bw) =>
      do main_sum_w <- items w;
      do main_sum_ws <- items ws;
      do baseline_sum_w <- items bw;
      do baseline_sum_ws <- items bws;
      Ok (Some (Dict (dict_of (prefixed main_ (fun v => v) main_sum_ws ++ prefixed baseline_ (fun v => v) baseline_sum_ws)),
                Dict (dict_of (prefixed main_ (fun v => v) main_sum_w ++ prefixed baseline_ (fun v => v) baseline_sum_w))))
  | _, _ => Err AttributeError
  end.

(** baseline_comparison.py 167-179 *)
Definition for_metrics (metrics : dict string (metric da)) (baseline_metrics : option (dict string (metric da)))
  (cmp : comparison) : result (dict string (metric da)) :=
  let bs := match baseline_metrics with Some b => b | None => metrics end in
  mapM (fun n => do m <- dgetE metrics n; do b <- dgetE bs n; Ok (n, BaselineComparison m (Some b) cmp))
       (filter (fun n => memb n (keys bs)) (keys metrics)).

(** What the inference methods do with a state (bootstrap.py 156-160 and
    aggregation.py 129-133): metric values of the mean statistics. *)
Definition state_metrics (metrics : dict string (metric da)) (s : state) : result (dict string (vars da)) :=
  do m <- mean_statistics s;
  do n <- nested m;
  compute_metrics_from_statistics metrics n.
