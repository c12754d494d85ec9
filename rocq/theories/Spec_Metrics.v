(** Vocabulary for the properties of metrics/base.py: registration order, names, what a
    metric sees when it is evaluated alone. *)
From Coq Require Import String List Bool.
Import ListNotations.
From Verif Require Import Prelude Values Model_XArray Model_Tree Model_MetricsBase Model_Aggregation Spec_Aggregator.
Local Open Scope list_scope.

(** All statistics of all metrics, in the order in which they are listed. *)
Definition registered {A} (metrics : dict string (metric A)) : list (statistic A) :=
  flat_map (fun nm => map snd (statistics (snd nm))) metrics.

(** The distinct strings of a list in the order of their first occurrence. *)
Fixpoint first_occurrences (l : list string) : list string :=
  match l with
  | [] => []
  | x :: l' => x :: filter (fun y => negb (String.eqb x y)) (first_occurrences l')
  end.

(** [s] is the last statistic of the list with its name. *)
Definition last_named {A} (l : list (statistic A)) (s : statistic A) : Prop :=
  exists l1 l2, l = l1 ++ s :: l2 /\ forall s', In s' l2 -> unique_name s' <> unique_name s.

(** Statistics of the same name compute the same on these inputs. *)
Definition names_identify {A} (metrics : dict string (metric A)) (p t : vars A) : Prop :=
  forall s s', In s (registered metrics) -> In s' (registered metrics) ->
    unique_name s = unique_name s' -> compute s p t = compute s' p t.

(** What a user does: compute the statistics, aggregate, take means, compute the metrics
    (aggregation.py 404-428 without the final flattening into one Dataset). *)
Definition evaluate (g : aggregator) (metrics : dict string (metric da)) (p t : vars da)
  : result (dict string (vars da)) :=
  do stats <- compute_unique_statistics metrics p t;
  do s <- aggregate_statistics g (map (fun kv => (fst kv, map (fun va => (fst va, Some (snd va))) (snd kv))) stats);
  do m <- mean_statistics s;
  do n <- nested m;
  compute_metrics_from_statistics metrics n.

(** The mean of one statistic on its own: aggregate nothing but it. *)
Definition own_mean (g : aggregator) (p t : vars da) (s : statistic da) (mean : vars da) : Prop :=
  exists raw st m,
    compute s p t = Ok raw /\
    aggregate_statistics g [(unique_name s, map (fun va => (fst va, Some (snd va))) raw)] = Ok st /\
    mean_statistics st = Ok m /\ nested m = Ok [(unique_name s, mean)].

Fixpoint occurs (c : Ascii.ascii) (s : string) : Prop :=
  match s with EmptyString => False | String a s' => a = c \/ occurs c s' end.

(** Arrays that agree on the labels of every dimension they share. *)
Definition same_labels (a b : da) : Prop :=
  forall d l l', dget (dims a) d = Some l -> dget (dims b) d = Some l' -> l = l'.
