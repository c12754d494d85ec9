(** Vocabulary for the inference methods: states as statistic -> variable -> pair of arrays,
    and explicit resampling. *)
From Coq Require Import String ZArith List Bool Reals.
Import ListNotations.
From Verif Require Import Prelude Values Model_XArray Spec_XArray Model_Tree Model_MetricsBase Model_Aggregation.
Local Open Scope R_scope.
Local Open Scope list_scope.

(** For every statistic and variable the array of weighted statistics and the array of weights. *)
Definition table := dict string (dict string (da * da)).
Definition nested_map {X Y} (f : X -> Y) (st : dict string (dict string X)) : dict string (dict string Y) :=
  map (fun kv => (fst kv, map (fun va => (fst va, f (snd va))) (snd kv))) st.
Definition tree_of {X} (st : dict string (dict string X)) (p : X -> da) : tree da :=
  Dict (map (fun kv => (fst kv, Dict (map (fun va => (fst va, Leaf (p (snd va)))) (snd kv)))) st).
(** The aggregation state with these arrays. *)
Definition state_of (st : table) : state := Some (tree_of st fst, tree_of st snd).
(** Python dicts: no key occurs twice. *)
Definition proper_table {X} (st : dict string (dict string X)) : Prop :=
  NoDup (keys st) /\ forall name vs, In (name, vs) st -> NoDup (keys vs).
(** [x] is the entry of one statistic and variable. *)
Definition entry {X} (st : dict string (dict string X)) (name var : string) (x : X) : Prop :=
  exists vs, dget st name = Some vs /\ dget vs var = Some x.

(** ** Draws *)
(** How often each of the units 0 .. n-1 occurs in the draws. *)
Definition tally (n : nat) (draws : list nat) : list nat := map (count_occ Nat.eq_dec draws) (seq 0 n).
(** The sum of the drawn values, with multiplicity. *)
Definition drawn_sum (xs : list R) (draws : list nat) : R := rsum (map (fun i => nth i xs 0) draws).
(** Rows of np.random.multinomial(n, ...): n counts that add up to n. *)
Definition proper_counts (n : nat) (counts : list (list nat)) : Prop :=
  forall row, In row counts -> length row = n /\ list_sum row = n.

(** The sum of the values of one cluster: [values] are the cluster names of the units. *)
Definition cluster_sum (values : list label) (xs : list R) (c : label) : R :=
  rsum (map snd (filter (fun p => if eq_dec (fst p) c then true else false) (combine values xs))).

(** ** Experimental units *)
(** The array has the units [ls] along dimension [d]. *)
Definition unit_array (d : string) (ls : list label) (a : da) : Prop := wf a /\ dget (dims a) d = Some ls.
(** All arrays of the state, statistics and weights, have the units [ls] along [d]; there is at
    least one. *)
Definition unit_table (d : string) (ls : list label) (st : table) : Prop :=
  proper_table st /\ (exists name var p, entry st name var p) /\
  forall name var ws w, entry st name var (ws, w) -> unit_array d ls ws /\ unit_array d ls w.
(** Non-dimension coordinates do not carry the name of their dimension. *)
Definition proper_coords (a : da) : Prop := forall n c, dget (aux a) n = Some c -> c_dims c <> [n].
(** The rows of counts have one tally of [draws] for replicate [k]. *)
Definition replicate_draws (n : nat) (counts : list (list nat)) (k : nat) (draws : list nat) : Prop :=
  nth_error counts k = Some (tally n draws) /\ forall i, In i draws -> (i < n)%nat.
Definition cluster_draws (names : list label) (counts : list (list nat)) (k : nat) (draws : list label) : Prop :=
  nth_error counts k = Some (map (count_occ eq_dec draws) names) /\ forall c, In c draws -> In c names.
