(** Specification vocabulary for the files the aggregated Beam pipeline writes (C69). *)
From Coq Require Import String Ascii List Bool.
Import ListNotations.
From Verif Require Import Prelude Values Model_XArray Spec_XArray Model_MetricsBase Model_Aggregation Spec_Aggregator Spec_RoundTrip Model_TimeChunks Model_Beam Spec_Beam.
Local Open Scope string_scope.
Local Open Scope list_scope.

(** The same variables with the same arrays; the order of the variables does not matter. *)
Definition same_vars (x y : vars da) : Prop :=
  NoDup (keys x) /\ NoDup (keys y) /\ forall v, opt_rel same_array (dget x v) (dget y v).
(** The same statistics, each with the same variables and arrays. *)
Definition same_tables (x y : dict string (vars da)) : Prop :=
  forall k, opt_rel same_vars (dget x k) (dget y k).
(** The same dataset: same variable names, equal arrays. *)
Definition same_dataset (x y : dict string da) : Prop := forall n, opt_rel same_array (dget x n) (dget y n).

(** The metric looks at its mean statistics as labelled arrays only: not at the order of
    variables, dimensions or labels. *)
Definition extensional (m : metric da) : Prop := forall vals vals' r, same_tables vals vals' ->
  values_from_mean_statistics m vals = Ok r -> exists r', values_from_mean_statistics m vals' = Ok r' /\ same_vars r r'.

(** The metric values of a state before they are put into one dataset: metric -> variable -> array. *)
Definition metric_tables (metrics : dict string (metric da)) (s : state) : result (dict string (vars da)) :=
  do m <- mean_statistics s; do n <- nested m; compute_metrics_from_statistics metrics n.

(** Metric values that one dataset can hold: names and variables distinct, arrays with
    distinct dimensions and labels, one set of labels per dimension, and no two pairs with the
    same "<metric>.<variable>". *)
Record clean (mv : dict string (vars da)) : Prop := {
  cl_names : NoDup (keys mv);
  cl_vars : forall n vs, In (n, vs) mv -> NoDup (keys vs);
  cl_wf : forall n vs v a, In (n, vs) mv -> In (v, a) vs -> wf a;
  cl_labels : forall n vs v a n' vs' v' b, In (n, vs) mv -> In (v, a) vs -> In (n', vs') mv -> In (v', b) vs' -> labels_agree a b;
  cl_unamb : forall n vs v a n' vs' v' b, In (n, vs) mv -> In (v, a) vs -> In (n', vs') mv -> In (v', b) vs' ->
    (n ++ "." ++ v)%string = (n' ++ "." ++ v')%string -> n = n' /\ v = v' }.


(** Either case of C08: weights and bin masks look at each time separately; the labels of the
    bins may depend on the chunk if values and masks are finite. *)
Definition per_time (tc : time_chunks) (g : aggregator) (full : dict string (vars da)) : Prop :=
  (forall w, In w (weigh_by g) -> time_local [] w) /\
  ((forall b, In b (bin_by g) -> time_local [] (create_bin_mask b)) \/
   (forall b, In b (bin_by g) -> ~ time_dim (bin_dim_name b) /\
      time_local [bin_dim_name b] (create_bin_mask b) /\ zero_where_missing (create_bin_mask b)) /\
   (forall k v st, stat full k v = Some st -> varying_bins (tc_iter tc) g st)).

(** Every statistic has a variable the Aggregator keeps. *)
Definition each_statistic_kept (full : dict string (vars da)) (s : state) : Prop :=
  forall k, In k (keys full) -> exists v a, entry (part SumWeights s) k v = Some a.

(** Equal entries. *)
Definition same_entries (s s' : state) : Prop :=
  forall ty k v, opt_rel same_array (entry (part ty s) k v) (entry (part ty s') k v).

(** A state one dataset can hold: statistic and variable names that are not empty, "." or ".."
    and contain neither "/" nor "#", and one set of labels per dimension. *)
Definition storable (s : state) : Prop :=
  (forall ty k v a, entry (part ty s) k v = Some a -> plain_name "#" k /\ plain_name "#" v) /\
  (forall ty k v a ty' k' v' b, entry (part ty s) k v = Some a -> entry (part ty' s) k' v' = Some b -> labels_agree a b).

(** What a netCDF encoder and decoder owe: a dataset that can be encoded is read back with
    the same variables in the same order and equal arrays. *)
Definition netcdf_law (to_netcdf : dict string da -> result (list nat)) (open_netcdf : list nat -> result (dict string da)) : Prop :=
  forall d b, (forall n a, In (n, a) d -> wf a) -> to_netcdf d = Ok b ->
    exists d', open_netcdf b = Ok d' /\ items_rel same_array d' d.
