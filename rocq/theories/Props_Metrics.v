(** C17, C18, C20, C55: metrics/base.py and AggregationState.metric_values. *)
From Coq Require Import String Ascii List Bool Arith ZArith Reals.
Import ListNotations.
From Verif Require Import Prelude Values Model_XArray Spec_XArray Model_Tree Model_MetricsBase Model_Aggregation
  Spec_Aggregation Spec_Aggregator Spec_Metrics Proofs_Metrics Proofs_MetricValues.
Local Open Scope string_scope.
Local Open Scope list_scope.

(** ** C17 *)
(** One entry per distinct name, in first-occurrence order; its value is what the last
    registered statistic of that name computes. *)
Theorem C17_one_entry_per_name : forall (A : Type) (metrics : dict string (metric A)) p t r,
  compute_unique_statistics metrics p t = Ok r ->
  keys r = first_occurrences (map unique_name (registered metrics)) /\
  (forall k v, dget r k = Some v <->
     exists s, last_named (registered metrics) s /\ unique_name s = k /\ compute s p t = Ok v).
Proof. intros A metrics p t r H. exact (unique_values metrics p t r H). Qed.
Print Assumptions C17_one_entry_per_name.

(** The only exception is ValueError, raised exactly when one of those computations raises. *)
Theorem C17_exceptions : forall (A : Type) (metrics : dict string (metric A)) p t,
  (forall e, compute_unique_statistics metrics p t = Err e ->
     e = ValueError /\ exists s e', last_named (registered metrics) s /\ compute s p t = Err e') /\
  (forall s e, last_named (registered metrics) s -> compute s p t = Err e ->
     compute_unique_statistics metrics p t = Err ValueError).
Proof. intros A metrics p t. split; [exact (unique_fails metrics p t)|exact (unique_fails_conv metrics p t)]. Qed.
Print Assumptions C17_exceptions.

Definition ex_s1 : statistic nat := mkStat "MSE" (fun p _ => Ok p).
Definition ex_s2 : statistic nat := mkStat "MAE" (fun _ _ => Err KeyError).
Definition ex_s3 : statistic nat := mkStat "MSE" (fun _ t => Ok t).
Example C17_example :
  let m1 := mkMetric [("a", ex_s1)] (fun v => dgetE v "a") in
  let m2 := metric_of_statistic ex_s3 in
  compute_unique_statistics [("rmse", m1); ("mse", m2)] [("x", 1%nat)] [("x", 2%nat)] = Ok [("MSE", [("x", 2%nat)])]
  /\ compute_unique_statistics [("rmse", m1); ("mae", metric_of_statistic ex_s2)] [("x", 1%nat)] [("x", 2%nat)] = Err ValueError.
Proof. split; reflexivity. Qed.

(** ** C18 *)
(** Mapping outputs have distinct keys. *)
Definition mapping_outputs (metrics : dict string (metric da)) p t : Prop :=
  forall s v, In s (registered metrics) -> compute s p t = Ok v -> NoDup (keys v).

(** Every metric in the collection gets the value it gets alone... *)
Theorem C18_alone : forall g (metrics : dict string (metric da)) p t mv n m,
  mapping_outputs metrics p t -> names_identify metrics p t -> NoDup (keys metrics) ->
  evaluate g metrics p t = Ok mv -> In (n, m) metrics ->
  exists v, dget mv n = Some v /\ evaluate g [(n, m)] p t = Ok [(n, v)].
Proof. intros g metrics p t mv n m H1 H2 H3 H4 H5. exact (alone g p t metrics mv n m H1 H2 H3 H4 H5). Qed.
Print Assumptions C18_alone.

(** ... namely its own formula on the means of its own statistics, each aggregated on its
    own; and there are no other entries. *)
Theorem C18_own_means : forall g (metrics : dict string (metric da)) p t mv,
  mapping_outputs metrics p t -> names_identify metrics p t ->
  evaluate g metrics p t = Ok mv ->
  keys mv = keys metrics /\
  forall n m, In (n, m) metrics -> exists v means, In (n, v) mv /\
    items_rel (own_mean g p t) (statistics m) means /\ values_from_mean_statistics m means = Ok v.
Proof. intros g metrics p t mv H1 H2 H3. exact (evaluate_each g p t metrics mv H1 H2 H3). Qed.
Print Assumptions C18_own_means.

(** A failure of the collection is a failure of one metric alone. *)
Theorem C18_failures : forall g (metrics : dict string (metric da)) p t e,
  mapping_outputs metrics p t -> names_identify metrics p t ->
  evaluate g metrics p t = Err e -> exists n m e', In (n, m) metrics /\ evaluate g [(n, m)] p t = Err e'.
Proof. intros g metrics p t e H1 H2 H3. exact (fails_alone g p t metrics e H1 H2 H3). Qed.
Print Assumptions C18_failures.

Local Open Scope R_scope.
Definition ex_da (x : R) : da := mkDa [("x", [LZ 0; LZ 1])] (fun e => if eqb (e "x") (LZ 0) then Fin x else Fin 1) [].
Definition ex_stat_p : statistic da := per_variable_statistic "P" (fun p _ => Ok (Some p)).
Definition ex_stat_t : statistic da := per_variable_statistic "T" (fun _ t => Ok (Some t)).
Definition ex_metrics : dict string (metric da) :=
  [("ratio", per_variable_metric [("num", ex_stat_p); ("den", ex_stat_t)]
      (fun l => match l with [(_, a); (_, b)] => Ok (binop vdiv a b) | _ => Err KeyError end));
   ("p", metric_of_statistic ex_stat_p)].
Definition ex_plain : aggregator := mkAgg ["x"%string] [] [] false false.
Local Close Scope R_scope.
Definition ex_p : vars da := [("u", ex_da 3); ("v", ex_da 4)].
Definition ex_t : vars da := [("u", ex_da 5); ("w", ex_da 6)].
Example C18_example_hyps : mapping_outputs ex_metrics ex_p ex_t /\ names_identify ex_metrics ex_p ex_t /\ NoDup (keys ex_metrics).
Proof.
  split; [|split].
  - intros s v [<-|[<-|[<-|[]]]] [= <-]; repeat constructor; simpl; intuition discriminate.
  - intros s s' [<-|[<-|[<-|[]]]] [<-|[<-|[<-|[]]]]; simpl; try discriminate; reflexivity.
  - repeat constructor; simpl; intuition discriminate.
Qed.
Example C18_example_runs : exists mv, evaluate ex_plain ex_metrics ex_p ex_t = Ok mv /\ keys mv = ["ratio"; "p"]
  /\ map (fun kv => keys (snd kv)) mv = [["u"]; ["u"]].
Proof. eexists. split; [reflexivity|]. split; reflexivity. Qed.

(** Without the naming hypothesis the value of a metric depends on its neighbours. *)
Example C18_shared_name_refuted :
  let a := mkStat "S" (fun p _ => Ok p) in
  let b := mkStat "S" (fun _ t => Ok t) in
  compute_unique_statistics [("a", metric_of_statistic a)] ex_p ex_t = Ok [("S", ex_p)] /\
  compute_unique_statistics [("a", metric_of_statistic a); ("b", metric_of_statistic b)] ex_p ex_t = Ok [("S", ex_t)].
Proof. split; reflexivity. Qed.

(** ** C20 *)
(** Statistics: a variable appears iff it is in both inputs and its result is not None;
    its value is the per-variable function of that variable's two arrays. *)
Theorem C20_statistic : forall (A : Type) name (f : A -> A -> result (option A)) p t r,
  NoDup (keys p) -> compute (per_variable_statistic name f) p t = Ok r ->
  NoDup (keys r) /\
  forall v x, dget r v = Some x <-> exists a b, dget p v = Some a /\ dget t v = Some b /\ f a b = Ok (Some x).
Proof. intros A name f p t r H1 H2. exact (per_variable_statistic_spec name f p t r H1 H2). Qed.
Print Assumptions C20_statistic.

(** It raises only if the function raises on some common variable. *)
Theorem C20_statistic_raises : forall (A : Type) name (f : A -> A -> result (option A)) p t e,
  NoDup (keys p) -> compute (per_variable_statistic name f) p t = Err e ->
  exists v a b, dget p v = Some a /\ dget t v = Some b /\ f a b = Err e.
Proof. intros A name f p t e H1 H2. exact (per_variable_statistic_fails name f p t e H1 H2). Qed.
Print Assumptions C20_statistic_raises.

(** Metrics: exactly the variables present in all statistics of the metric, each
    computed from the means of that variable only. *)
Theorem C20_metric : forall (A : Type) stats (f : dict string A -> result A) vals r,
  (forall k t, dget vals k = Some t -> NoDup (keys t)) ->
  values_from_mean_statistics (per_variable_metric stats f) vals = Ok r ->
  NoDup (keys r) /\
  (forall v, In v (keys r) <-> forall s, In s (keys stats) -> exists t, dget vals s = Some t /\ In v (keys t)) /\
  (forall v x, dget r v = Some x ->
     exists per_var, map fst per_var = keys stats /\
       (forall s a, In (s, a) per_var -> exists t, dget vals s = Some t /\ dget t v = Some a) /\ f per_var = Ok x).
Proof. intros A stats f vals r H1 H2. exact (per_variable_metric_spec stats f vals r H1 H2). Qed.
Print Assumptions C20_metric.

Example C20_example :
  compute (per_variable_statistic "D" (fun a b => Ok (if Nat.eqb a b then None else Some (a - b)))) [("x", 5); ("y", 1); ("z", 7)] [("y", 1); ("z", 3); ("w", 0)]
    = Ok [("z", 4)] /\
  values_from_mean_statistics (per_variable_metric [("a", ex_s1); ("b", ex_s1)] (fun l => Ok (length l))) [("b", [("z", 1); ("x", 2)]); ("a", [("x", 9); ("y", 9)])]
    = Ok [("x", 2)].
Proof. split; reflexivity. Qed.

(** ** C55 *)
(** Exactly the names '<metric>.<variable>'. *)
Theorem C55_names : forall mv k, In k (keys (values_dataset mv)) <->
  exists n vs v a, In (n, vs) mv /\ In (v, a) vs /\ k = (n ++ "." ++ v)%string.
Proof. exact values_names. Qed.
Print Assumptions C55_names.

(** Under an unambiguous name stands the metric's value, if all metric values agree on the
    labels of the dimensions they share. *)
Theorem C55_value : forall mv n vs v a,
  (forall n vs v a, In (n, vs) mv -> In (v, a) vs -> NoDup (dnames a)) ->
  (forall n vs v a n' vs' v' b, In (n, vs) mv -> In (v, a) vs -> In (n', vs') mv -> In (v', b) vs' -> same_labels a b) ->
  In (n, vs) mv -> In (v, a) vs ->
  (forall n' vs' v' b, In (n', vs') mv -> In (v', b) vs' -> (n' ++ "." ++ v')%string = (n ++ "." ++ v)%string -> b = a) ->
  exists a', dget (values_dataset mv) (n ++ "." ++ v)%string = Some a' /\ da_equiv a' a.
Proof. exact values_value. Qed.
Print Assumptions C55_value.

(** Names are unambiguous when no metric name (or no variable name) contains a dot. *)
Theorem C55_unambiguous : forall m1 v1 m2 v2,
  (~ occurs "."%char m1 /\ ~ occurs "."%char m2) \/ (~ occurs "."%char v1 /\ ~ occurs "."%char v2) ->
  (m1 ++ "." ++ v1)%string = (m2 ++ "." ++ v2)%string -> m1 = m2 /\ v1 = v2.
Proof. intros m1 v1 m2 v2 [[H1 H2]|[H1 H2]]; [exact (dot_left m1 v1 m2 v2 H1 H2)|exact (dot_right m1 v1 m2 v2 H1 H2)]. Qed.
Print Assumptions C55_unambiguous.

(** Two metrics whose values have different labels along one dimension (say, two thresholds
    sets under 'threshold_value'): the second one loses its labels and becomes NaN. *)
Definition ex_thr (l : list label) (x : R) : da := mkDa [("threshold_value", l)] (fun _ => Fin x) [].
Example C55_different_labels_refuted :
  let mv := [("CSI", [("tp", ex_thr [LZ 1; LZ 5] 1)]); ("ETS", [("tp", ex_thr [LZ 2] 2)])] in
  exists a', dget (values_dataset mv) "ETS.tp" = Some a' /\ dims a' = [("threshold_value", [LZ 1; LZ 5])] /\
    forall e, point_of (dims a') e -> get a' e = NaN.
Proof.
  eexists. split; [reflexivity|]. split; [reflexivity|]. intros e He.
  specialize (He "threshold_value" [LZ 1; LZ 5] (or_introl eq_refl)). simpl.
  destruct He as [<-|[<-|[]]]; reflexivity.
Qed.
Example C55_dotted_names_refuted :
  let mv := [("a", [("b.c", ex_thr [LZ 1] 1)]); ("a.b", [("c", ex_thr [LZ 1] 2)])] in
  keys (values_dataset mv) = ["a.b.c"].
Proof. reflexivity. Qed.
Example C55_example : exists a', dget (values_dataset [("CSI", [("tp", ex_thr [LZ 1; LZ 5] 1)]); ("ETS", [("tp", ex_thr [LZ 1; LZ 5] 2)])]) "ETS.tp" = Some a'
  /\ da_equiv a' (ex_thr [LZ 1; LZ 5] 2).
Proof.
  apply (C55_value _ "ETS" [("tp", ex_thr [LZ 1; LZ 5] 2)] "tp").
  - intros n vs v a [[= <- <-]|[[= <- <-]|[]]] [[= <- <-]|[]]; repeat constructor; intros [].
  - intros n vs v a n' vs' v' b [[= <- <-]|[[= <- <-]|[]]] [[= <- <-]|[]] [[= <- <-]|[[= <- <-]|[]]] [[= <- <-]|[]] d l l';
      simpl; destruct (eq_dec d "threshold_value"); congruence.
  - right. now left.
  - now left.
  - intros n' vs' v' b [[= <- <-]|[[= <- <-]|[]]] [[= <- <-]|[]]; [discriminate|reflexivity].
Qed.
