(** Vocabulary for the stationary bootstrap: which draws a replicate uses, which metrics are computed
    point by point, what a resampled statistic is. *)
From Coq Require Import String ZArith List Bool Reals.
Import ListNotations.
From Verif Require Import Prelude Values Model_XArray Spec_XArray Spec_Reduce Model_Tree Model_MetricsBase Model_Aggregation
  Model_Bootstrap Spec_Bootstrap Model_Resample Spec_Resample.
Local Open Scope R_scope.
Local Open Scope list_scope.

(** The sum of the values of the drawn units, with multiplicity; missing values count as 0. *)
Definition drawn_total (vs : list val) (draws : list nat) : val :=
  vsum (filter (fun v => negb (isnan v)) (map (fun i => nth i vs NaN) draws)).
(** The units drawn for replicate [k], if [rows] has one row of indices per unit. *)
Definition draws_of (rows : list (list Z)) (k : nat) : list nat := map (fun row => Z.to_nat (nth k row 0%Z)) rows.
(** One draw of all indices, from one run of the random number generator. *)
Definition drawn_once (draw : nat -> (nat -> list R) * (nat -> list Z)) (n : nat) (b : R) (rows : list (list Z)) : Prop :=
  exists j, stationary_bootstrap_indices n b (fst (draw j)) (snd (draw j)) = Ok rows.
Definition proper_draws (n n_replicates : nat) (draw : nat -> (nat -> list R) * (nat -> list Z)) : Prop :=
  forall j, proper_rand n_replicates (fst (draw j)) /\ proper_randint n n_replicates (snd (draw j)).

(** All labels of the array are those of [lab]. *)
Definition labelled (lab : string -> list label) (a : da) : Prop := forall d l, dget (dims a) d = Some l -> l = lab d.
(** The metric is computed point by point and variable by variable: where it has a value for a variable,
    all its statistics have the variable, its dimensions are theirs, and its value at a point is [F] of their
    means at that point. *)
Definition pointwise_metric (m : metric da) (F : list val -> val) : Prop :=
  forall means out var a, values_from_mean_statistics m means = Ok out -> dget out var = Some a ->
  exists xs, Forall2 (fun s x => entry means s var x) (keys (statistics m)) xs /\
    forall lab, (forall x, In x xs -> wf x /\ labelled lab x) ->
      wf a /\ labelled lab a /\
      (forall d, In d (dnames a) <-> exists x, In x xs /\ In d (dnames x)) /\
      forall e, point_of (dims a) e -> get a e = F (map (fun x => get x e) xs).

(** The block length for a series of per-unit values: the given one, or the one that arch suggests, at
    least 1 (and 1 if it suggests nan), possibly rounded by [round]. *)
Definition block_length_for (given : option R) (round : option (R -> R)) (arch : list val -> result (option R))
  (series : list val) (b : R) : Prop :=
  match given with
  | Some b0 => b = b0
  | None =>
      (8 <= length series)%nat /\
      exists x b1, arch series = Ok x /\ b1 = match x with Some y => Rmax 1 y | None => 1 end /\
        b = match round with Some f => f b1 | None => b1 end
  end.

(** The arrays of one variable of the statistics of a metric: their labels are those of [lab]. *)
Definition agreeing (lab : string -> list label) (st : table) (m : metric da) (var : string) : Prop :=
  forall n s ws w, dget (statistics m) n = Some s -> entry st (unique_name s) var (ws, w) -> labelled lab ws /\ labelled lab w.
(** The weighted statistics and the weights of one variable, in the order of the metric's statistics. *)
Definition arrays_for (st : table) (m : metric da) (var : string) (ps : list (da * da)) : Prop :=
  Forall2 (fun n p => exists s, dget (statistics m) n = Some s /\ entry st (unique_name s) var p) (keys (statistics m)) ps.
