(** Vocabulary for categorical scores. *)
From Coq Require Import String List Bool Reals ZArith.
Import ListNotations.
From Verif Require Import Prelude Values Model_XArray Model_MetricsBase Model_Aggregation Spec_Aggregator Spec_Means Spec_Reduce Model_Calendar Model_Categorical.
Local Open Scope R_scope.

(** At the point [e] of the results the means of true positives, true negatives, false
    positives and false negatives of the variable [v] are [tp], [tn], [fp], [fn]. *)
Definition table_at (g : aggregator) (p t : vars da) (v : string) (e : env) (tp tn fp fn : R) : Prop :=
  0 <= tp /\ 0 <= tn /\ 0 <= fp /\ 0 <= fn /\
  exists a b c d,
    metric_value g p t (metric_of_statistic TruePositives) v a /\ get a e = Fin tp /\
    metric_value g p t (metric_of_statistic TrueNegatives) v b /\ get b e = Fin tn /\
    metric_value g p t (metric_of_statistic FalsePositives) v c /\ get c e = Fin fp /\
    metric_value g p t (metric_of_statistic FalseNegatives) v d /\ get d e = Fin fn.

(** The value of the metric [m] for the variable [v] at [e]. *)
Definition score (g : aggregator) (p t : vars da) (m : metric da) (v : string) (e : env) (x : val) : Prop :=
  exists a, metric_value g p t m v a /\ x = get a e.

(** [x] is the quotient [n / d], or NaN if [d] is 0. *)
Definition quotient (n d : R) (x : val) : Prop := (d = 0 /\ x = NaN) \/ (d <> 0 /\ x = Fin (n / d)).

(** ** SEEPS: the categories of Rodwell et al. (2010) and their error matrix *)
Inductive category := Dry | Light | Heavy.
Definition cat_of (dry wet x : R) : category := if Rle_dec x dry then Dry else if Rlt_dec x wet then Light else Heavy.
(** rows: forecast, columns: truth *)
Definition seeps_error (p1 : R) (f o : category) : R :=
  match f, o with
  | Dry, Dry => 0 | Dry, Light => 1 / (2 * (1 - p1)) | Dry, Heavy => 4 / (2 * (1 - p1))
  | Light, Dry => 1 / (2 * p1) | Light, Light => 0 | Light, Heavy => 3 / (2 * (1 - p1))
  | Heavy, Dry => (1 / p1 + 3 / (2 + p1)) / 2 | Heavy, Light => 3 / (2 * (2 + p1)) | Heavy, Heavy => 0
  end.
(** Climatological frequencies: dry p1, and light twice as frequent as heavy. *)
Definition clim_freq (p1 : R) (c : category) : R :=
  match c with Dry => p1 | Light => 2 * (1 - p1) / 3 | Heavy => (1 - p1) / 3 end.

(** The time coordinate [name] of [a] at the point [e] (a dimension or a non-dimension
    coordinate). *)
Definition time_at (a : da) (name : string) (e : env) : option Z :=
  match dget (dims a) name with
  | Some _ => Some (match e name with LZ z => z | _ => 0%Z end)
  | None => match dget (aux a) name with Some c => Some (match c_get c e with LZ z => z | _ => 0%Z end) | None => None end
  end.
(** The time coordinates of [a] are over dimensions of [a]. *)
Definition times_ok (a : da) : Prop :=
  forall n c, In n ["init_time"; "lead_time"]%string -> dget (aux a) n = Some c ->
    (forall d, In d (c_dims c) -> In d (dnames a)) /\
    (forall e e', (forall d, In d (c_dims c) -> e d = e' d) -> c_get c e = c_get c e').
(** The point [e] lies in [a] apart from the dimensions [D]. *)
Definition point_outside (D : list string) (a : da) (e : env) : Prop :=
  forall d ls, In (d, ls) (dims a) -> ~ In d D -> In (e d) ls.
(** The wet threshold at [e]: that of the day of the year and hour of the valid time. *)
Definition wet_threshold_at (wc p : da) (e : env) (w : val) : Prop :=
  exists i l, time_at p "init_time" e = Some i /\ time_at p "lead_time" e = Some l /\
    w = get wc (upd (upd e "dayofyear" (LZ (dayofyear (i + l)))) "hour" (LZ (hour_of (i + l)))).
(** The dry fraction at [e]: the average over hours and days of the year. *)
Definition dry_fraction_at (dc : da) (e : env) (q : R) : Prop :=
  exists P, reduced_points [dc] ["hour"; "dayofyear"]%string e P /\ average_of_valid (map (get dc) P) q.
