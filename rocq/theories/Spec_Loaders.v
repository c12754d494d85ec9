(** Specification vocabulary for data loaders. *)
From Coq Require Import String ZArith List Bool Permutation.
Import ListNotations.
From Verif Require Import Prelude Values Model_XArray Spec_XArray Model_MetricsBase Model_TimeChunks Spec_Calendar.
Local Open Scope Z_scope.
Local Open Scope string_scope.
Local Open Scope list_scope.

(** The array [b] answers from the array [a]: the dimensions [gone] are replaced by the
    dimensions [new], all others are kept, and the value at a point [e] of [b] is the one of [a]
    at the points [e'] with [source_point e e']. *)
Record answers (gone : list string) (new : dimlist) (source_point : env -> env -> Prop) (a b : da) : Prop := {
  an_wf : wf b;
  an_new : forall d ls, In (d, ls) new -> dget (dims b) d = Some ls;
  an_gone : forall d, In d gone -> ~ In d (map fst new) -> ~ In d (dnames b);
  an_kept : forall d, ~ In d gone -> ~ In d (map fst new) -> dget (dims b) d = dget (dims a) d;
  an_value : forall e e', point_of (dims b) e -> source_point e e' -> get b e = get a e' }.
(** The chunk has the variables of the data set; those with [touched] answer by [rel], the others
    are unchanged. *)
Definition chunk_of (ds : vars da) (touched : da -> Prop) (rel : da -> da -> Prop) (out : vars da) : Prop :=
  keys out = keys ds /\
  forall v a, dget ds v = Some a -> exists b, dget out v = Some b /\ (touched a -> rel a b) /\ (~ touched a -> b = a).
(** A data set: distinct variable names, well-formed arrays. *)
Definition dataset (ds : vars da) : Prop := NoDup (keys ds) /\ forall v a, In (v, a) ds -> wf a.
(** [e'] differs from [e] at most at the dimensions [ds]. *)
Definition same_except (ds : list string) (e e' : env) : Prop := forall d, ~ In d ds -> e' d = e d.

(** The data set has the dimension [d] (in some variable). *)
Definition dataset_dim (ds : vars da) (d : string) : Prop := exists v a, In (v, a) ds /\ In d (dnames a).

(** The point is at init time [t] and lead time [l]. *)
Definition at_time (e : env) (t l : Z) : Prop := e "init_time" = LZ t /\ e "lead_time" = LZ l.

(** [T] is the hour of [t] at the same day of the year in year [y] (counted from 1 January of [y],
    so that day 366 of a year with 365 days is the next 1 January). *)
Definition same_hour_in_year (y t T : Z) : Prop :=
  exists y0 mo d doy day h mi s D, civil t y0 mo d doy day h mi s /\ jan1 y D /\
    T = ((D + doy - 1) * 24 + h) * 3600 * 1000000000.

(** ** Latency *)
(** The run started at [n] has been issued by time [t], and is the latest such run. *)
Definition issued (latency t n : Z) : Prop := n + latency <= t.
Definition latest_issued (nominal : list Z) (latency t n : Z) : Prop :=
  In n nominal /\ issued latency t n /\ forall n', In n' nominal -> issued latency t n' -> n' <= n.
(** The source answers a request for one run and some lead times with arrays over exactly these. *)
Definition gridded (src : list Z -> option lead_chunk -> result (vars da)) : Prop :=
  forall n leads c v a, src [n] (Some (ChunkArr leads)) = Ok c -> NoDup leads -> dget c v = Some a ->
    wf a /\ dget (dims a) "init_time" = Some [LZ n] /\ dget (dims a) "lead_time" = Some (map LZ leads).
(** For the query [t], the array [b] has the values of the run [n] in [raw], at the lead times
    counted from [n] (so that the valid time is the same), and NaN where [raw] has no such point. *)
Definition served_by (t n : Z) (raw b : da) : Prop :=
  forall e e' l, at_time e t l -> at_time e' n (l + (t - n)) -> same_except ["init_time"; "lead_time"] e e' ->
    (point_of (dims raw) e' -> get b e = get raw e') /\ (~ point_of (dims raw) e' -> get b e = NaN).

(** np.argsort on pairs: a permutation of the positions, lexicographically increasing. *)
Definition lex_le (x y : Z * Z) : Prop := fst x < fst y \/ (fst x = fst y /\ snd x <= snd y).
Definition argsort_ok (argsort : list (Z * Z) -> list nat) : Prop :=
  forall l, Permutation (argsort l) (seq 0 (length l)) /\
    forall i j k x y, nth_error (argsort l) i = Some x -> nth_error (argsort l) j = Some y -> (i <= j)%nat -> k = (0, 0) -> lex_le (nth x l k) (nth y l k).
Definition whole_second (t : Z) : Prop := exists s, t = s * 1000000000.
