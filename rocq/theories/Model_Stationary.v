(** Model of the StationaryBootstrap class (weatherbenchX/statistical_inference/bootstrap.py 262-555)
    and of logarithmic_round (statistical_inference/utils.py 71-73). *)
From Coq Require Import String ZArith List Bool Reals.
Import ListNotations.
From Verif Require Import Prelude Values Model_XArray Model_Tree Model_MetricsBase Model_Aggregation Model_Ensemble
  Model_Baseline Model_Bootstrap Model_Resample Model_Autodiff.
Local Open Scope R_scope.
Local Open Scope string_scope.
Local Open Scope list_scope.

(** np.ndarray.round() to integers: the nearest one, halves to the even one. *)
Definition round_half_even (x : R) : Z :=
  let f := Int_part x in
  if Rltb (x - IZR f) (1 / 2) then f
  else if Rltb (1 / 2) (x - IZR f) then (f + 1)%Z
  else if Z.even f then f else (f + 1)%Z.
(** utils.py 71-73, without float rounding *)
Definition log10 (x : R) : R := ln x / ln 10.
Definition logarithmic_round (x resolution : R) : R :=
  Rpower 10 (IZR (round_half_even (log10 x * resolution)) / resolution).

(** ** functools.lru_cache (387-389): the arguments that vary are n_data and mean_block_length.
    Most recently used entries first; [maxsize] entries are kept. *)
Definition key := (nat * R)%type.
Definition key_eqb (a b : key) : bool := Nat.eqb (fst a) (fst b) && Reqb (snd a) (snd b).
Definition cache := list (key * list (list Z)).
Fixpoint cache_find (k : key) (c : cache) : option (list (list Z)) :=
  match c with [] => None | (k', v) :: c' => if key_eqb k k' then Some v else cache_find k c' end.
Definition cache_without (k : key) (c : cache) : cache := filter (fun kv => negb (key_eqb k (fst kv))) c.
(** The state of the object: the cache and the number of times indices have been drawn. *)
Definition cache_state := (cache * nat)%type.

(** A loop whose body changes the state. *)
Fixpoint mapM_state {S A B} (f : A -> S -> result (B * S)) (l : list A) (s : S) : result (list B * S) :=
  match l with
  | [] => Ok ([], s)
  | a :: l' => do bs <- f a s; do rs <- mapM_state f l' (snd bs); Ok (fst bs :: fst rs, snd rs)
  end.

(** xarray_tree.map_structure on statistic -> variable -> array. *)
Definition map_nested {A B} (f : A -> result B) (t : dict string (dict string A)) : result (dict string (dict string B)) :=
  mapM (fun kv => do vs <- mapM (fun va => do x <- f (snd va); Ok (fst va, x)) (snd kv); Ok (fst kv, vs)) t.
(** With two trees; different keys are an error (here KeyError). *)
Definition map_nested2 (f : da -> da -> da) (t u : dict string (dict string da)) : result (dict string (dict string da)) :=
  mapM (fun kv => do uv <- dgetE u (fst kv);
                  do vs <- mapM (fun va => do y <- dgetE uv (fst va); Ok (fst va, f (snd va) y)) (snd kv);
                  Ok (fst kv, vs)) t.
(** The arrays of the tree, in order. *)
Definition arrays_of (t : dict string (dict string da)) : list da := concat (map (fun kv => map snd (snd kv)) t).

Section StationaryBootstrap.
  (** Constructor arguments (347-357) *)
  Variable unit_dim : string.
  Variable n_replicates : nat.
  Variable mean_block_length : option R.
  Variable rounding_resolution : option R.
  Variable cache_size : nat.
  (** arch.bootstrap.optimal_block_length(x).stationary.item(); [None] is nan *)
  Variable arch : list val -> result (option R).
  (** What np.random.rand and np.random.randint return in the n-th execution of
      stationary_bootstrap_indices. *)
  Variable draw : nat -> (nat -> list R) * (nat -> list Z).
  Variable linearize : (state -> result metric_arrays) -> state -> state -> result metric_arrays.

  (** 428-439 [max(1.0, result)] (1.0 for nan), then rounding *)
  Definition from_arch (r : option R) : R :=
    let b := match r with Some x => Rmax 1 x | None => 1 end in
    match rounding_resolution with Some res => logarithmic_round b res | None => b end.
  (** 415-416 data_array.squeeze().data for a one-dimensional result *)
  Definition squeezed (a : da) : result (list val) :=
    let at_single := fun k => match dget (dims a) k with Some (l :: _) => l | _ => LZ 0 end in
    match filter (fun p => negb (Nat.eqb (length (snd p)) 1)) (dims a) with
    | [(k, ls)] => Ok (map (fun l => get a (upd at_single k l)) ls)
    | _ => Err AssertionError
    end.
  (** 403-439 _optimal_block_length *)
  Definition optimal_block_length (a : da) : result R :=
    match mean_block_length with
    | Some b => Ok b
    | None =>
        match dget (dims a) unit_dim with
        | None => Err AssertionError                                        (* 407 *)
        | Some ls =>
            if Nat.ltb (length ls) 8 then Err ValueError                    (* 408-414 *)
            else do xs <- squeezed a; do r <- arch xs; Ok (from_arch r)
        end
    end.

  (** 387-389, 535-539 self._stationary_bootstrap_indices *)
  Definition cached_indices (k : key) (s : cache_state) : result (list (list Z) * cache_state) :=
    match cache_find k (fst s) with
    | Some rows => Ok (rows, ((k, rows) :: cache_without k (fst s), snd s))
    | None =>
        let '(rand, randint) := draw (snd s) in
        do rows <- stationary_bootstrap_indices (fst k) (snd k) rand randint;
        Ok (rows, (firstn cache_size ((k, rows) :: fst s), Datatypes.S (snd s)))
    end.

  (** 524-555 _bootstrap_results_for_metric_scalar *)
  Definition results_for_metric_scalar (m : metric da) (var : string) (tangents : da)
    (stats weights : dict string (dict string da)) (s : cache_state) : result (da * cache_state) :=
    match dget (dims tangents) unit_dim with
    | None => Err KeyError
    | Some ls =>
        do b <- optimal_block_length tangents;
        do rs <- cached_indices (length ls, b) s;
        do sums <- map_nested (sum_of_resampled unit_dim (fst rs) n_replicates) stats;
        do sums_w <- map_nested (sum_of_resampled unit_dim (fst rs) n_replicates) weights;
        do means <- map_nested2 (binop vdiv) sums sums_w;
        do values <- values_from_mean_statistics m means;
        do v <- dgetE values var;
        Ok (v, snd rs)
    end.

  (** utils.py 79-138 apply_to_slices on (tangents, stats, weights), with the state of the cache *)
  Definition results_by_slice (m : metric da) (var : string) (D : list string) (tangents : da)
    (stats weights : dict string (dict string da)) (s : cache_state) : result (da * cache_state) :=
    do sizes <- all_sizes D (tangents :: arrays_of stats ++ arrays_of weights) [];
    do shape <- mapM (fun d => match dget sizes d with Some n => Ok n | None => Err ValueError end) D;
    do rs <- mapM_state (fun idx s' =>
               do st <- map_nested (fun x => Ok (slice_arg D idx x)) stats;
               do sw <- map_nested (fun x => Ok (slice_arg D idx x)) weights;
               results_for_metric_scalar m var (slice_arg D idx tangents) st sw s') (ndindex shape) s;
    match fst rs with
    | [] => Err ValueError
    | _ => Ok (combine_by_coords (fst rs), snd rs)
    end.

  (** 463-492: the statistics restricted to one variable, if there are several and each statistic has it *)
  Definition only_var (var : string) (t : dict string (dict string da)) : result (dict string (dict string da)) :=
    mapM (fun kv => do x <- dgetE (snd kv) var; Ok (fst kv, [(var, x)])) t.
  (** 441-522 _bootstrap_results_for_metric *)
  Definition results_for_metric (m : metric da) (points tangents : dict string da)
    (all_stats all_weights : dict string (dict string da)) (s : cache_state) : result (dict string da * cache_state) :=
    do stats <- mapM (fun kv => do x <- dgetE all_stats (unique_name (snd kv)); Ok (fst kv, x)) (statistics m);
    do weights <- mapM (fun kv => do x <- dgetE all_weights (unique_name (snd kv)); Ok (fst kv, x)) (statistics m);
    mapM_state (fun va s' =>
      do sw <- (if Nat.ltb 1 (length points) && forallb (fun kv => memb (fst va) (keys (snd kv))) stats
                then do a <- only_var (fst va) stats; do b <- only_var (fst va) weights; Ok (a, b)
                else Ok (stats, weights));
      do t <- dgetE tangents (fst va);
      do r <- results_by_slice m (fst va) (dnames (snd va)) t (fst sw) (snd sw) s';
      Ok ((fst va, fst r), snd r)) points s.

  (** 347-401 __init__: point estimates and resampled values *)
  Definition stationary_bootstrap (metrics : dict string (metric da)) (s : state)
    : result (metric_arrays * metric_arrays) :=
    do vt <- per_unit_values_linearized linearize metrics s unit_dim;
    match s with
    | None => Err AttributeError
    | Some (ws, w) =>
        do stats <- nested ws;
        do weights <- nested w;
        do rs <- mapM_state (fun nm s' =>
                   do p <- dgetE (fst vt) (fst nm);
                   do t <- dgetE (snd vt) (fst nm);
                   do r <- results_for_metric (snd nm) p t stats weights s';
                   Ok ((fst nm, fst r), snd r)) metrics ([], O);
        Ok (fst vt, fst rs)
    end.
End StationaryBootstrap.
