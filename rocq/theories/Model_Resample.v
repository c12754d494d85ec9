(** Model of weatherbenchX/statistical_inference/utils.py and of the resampling in
    weatherbenchX/statistical_inference/bootstrap.py. *)
From Coq Require Import String ZArith List Bool Reals.
Import ListNotations.
From Verif Require Import Prelude Values Model_XArray Model_Tree Model_MetricsBase Model_Aggregation Model_Ensemble
  Model_Baseline Model_Bootstrap.
Local Open Scope R_scope.
Local Open Scope string_scope.
Local Open Scope list_scope.

(** ** utils.get_and_check_experimental_unit_coord (utils.py 25-68) *)
(** [a.coords[name]]: its dimension and its values, if it is one-dimensional.  Every dimension
    has a coordinate in the model. *)
Definition coord_of (name : string) (a : da) : result (string * list label) :=
  match dget (dims a) name with
  | Some ls => Ok (name, ls)
  | None =>
      match dget (aux a) name with
      | None => Err ValueError                                             (* 45-50 *)
      | Some c =>
          match c_dims c with
          | [d] => Ok (d, map (fun l => c_get c (upd env0 d l)) (labels_of (dims a) d))
          | _ => Err ValueError                                            (* 51-53 *)
          end
      end
  end.
Definition same_labels (a b : list label) : bool := if list_eq_dec eq_dec a b then true else false.
(** 41-66: [coord] is the coordinate of the first array. *)
Fixpoint check_coords (name : string) (check_is_dim : bool) (arrs : list da) (coord : option (string * list label))
  : result (string * list label) :=
  match arrs with
  | [] => match coord with Some c => Ok c | None => Err ValueError end    (* 66-67 *)
  | a :: arrs' =>
      do c <- coord_of name a;
      if check_is_dim && negb (eqb (fst c) name) then Err ValueError       (* 54-55 *)
      else match coord with
           | None => check_coords name check_is_dim arrs' (Some c)
           | Some c0 =>
               if negb (Nat.eqb (length (snd c)) (length (snd c0))) then Err ValueError      (* 58-61 *)
               else if negb (same_labels (snd c) (snd c0)) then Err ValueError                (* 62-63 *)
               else check_coords name check_is_dim arrs' coord
           end
  end.
(** The arrays of [sum_weighted_statistics], in order; the zero state has none (AttributeError). *)
Definition get_and_check_experimental_unit_coord (s : state) (name : string) (check_is_dim : bool)
  : result (string * list label) :=
  match s with
  | None => Err AttributeError
  | Some (ws, _) =>
      do n <- nested ws;
      check_coords name check_is_dim (concat (map (fun kv => map snd (snd kv)) n)) None
  end.

(** ** Resampling by counts *)
Definition REPLICATE_DIM : string := "bootstrap_replicate".
Definition positions (n : nat) : list label := map (fun k => LZ (Z.of_nat k)) (seq 0 n).
Definition position_of (l : label) : nat := match l with LZ z => Z.to_nat z | _ => O end.

(** xr.DataArray(counts, dims=[replicate, d]) without coordinates: arrays are matched by
    position along [d], so it takes the labels [ls] of the array it is multiplied with. *)
Definition counts_array (d : string) (ls : list label) (counts : list (list nat)) : da :=
  mkDa [(REPLICATE_DIM, positions (length counts)); (d, ls)]
       (fun e => Fin (INR (nth (index_of (e d) ls) (nth (position_of (e REPLICATE_DIM)) counts []) O))) [].
(** [xr.dot(x, counts, dim=d)]: sizes along [d] must agree. *)
Definition dot_counts (d : string) (n : nat) (counts : list (list nat)) (x : da) : result da :=
  let ls := if memb d (dnames x) then labels_of (dims x) d else positions n in
  if negb (Nat.eqb (length ls) n) then Err ValueError
  else Ok (da_dot [d] [x; counts_array d ls counts]).
Definition resampled_stats (d : string) (n : nat) (counts : list (list nat)) (s : state) : result state :=
  map_state (dot_counts d n counts) s.

(** bootstrap.py 131-160 IIDBootstrap: point estimates and resampled values.  [counts] is what
    np.random.multinomial returned (one row per replicate). *)
Definition iid_bootstrap (metrics : dict string (metric da)) (s : state) (d : string) (counts : list (list nat))
  : result (dict string (vars da) * dict string (vars da)) :=
  do c <- get_and_check_experimental_unit_coord s d true;
  do r <- resampled_stats d (length (snd c)) counts s;
  do total <- sum_along_dims [d] s;
  do point_estimates <- state_metrics metrics total;
  do resampled_values <- state_metrics metrics r;
  Ok (point_estimates, resampled_values).

(** bootstrap.py 203-217: np.unique sorts the distinct values; here they are in some order,
    which is the order of the columns of [counts]. *)
Definition clusters (values : list label) : list label := nodup eq_dec values.
(** 210, 222: counts.isel(cluster_id=cluster_ids) *)
Definition unit_counts (values : list label) (row : list nat) : list nat :=
  map (fun v => nth (index_of v (clusters values)) row O) values.
(** bootstrap.py 163-235 ClusterBootstrap *)
Definition cluster_bootstrap (metrics : dict string (metric da)) (s : state) (coord : string) (counts : list (list nat))
  : result (dict string (vars da) * dict string (vars da)) :=
  do c <- get_and_check_experimental_unit_coord s coord false;
  let d := fst c in
  do r <- resampled_stats d (length (snd c)) (map (unit_counts (snd c)) counts) s;
  do total <- sum_along_dims [d] s;
  do point_estimates <- state_metrics metrics total;
  do resampled_values <- state_metrics metrics r;
  Ok (point_estimates, resampled_values).

(** bootstrap.py 543-551 sum_of_resampled: [rows] are the bootstrap indices, one row per unit;
    the sum uses the default skipna=True. *)
Definition sum_of_resampled (d : string) (rows : list (list Z)) (n_replicates : nat) (x : da) : result da :=
  if memb d (dnames x) then
    Ok (mkDa (keep (fun k => negb (eqb k d)) (dims x) ++ [(REPLICATE_DIM, positions n_replicates)])
             (fun e => np_sum true (map (fun row =>
                get x (upd e d (nth (Z.to_nat (nth (position_of (e REPLICATE_DIM)) row 0%Z)) (labels_of (dims x) d) (LZ 0)))) rows))
             (aux_without [d] (aux x)))
  else Err ValueError.

(** ** utils.apply_to_slices (utils.py 79-138), for arguments flattened into a list of arrays *)
(** 109-125: sizes of the slice dimensions, checked over all arguments *)
Fixpoint add_sizes (D : list string) (a : da) (sizes : dict string nat) : result (dict string nat) :=
  match D with
  | [] => Ok sizes
  | d :: D' =>
      match dget (dims a) d with
      | None => add_sizes D' a sizes
      | Some ls =>
          match dget sizes d with
          | None => add_sizes D' a (dset sizes d (length ls))
          | Some n => if Nat.eqb n (length ls) then add_sizes D' a sizes else Err ValueError
          end
      end
  end.
Fixpoint all_sizes (D : list string) (args : list da) (sizes : dict string nat) : result (dict string nat) :=
  match args with [] => Ok sizes | a :: args' => do s <- add_sizes D a sizes; all_sizes D args' s end.
(** np.ndindex *)
Fixpoint ndindex (shape : list nat) : list (list nat) :=
  match shape with
  | [] => [[]]
  | n :: shape' => flat_map (fun i => map (cons i) (ndindex shape')) (seq 0 n)
  end.
(** 131-133 [arg.isel({dim: [i]})] *)
Definition slice_arg (D : list string) (idx : list nat) (a : da) : da :=
  mkDa (map (fun p => match dget (combine D idx) (fst p) with
                      | Some i => (fst p, match nth_error (snd p) i with Some l => [l] | None => [] end)
                      | None => p end) (dims a)) (get a) (aux a).
(** 79-138; no slices at all: map_structure without structures (ValueError) *)
Definition apply_to_slices (func : list da -> result da) (args : list da) (D : list string) : result da :=
  do sizes <- all_sizes D args [];
  do shape <- mapM (fun d => match dget sizes d with Some n => Ok n | None => Err ValueError end) D;   (* 126-128 *)
  do results <- mapM (fun idx => func (map (slice_arg D idx) args)) (ndindex shape);
  match results with
  | [] => Err ValueError
  | _ => Ok (combine_by_coords results)
  end.
