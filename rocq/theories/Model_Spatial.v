(** Model of weatherbenchX/metrics/spatial.py and of NeighborhoodThresholdProbabilities
    (interpolations.py 383-435).  float32 rounding is not modelled. *)
From Coq Require Import String ZArith List Bool Reals DecimalString.
Import ListNotations.
From Verif Require Import Prelude Values Model_XArray Model_MetricsBase Model_Deterministic Model_Ensemble Model_Wrappers Model_Interp.
Local Open Scope R_scope.
Local Open Scope string_scope.
Local Open Scope list_scope.

(** ** convolve2d_wrap_longitude, 24-56 *)
(** scipy.ndimage.convolve1d with mode='wrap' and the kernel ones(n)/n (n odd): the output at [i]
    is the sum of the inputs at i - (n-1)/2, ..., i + (n-1)/2 modulo the length, each times 1/n. *)
Definition half (n : Z) : Z := ((n - 1) / 2)%Z.
Definition wrapped (n : Z) (len i : nat) : list nat :=
  map (fun k => Z.to_nat ((Z.of_nat i - half n + Z.of_nat k) mod Z.of_nat len)) (seq 0 (Z.to_nat n)).
Definition convolve1d (n : Z) (len : nat) (x : nat -> val) (i : nat) : val :=
  vsum (map (fun k => vmul (Fin (1 / IZR n)) (x k)) (wrapped n len i)).
(** Membership of the slices [:h] and [-h:]  (h >= 1). *)
Definition edge (h : Z) (len i : nat) : bool := ((Z.of_nat i <? h) || (Z.of_nat len - h <=? Z.of_nat i))%Z.
(** 37-40, and np.ones(n) for a negative n (45). *)
Definition check_size (n : Z) : result unit :=
  if (n =? 1)%Z then Ok tt else if negb (n mod 2 =? 1)%Z then Err ValueError else if (n <? 0)%Z then Err ValueError else Ok tt.
(** [x] has [nlat] rows and [nlon] columns. *)
Definition convolve2d_wrap_longitude (x : nat -> nat -> val) (nlat nlon : nat) (n : Z) (wrap_longitude : bool) : nat -> nat -> val :=
  if (n =? 1)%Z then x
  else fun i j =>
    if edge (half n) nlat i then Fin 0                                             (* 50-51 *)
    else if negb wrap_longitude && edge (half n) nlon j then Fin 0                 (* 53-55 *)
    else convolve1d n nlon (fun j' => convolve1d n nlat (fun i' => x i' j') i) j.   (* 46-47 *)

(** ** neighborhood_averaging_for_single_size, 59-82 *)
(** apply_ufunc with core dimensions latitude, longitude (they come last in the result; all
    coordinates are kept). *)
Definition lat_lon : list string := ["latitude"; "longitude"].
Definition average_core (n : Z) (wrap_longitude : bool) (a : da) : result da :=
  match dget (dims a) "latitude", dget (dims a) "longitude" with
  | Some lats, Some lons =>
      do _ <- check_size n;
      Ok (mkDa (keep (fun d => negb (memb d lat_lon)) (dims a) ++ [("latitude", lats); ("longitude", lons)])
               (fun e => convolve2d_wrap_longitude
                           (fun i j => get a (upd (upd e "latitude" (nth i lats (LZ 0))) "longitude" (nth j lons (LZ 0))))
                           (length lats) (length lons) n wrap_longitude (index_of (e "latitude") lats) (index_of (e "longitude") lons))
               (aux a))
  | _, _ => Err ValueError
  end.
(** np.isclose(x, True): |x - 1| <= 1e-8 + 1e-5 *)
Definition isclose_true (x : val) : bool := match x with Fin r => Rleb (Rabs (r - 1)) (1 / 10 ^ 8 + 1 / 10 ^ 5) | _ => false end.
(** [out.coords['mask'][:] = new_mask]: a numpy array is assigned by position, so the k-th axis of
    the new mask goes to the k-th axis of the old one; ValueError for different shapes (numpy
    would broadcast axes of length 1: not modelled). *)
Definition transfer (src dst : dimlist) (e : env) : env :=
  fold_right (fun sd acc => upd acc (fst (fst sd)) (nth (index_of (e (fst (snd sd))) (snd (snd sd))) (snd (fst sd)) (LZ 0))) e (combine src dst).
Definition mask_dims (a : da) (c : coord) : dimlist := map (fun d => (d, labels_of (dims a) d)) (c_dims c).
Definition neighborhood_averaging_for_single_size (a : da) (n : Z) (wrap_longitude : bool) : result da :=
  do out <- average_core n wrap_longitude a;
  match dget (aux a) "mask" with                                                     (* 73-81 *)
  | None => Ok out
  | Some c =>
      let old := mask_dims a c in
      do m <- average_core n wrap_longitude (mkDa old (fun e => b2v (match c_get c e with LB b => b | _ => false end)) []);
      if list_eq_dec Nat.eq_dec (map (fun p => length (snd p)) (dims m)) (map (fun p => length (snd p)) old) then
        Ok (mkDa (dims out) (get out)
              (dset (aux out) "mask" (mkCoord (c_dims c) (fun e => LB (isclose_true (get m (transfer (dims m) old e)))))))
      else Err ValueError
  end.

(** ** neighborhood_averaging, 85-101 *)
Inductive sizes := One (n : Z) | Many (ns : list Z).
(** xr.concat of arrays with the same dimensions along a new dimension: ValueError for an empty
    list; a coordinate that differs between the arrays gets the new dimension (coords='different'),
    an equal one is kept. *)
Definition pick (d : string) (parts : list (label * da)) (e : env) : option da := dget parts (e d).
Definition concat_sizes (d : string) (parts : list (label * da)) : result da :=
  match parts with
  | [] => Err ValueError
  | (_, a) :: _ =>
      let ls := map fst parts in
      Ok (mkDa ((d, ls) :: dims a)
               (fun e => match pick d parts e with Some b => get b e | None => NaN end)
               (map (fun nc =>
                  (fst nc,
                   if forallb (fun lb => match dget (aux (snd lb)) (fst nc) with Some c => coord_eqb (dims a) (snd nc) c | None => false end) parts
                   then snd nc
                   else mkCoord (d :: c_dims (snd nc))
                          (fun e => match pick d parts e with
                                    | Some b => match dget (aux b) (fst nc) with Some c => c_get c e | None => c_get (snd nc) e end
                                    | None => c_get (snd nc) e end))) (aux a)))
  end.
Definition neighborhood_averaging (a : da) (s : sizes) (wrap_longitude : bool) : result da :=
  match s with
  | One n => neighborhood_averaging_for_single_size a n wrap_longitude
  | Many ns =>
      do parts <- mapM (fun n => do b <- neighborhood_averaging_for_single_size a n wrap_longitude; Ok (LZ n, b)) ns;
      concat_sizes "neighborhood_size" parts
  end.

(** ** get_suffix, 104-114 *)
Definition str_int (z : Z) : string := NilEmpty.string_of_int (Z.to_int z).
Definition get_suffix (s : sizes) (wrap_longitude : bool) : string :=
  (match s with Many ns => join_comma (map str_int ns) | One n => str_int n end
   ++ (if wrap_longitude then "_wrap_longitude" else ""))%string.

(** ** The statistics, 117-192 *)
Definition squared_fractions_error (s : sizes) (w : bool) (p t : da) : result (option da) :=
  do p' <- neighborhood_averaging p s w;
  do t' <- neighborhood_averaging t s w;
  Ok (Some (da_map vsq (binop vsub p' t'))).
Definition squared_prediction_fraction (s : sizes) (w : bool) (p t : da) : result (option da) :=
  do p' <- neighborhood_averaging p s w;
  Ok (Some (binop vadd (da_map vsq p') (zeros_like t))).
Definition squared_target_fraction (s : sizes) (w : bool) (p t : da) : result (option da) :=
  do t' <- neighborhood_averaging t s w;
  Ok (Some (binop vadd (da_map vsq t') (zeros_like p))).
Definition SquaredFractionsError (s : sizes) (w : bool) : statistic da :=
  per_variable_statistic ("SquaredFractionsError_" ++ get_suffix s w)%string (squared_fractions_error s w).
Definition SquaredPredictionFraction (s : sizes) (w : bool) : statistic da :=
  per_variable_statistic ("SquaredPredictionFraction_" ++ get_suffix s w)%string (squared_prediction_fraction s w).
Definition SquaredTargetFraction (s : sizes) (w : bool) : statistic da :=
  per_variable_statistic ("SquaredTargetFraction_" ++ get_suffix s w)%string (squared_target_fraction s w).

(** ** FSS, 195-256 *)
Definition FSS (s : sizes) (w : bool) : metric da :=
  per_variable_metric
    [("SquaredFractionsError", SquaredFractionsError s w);
     ("SquaredPredictionFraction", SquaredPredictionFraction s w);
     ("SquaredTargetFraction", SquaredTargetFraction s w)]
    (fun st =>
       do e <- dgetE st "SquaredFractionsError"; do f <- dgetE st "SquaredPredictionFraction"; do o <- dgetE st "SquaredTargetFraction";
       Ok (da_map (fun x => vsub (Fin 1) x) (binop vdiv e (binop vadd f o)))).

(** ** NeighborhoodThresholdProbabilities, interpolations.py 383-435 *)
Definition NeighborhoodThresholdProbabilities (neighborhood_sizes : list Z) (ts : thresholds) (threshold_dim : string) (wrap_longitude : bool) : interpolation :=
  fun name a _ =>
    do b <- binarize name a ts threshold_dim;
    do parts <- mapM (fun n => do c <- neighborhood_averaging_for_single_size b n wrap_longitude; Ok (LZ n, c)) neighborhood_sizes;
    concat_sizes "smoothing_neighborhood" parts.
