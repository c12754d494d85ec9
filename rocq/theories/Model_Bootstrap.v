(** Model of weatherbenchX/statistical_inference/bootstrap.py and base.py: the parts that work
    on the replicates of one metric value, and the index sampler of the stationary bootstrap. *)
From Coq Require Import String ZArith List Bool Reals.
Import ListNotations.
From Verif Require Import Prelude Values Model_XArray Model_Ensemble.
Local Open Scope R_scope.
Local Open Scope list_scope.

(** ** numpy *)
(** np.sort *)
Fixpoint insert (x : R) (l : list R) : list R :=
  match l with [] => [x] | y :: l' => if Rltb y x then y :: insert x l' else x :: l end.
Definition sort (l : list R) : list R := fold_right insert [] l.

(** The values that are not NaN.  Infinite replicates are not modelled: they are dropped
    here, and every theorem assumes that there are none. *)
Definition numbers (vs : list val) : list R := flat_map (fun v => match v with Fin x => [x] | _ => [] end) vs.

(** np.linspace(0, 1, n) *)
Definition linspace (n : nat) : list R := map (fun i => INR i / INR (n - 1)) (seq 0 n).

(** np.interp(x, xp, fp) for increasing xp, points (xp, fp): constant outside, linear between
    the last xp at or below x and the next one. *)
Fixpoint interp (x : R) (pts : list (R * R)) : R :=
  match pts with
  | [] => 0
  | [(_, f)] => f
  | (a, fa) :: (((b, fb) :: _) as rest) =>
      if Rltb x a then fa
      else if Rltb x b then fa + (fb - fa) / (b - a) * (x - a)
      else interp x rest
  end.

(** np.quantile(values, q), method 'linear', of sorted values. *)
Definition sorted_quantile (q : R) (xs : list R) : R :=
  let h := q * INR (length xs - 1) in
  let lo := Z.to_nat (Int_part h) in
  let a := nth lo xs 0 in
  let b := nth (Nat.min (S lo) (length xs - 1)) xs 0 in
  a + (b - a) * frac_part h.
(** np.nanquantile: ValueError for q outside [0,1], NaN without values. *)
Definition nanquantile (q : R) (vs : list val) : result val :=
  if Rltb q 0 || Rltb 1 q then Err ValueError
  else Ok (match sort (numbers vs) with [] => NaN | xs => Fin (sorted_quantile q xs) end).

(** ** Bootstrap (bootstrap.py 35-128), for the replicates of one metric value *)
(** 86-89: std(ddof=1, skipna=True) *)
Definition bootstrap_standard_error (vs : list val) : val := vsqrt (np_var true vs).
(** 92-103 *)
Definition bootstrap_confidence_interval (alpha : R) (vs : list val) : result (val * val) :=
  do lower <- nanquantile (alpha / 2) vs;
  do upper <- nanquantile (1 - alpha / 2) vs;
  Ok (lower, upper).
(** 112-119 *)
Definition bootstrap_p_value (null_value : R) (vs : list val) : val :=
  match numbers vs with
  | [] => NaN
  | resampled =>
      let data := sort resampled in
      let q := linspace (length data) in
      let empirical_cdf_at_null := interp null_value (combine data q) in
      Fin (2 * Rmin empirical_cdf_at_null (1 - empirical_cdf_at_null))
  end.

(** base.py 175-178: [p_value <= alpha] (False for NaN). *)
Definition significant (alpha : R) (p : val) : bool := vleb p (Fin alpha).

(** ** Stationary bootstrap indices (bootstrap.py 238-259) *)
(** One step for all replicates: [flags], [new] and [current] have one entry per replicate. *)
Definition next_indices (n_data : Z) (flags : list bool) (new current : list Z) : list Z :=
  map (fun p : bool * Z * Z => if fst (fst p) then snd (fst p) else ((snd p + 1) mod n_data)%Z)
      (combine (combine flags new) current).
(** [rand t]: the draws of np.random.rand in the loop iteration t = 1, 2, ...;
    [randint t]: those of np.random.randint(n_data), t = 0 being line 246. *)
Fixpoint indices_from (n_data : Z) (end_block_prob : R) (rand : nat -> list R) (randint : nat -> list Z)
  (t steps : nat) (current : list Z) : list (list Z) :=
  match steps with
  | O => []
  | S k =>
      let flags := map (fun u => Rltb u end_block_prob) (rand t) in
      let cur := next_indices n_data flags (randint t) current in
      cur :: indices_from n_data end_block_prob rand randint (S t) k cur
  end.
(** [1/mean_block_length]: ZeroDivisionError for 0; randint(0): ValueError. *)
Definition stationary_bootstrap_indices (n_data : nat) (mean_block_length : R)
  (rand : nat -> list R) (randint : nat -> list Z) : result (list (list Z)) :=
  if Reqb mean_block_length 0 then Err ZeroDivisionError
  else match n_data with
  | O => Err ValueError
  | S k =>
      let current := randint O in
      Ok (current :: indices_from (Z.of_nat n_data) (1 / mean_block_length) rand randint 1 k current)
  end.
