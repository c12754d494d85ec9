(** Model of weatherbenchX/weighting.py.  Latitudes are exact rationals, trigonometry is
    exact (no float rounding); latitude labels are numbers and never NaN. *)
From Coq Require Import String ZArith QArith Qreals Qcanon Bool List.
Import ListNotations.
From Verif Require Import Prelude Values Model_XArray Model_Aggregation Model_Binning.
From Coq Require Import Reals Rtrigo.
Local Open Scope R_scope.
Local Open Scope list_scope.

(** np.diff *)
Definition diff (l : list R) : list R := map (fun p => snd p - fst p) (pairs l).
(** 44-46 *)
Definition is_strictly_monotonic (l : list R) : bool :=
  forallb (fun d => Rltb 0 d) (diff l) || forallb (fun d => Rltb d 0) (diff l).
(** 49-51 *)
Definition is_increasing (l : list R) : bool := forallb (fun d => Rltb 0 d) (diff l).
(** 61-79 *)
Definition latitude_cell_bounds (x : list R) : result (list R) :=
  if is_increasing x then
    match x, rev x with
    | x0 :: x1 :: _, xn :: xm :: _ =>
        let left_bound := Rmax (x0 - (x1 - x0) / 2) (- (PI / 2)) in
        let right_bound := Rmin (xn + (xn - xm) / 2) (PI / 2) in
        Ok ([left_bound] ++ map (fun p => (fst p + snd p) / 2) (pairs x) ++ [right_bound])
    | _, _ => Err IndexError
    end
  else Err AssertionError.
(** 82-88: upper and lower are the consecutive bounds. *)
Definition cell_area_from_latitude (points : list R) : result (list R) :=
  do bounds <- latitude_cell_bounds points;
  Ok (map (fun p => sin (snd p) - sin (fst p)) (pairs bounds)).
Definition deg2rad (x : R) : R := x * (PI / 180).

(** GridAreaWeighting.weights, 91-136.  [statistic[latitude].copy(data=weights)] keeps the
    coordinates along latitude only. *)
Definition GridAreaWeighting (latitude_name : string) (return_normalized : bool) : weighting :=
  fun st =>
    match dget (dims st) latitude_name with
    | None => Ok (scalar (Fin 1))
    | Some labels =>
        let latitude := map (fun l => Q2R (lnum l)) labels in
        if is_strictly_monotonic latitude then
          match latitude with
          | l0 :: l1 :: _ =>
              let needs_reversing := Rltb l1 l0 in
              let latitude := if needs_reversing then rev latitude else latitude in
              do weights <- cell_area_from_latitude (map deg2rad latitude);
              let weights := if needs_reversing then rev weights else weights in
              let values :=
                if return_normalized
                then map (fun w => vdiv (Fin w) (Fin (rsum weights / INR (length weights)))) weights
                else map Fin weights in
              Ok (mkDa [(latitude_name, labels)]
                       (fun e => match dget (combine labels values) (e latitude_name) with Some v => v | None => NaN end)
                       (filter (fun kc => forallb (String.eqb latitude_name) (c_dims (snd kc))) (aux st)))
          | _ => Err IndexError
          end
        else Err AssertionError
    end.
