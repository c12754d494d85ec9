(** Model of WassersteinDistance, weatherbenchX/metrics/probabilistic.py 662-710, and of
    scipy.stats.wasserstein_distance, which it applies at every point. *)
From Coq Require Import String List Bool Reals.
Import ListNotations.
From Verif Require Import Prelude Values Model_XArray Model_MetricsBase Model_Deterministic Model_Categorical Model_Ensemble Model_Binning.
Local Open Scope R_scope.
Local Open Scope string_scope.
Local Open Scope list_scope.

(** numpy's sorting order: NaN last. *)
Definition np_leb (x y : val) : bool := isnan y || (negb (isnan x) && vleb x y).
Fixpoint vinsert (x : val) (l : list val) : list val :=
  match l with [] => [x] | y :: l' => if np_leb x y then x :: l else y :: vinsert x l' end.
Definition vsort (l : list val) : list val := fold_right vinsert [] l.
(** [values.searchsorted(x, 'right') / size]: the share of the values at or before x. *)
Definition cdf_at (us : list val) (x : val) : val :=
  Fin (INR (length (filter (fun u => np_leb u x) us)) / INR (length us)).
(** scipy.stats.wasserstein_distance(us, vs) without weights (scipy's _cdf_distance with p = 1):
    ValueError for an empty distribution; pairs gives the neighbours used by np.diff. *)
Definition wasserstein_distance (us vs : list val) : result val :=
  match us, vs with
  | [], _ | _, [] => Err ValueError
  | _, _ => Ok (vsum (map (fun ab => vmul (vabs (vsub (cdf_at us (fst ab)) (cdf_at vs (fst ab)))) (vsub (snd ab) (fst ab)))
                          (pairs (vsort (us ++ vs)))))
  end.

(** The members of [a] along [d] at a point. *)
Definition members (d : string) (a : da) (e : env) : list val := map (fun l => get a (upd e d l)) (labels_of (dims a) d).
Definition labels_same (a b : list label) : bool := if list_eq_dec eq_dec a b then true else false.
(** 684-710.  xr.apply_ufunc aligns the other dimensions with join="exact": different labels are
    a ValueError.  Coordinates along the ensemble dimension are dropped, conflicting ones too.
    The cast to the type of the predictions (output_dtypes) is not modelled: predictions are
    floats. *)
Definition wasserstein_var (d : string) (p t : da) : result da :=
  if negb (memb d (dnames p)) then Err ValueError
  else if negb (memb d (dnames t)) then Err ValueError
  else
    let p' := keep (fun n => negb (eqb n d)) (dims p) in
    let t' := keep (fun n => negb (eqb n d)) (dims t) in
    if forallb (fun nl => match dget t' (fst nl) with Some ls => labels_same (snd nl) ls | None => true end) p' then
      let D := merge_dims inter_labels p' t' in
      if existsb (fun nl => Nat.eqb (length (snd nl)) 0) D then
        Ok (mkDa D (fun _ => NaN) (merge_aux D (aux_without [d] (aux p)) (aux_without [d] (aux t))))
      else if Nat.eqb (length (labels_of (dims p) d)) 0 || Nat.eqb (length (labels_of (dims t) d)) 0 then Err ValueError
      else Ok (mkDa D (fun e => match wasserstein_distance (members d p e) (members d t e) with Ok v => v | Err _ => NaN end)
                    (merge_aux D (aux_without [d] (aux p)) (aux_without [d] (aux t))))
    else Err ValueError.
(** 662-710 *)
Definition WassersteinDistance (d : string) : statistic da :=
  per_variable_statistic ("WassersteinDistance_" ++ d) (fun p t => do r <- wasserstein_var d p t; Ok (Some r)).
