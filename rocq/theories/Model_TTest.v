(** Model of weatherbenchX/statistical_inference/t_test.py.
    Float rounding is not modelled (DESIGN.md, section 1). *)
From Coq Require Import String ZArith List Bool Reals QArith Qcanon Qabs.
Import ListNotations.
From Verif Require Import Prelude Values Model_XArray Model_Deterministic Model_Ensemble.
Local Open Scope R_scope.
Local Open Scope string_scope.
Local Open Scope list_scope.

(** ** Estimates from the deviations of one time series (a list of values) *)
(** 61-65: NaNs are not skipped; [sample_size - ddof] may be 0 (IEEE division). *)
Definition variance_estimate (ddof : nat) (row : list val) : val :=
  vdiv (vsum (map vsq row)) (Fin (INR (length row) - INR ddof)).

(** 68-87: the slices are positional since the coordinates of the dimension are dropped;
    [slice(0, -lag)] of a series shorter than [lag] is empty. *)
Definition autocorrelation_estimate (lag : nat) (row : list val) : val :=
  let variance := variance_estimate 1 row in
  let original := firstn (length row - lag) row in
  let lagged := skipn lag row in
  let result := vdiv (np_mean false (map (fun p => vmul (fst p) (snd p)) (combine original lagged))) variance in
  if negb (veqb variance (Fin 0)) then result else Fin 0.

(** 97 and 107: the common formula *)
Definition k_squared (rho1 rho2 phi1 phi2 : val) : val :=
  vdiv (vsub (vsub (Fin 1) (vmul rho1 phi1)) (vmul rho2 phi2))
       (vsq (vsub (vsub (Fin 1) phi1) phi2)).
(** 90-98 *)
Definition inflation_factor_from_autocorrelation (rho1 rho2 : val) : val :=
  let denominator := vsub (Fin 1) (vsq rho1) in
  let phi1 := vdiv (vmul rho1 (vsub (Fin 1) rho2)) denominator in
  let phi2 := vdiv (vsub rho2 (vsq rho1)) denominator in
  vsqrt (k_squared rho1 rho2 phi1 phi2).
(** 101-108 *)
Definition inflation_factor_from_coeffs (phi1 phi2 : val) : val :=
  let rho1 := vdiv phi1 (vsub (Fin 1) phi2) in
  let rho2 := vadd phi2 (vdiv (vsq phi1) (vsub (Fin 1) phi2)) in
  vsqrt (k_squared rho1 rho2 phi1 phi2).

(** 267-272 *)
Definition iid_standard_error (row : list val) : val :=
  vsqrt (vdiv (variance_estimate 1 row) (Fin (INR (length row)))).
(** 315-328 *)
Definition geer_standard_error (row : list val) : val :=
  let r1 := autocorrelation_estimate 1 row in
  let r2 := autocorrelation_estimate 2 row in
  let k := inflation_factor_from_autocorrelation r1 r2 in
  vmul (vsqrt (vdiv (variance_estimate 1 row) (Fin (INR (length row))))) k.

(** Python's int(x): truncation towards zero. *)
Definition int_of (x : R) : Z := if Rltb x 0 then (- Int_part (- x))%Z else Int_part x.
(** [n ** (2/3)] *)
Definition pow_two_thirds (n : nat) : R := match n with O => 0 | _ => Rpower (INR n) (2 / 3) end.
(** 456-458 *)
Definition hac_dof (v_0 : R) (sample_size : nat) : Z :=
  let v := int_of (v_0 * pow_two_thirds sample_size) in
  let v := Z.max 1 v in
  Z.min v (Z.of_nat sample_size - 1).

(** scipy.fft.dct(type=2, norm='ortho'): coefficient [k] *)
Definition dct_basis (n k j : nat) : R := cos (PI * INR k * (2 * INR j + 1) / (2 * INR n)).
Definition dct_scale (n k : nat) : R := match k with O => sqrt (1 / INR n) | _ => sqrt (2 / INR n) end.
Definition dct (row : list val) (k : nat) : val :=
  let n := length row in
  vmul (Fin (dct_scale n k))
       (vsum (map (fun jx => vmul (Fin (dct_basis n k (fst jx))) (snd jx)) (combine (seq 0 n) row))).
(** 460-472: the coefficients 1 .. v (those that exist) *)
Definition long_run_variance (v : Z) (row : list val) : val :=
  let projections := map (dct row) (seq 0 (length row)) in
  let projections := firstn (Z.to_nat v) (skipn 1 projections) in
  np_mean false (map vsq projections).
(** 480 *)
Definition hac_standard_error (v : Z) (row : list val) : val :=
  vsqrt (vdiv (long_run_variance v row) (Fin (INR (length row)))).

(** ** Uniform steps (39-58) *)
(** dtype of the coordinate of the dimension: none, something that is not np.number (notably
    datetime64), integers (including timedelta64), or floats *)
Inductive coord_dtype := NoCoord | NotANumber | Integers | Floats.
Definition label_number (l : label) : Qc :=
  match l with LZ z => Q2Qc (inject_Z z) | LQ q => q | _ => Q2Qc 0 end.
Fixpoint diffs (l : list Qc) : list Qc :=
  match l with x :: ((y :: _) as l') => (y - x)%Qc :: diffs l' | _ => [] end.
(** np.allclose(a, b): |a - b| <= 1e-8 + 1e-5 |b| *)
Definition is_close (a b : Qc) : bool :=
  Qle_bool (Qabs (this a - this b)%Q) (inject_Z 1 / inject_Z 100000000 + (inject_Z 1 / inject_Z 100000) * Qabs (this b))%Q.
(** 39-50; the first entry of an empty array: IndexError *)
Definition check_constant (equiv : Qc -> Qc -> bool) (l : list Qc) : result unit :=
  match l with
  | [] => Err IndexError
  | a :: _ => if forallb (equiv a) l then Ok tt else Err ValueError
  end.
Definition qc_eqb (a b : Qc) : bool := if Qc_eq_dec a b then true else false.
(** 53-58 *)
Definition check_uniform_step (dt : coord_dtype) (ls : list label) : result unit :=
  match dt with
  | NoCoord | NotANumber => Ok tt
  | Integers => check_constant qc_eqb (diffs (map label_number ls))
  | Floats => check_constant is_close (diffs (map label_number ls))
  end.

(** ** Results (111-140) *)
Record t_test_results := mkResults { r_mean : da; r_standard_error : da; r_dof : Z }.

Section TDistribution.
  (** The cumulative distribution function of Student's t distribution and its inverse, for
      positive degrees of freedom (scipy.stats.t). *)
  Variable t_cdf t_quantile : Z -> R -> R.

  (** [scipy.stats.t(df).cdf] on IEEE values; NaN for df <= 0 *)
  Definition t_cdf_val (df : Z) (x : val) : val :=
    if (df <=? 0)%Z then NaN else
    match x with Fin r => Fin (t_cdf df r) | PInf => Fin 1 | NInf => Fin 0 | NaN => NaN end.
  (** [scipy.stats.t(df).ppf] *)
  Definition t_ppf (df : Z) (q : R) : val :=
    if (df <=? 0)%Z then NaN else
    if Rltb q 0 || Rltb 1 q then NaN else
    if Reqb q 0 then NInf else if Reqb q 1 then PInf else Fin (t_quantile df q).

  (** 119-121 *)
  Definition ci_lower_val (df : Z) (alpha : R) (mean se : val) : val :=
    let z_alpha := vneg (t_ppf df (alpha / 2)) in vsub mean (vmul se z_alpha).
  (** 123-125 *)
  Definition ci_upper_val (df : Z) (alpha : R) (mean se : val) : val :=
    let z_alpha := vneg (t_ppf df (alpha / 2)) in vadd mean (vmul se z_alpha).
  (** 127-140 *)
  Definition p_value_val (df : Z) (null_value : R) (mean se : val) : val :=
    let difference := vsub mean (Fin null_value) in
    let z_score := if veqb difference (Fin 0) && veqb se (Fin 0) then Fin 0 else vdiv difference se in
    vmul (Fin 2) (vsub (Fin 1) (t_cdf_val df (vabs z_score))).

  (** The elementwise xarray operations, combined into one. *)
  Definition ci_lower (alpha : R) (r : t_test_results) : da :=
    binop (ci_lower_val (r_dof r) alpha) (r_mean r) (r_standard_error r).
  Definition ci_upper (alpha : R) (r : t_test_results) : da :=
    binop (ci_upper_val (r_dof r) alpha) (r_mean r) (r_standard_error r).
  Definition p_value (null_value : R) (r : t_test_results) : da :=
    binop (p_value_val (r_dof r) null_value) (r_mean r) (r_standard_error r).
  (** base.py 173-178 *)
  Definition significance (alpha null_value : R) (r : t_test_results) : da :=
    da_map (fun p => b2v (vleb p (Fin alpha))) (p_value null_value r).
End TDistribution.

(** ** The three tests: _compute_results *)
(** 264-275 *)
Definition iid_results (d : string) (mean deviations : da) : result t_test_results :=
  do n <- size_of d deviations;
  do se <- reduce iid_standard_error [d] deviations;
  Ok (mkResults mean se (Z.of_nat n - 1)).
(** 310-330 *)
Definition geer_results (dt : coord_dtype) (d : string) (mean deviations : da) : result t_test_results :=
  do _ <- (if memb d (dnames deviations) then check_uniform_step dt (labels_of (dims deviations) d) else Ok tt);
  do n <- size_of d deviations;
  do se <- reduce geer_standard_error [d] deviations;
  Ok (mkResults mean se (Z.of_nat n - 1)).
(** 445-485 *)
Definition hac_results (v_0 : R) (dt : coord_dtype) (d : string) (mean deviations : da) : result t_test_results :=
  do n <- size_of d deviations;
  do _ <- check_uniform_step dt (labels_of (dims deviations) d);
  let v := hac_dof v_0 n in
  do se <- reduce (hac_standard_error v) [d] deviations;
  Ok (mkResults mean se v).
