(** Specification vocabulary for scores over regions (C72). *)
From Coq Require Import String List Bool ZArith QArith Reals.
Import ListNotations.
From Verif Require Import Prelude Values Model_XArray Spec_XArray Model_MetricsBase Model_Deterministic Model_Aggregation Spec_Binning Spec_Weighting.
Local Open Scope string_scope.
Local Open Scope list_scope.

(** The point [q] lies in the region called [label]: in its limits, or, for the label of a region
    with "_land" appended, in the limits and on land. *)
Inductive in_region (regions : list (string * ((Q * Q) * (Q * Q)))) (land : option da) : string -> env -> Prop :=
| in_limits name lat_lims lon_lims q lat lon : In (name, (lat_lims, lon_lims)) regions ->
    is_number (q "latitude") lat -> is_number (q "longitude") lon ->
    (fst lat_lims <= lat <= snd lat_lims)%Q -> on_arc (fst lon_lims) (snd lon_lims) lon -> in_region regions land name q
| in_limits_on_land name lat_lims lon_lims q lat lon lm : land = Some lm -> In (name, (lat_lims, lon_lims)) regions ->
    is_number (q "latitude") lat -> is_number (q "longitude") lon ->
    (fst lat_lims <= lat <= snd lat_lims)%Q -> on_arc (fst lon_lims) (snd lon_lims) lon -> get lm q <> Fin 0%R ->
    in_region regions land (name ++ "_land") q.
(** The labels of the regions. *)
Definition region_names {A} (regions : list (string * A)) (land : option da) : list string :=
  match land with None => map fst regions | Some _ => all_names regions end.

(** The point counts: no mask or a mask that is true and, where missing values are skipped, a value. *)
Definition valid_point (masked skipna : bool) (a : da) (q : env) : Prop :=
  (masked = true -> forall c, dget (aux a) "mask" = Some c -> c_get c q = LB true) /\ (skipna = true -> get a q <> NaN).
(** [Q] are the valid points of [a] in the region that agree with [e] except along the dimensions [over]. *)
Definition region_sample (regions : list (string * ((Q * Q) * (Q * Q)))) (land : option da) (masked skipna : bool)
    (over : list string) (a : da) (label : string) (e : env) (Q : list env) : Prop :=
  NoDup Q /\ forall q, In q Q <->
    (forall d, ~ In d over -> q d = e d) /\ (forall d, In d over -> In (q d) (labels_of (dims a) d)) /\
    valid_point masked skipna a q /\ in_region regions land label q.
(** The point [e] of the result: a region and, along the dimensions that are not averaged over,
    labels of the data. *)
Definition result_point {A} (regions : list (string * A)) (land : option da) (over : list string) (a : da) (label : string) (e : env) : Prop :=
  e "region" = LS label /\ In label (region_names regions land) /\
  forall d, In d (dnames a) -> ~ In d over -> In (e d) (labels_of (dims a) d).
(** [area] is the area of the grid cell, between the latitudes halfway to the neighbours. *)
Definition cell_areas (lats : list R) (Q : list env) (area : env -> R) : Prop :=
  forall q x, In q Q -> latitude (q "latitude") x -> cell_area lats x (area q).
Definition total (f : env -> R) (Q : list env) : R := fold_right Rplus 0%R (map f Q).
(** The mean of [s] over [Q], weighted by area; missing if there is no point. *)
Definition area_mean (Q : list env) (area s : env -> R) : val :=
  match Q with [] => NaN | _ => Fin (total (fun q => area q * s q)%R Q / total area Q)%R end.

(** [Q] are the points in the region that agree with [e] except along [over], where the mask of the
    targets (if masking is on and they have one) is true and, where missing values are skipped,
    neither forecast nor target is missing. *)
Definition pair_sample (regions : list (string * ((Q * Q) * (Q * Q)))) (land : option da) (masked skipna : bool)
    (over : list string) (forecast target : da) (label : string) (e : env) (Q : list env) : Prop :=
  NoDup Q /\ forall q, In q Q <->
    (forall d, ~ In d over -> q d = e d) /\ (forall d, In d over -> In (q d) (labels_of (dims target) d)) /\
    (masked = true -> forall c, dget (aux target) "mask" = Some c -> c_get c q = LB true) /\
    (skipna = true -> get forecast q <> NaN /\ get target q <> NaN) /\ in_region regions land label q.
(** Forecast and target are on the same grid: the same labels along the same dimensions. *)
Definition same_box (a b : da) : Prop := forall d, dget (dims a) d = dget (dims b) d.
(** The values that enter the scores are numbers. *)
Definition numbers (masked skipna : bool) (forecast target : da) (f o : env -> R) : Prop :=
  forall q, point_of (dims target) q ->
    (masked = true -> forall c, dget (aux target) "mask" = Some c -> c_get c q = LB true) ->
    (skipna = true -> get forecast q <> NaN /\ get target q <> NaN) ->
    get forecast q = Fin (f q) /\ get target q = Fin (o q).
(** A mask over all dimensions, as add_nan_mask makes it. *)
Definition full_mask (a : da) : Prop := forall c, dget (aux a) "mask" = Some c -> incl (dnames a) (c_dims c).
Definition root (v : val) : val := match v with Fin x => Fin (sqrt x) | _ => v end.

(** Bias, mean absolute error, mean squared error and its root: the error that is averaged, and
    what is made of the average. *)
Inductive score : metric da -> (R -> R) -> (val -> val) -> Prop :=
| score_bias : score (metric_of_statistic Error) (fun d => d) (fun m => m)
| score_mae : score (metric_of_statistic AbsoluteError) Rabs (fun m => m)
| score_mse : score (metric_of_statistic SquaredError) (fun d => d * d)%R (fun m => m)
| score_rmse : score RMSE (fun d => d * d)%R root.
