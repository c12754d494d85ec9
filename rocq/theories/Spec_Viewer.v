(** Specification vocabulary for the viewer of the combined results (C73). *)
From Coq Require Import String ZArith List Bool Reals.
Import ListNotations.
From Verif Require Import Prelude Values Model_XArray Spec_XArray Model_MetricsBase Model_Combine Spec_Combine Model_Viewer.
Local Open Scope string_scope.
Local Open Scope list_scope.

(** The place of a model's score at a lead time under the choices made. *)
Definition score_at (c : choice) (M : string) (l : label) (d : string) : label :=
  if String.eqb d "model" then LS M
  else if String.eqb d "lead_time" then l
  else if String.eqb d "metric" then LS (c_metric c)
  else if String.eqb d "region" then LS (c_region c)
  else if String.eqb d "year" then LS (c_year c)
  else if String.eqb d "resolution" then LS (c_resolution c)
  else c_level c.
(** The result files hold the score [x] of the model [M] at the lead time [l] under the choices made. *)
Definition file_score (m : mode) (files : string -> option (vars da)) (c : choice) (M : string) (l : label) (x : val) : Prop :=
  cell_value m files (c_variable c) (score_at c M l) x.

(** Every array of the files is a score per region and lead time, and possibly per level. *)
Definition plain_files (m : mode) (files : string -> option (vars da)) : Prop :=
  forall ds n a, found m files ds -> dget ds n = Some a ->
    In "lead_time" (dnames a) /\ forall d, In d (dnames a) -> In d ["region"; "lead_time"; "level"].

(** The horizontal axis: whole hours of the lead times, in order. *)
Definition hours_of (leads : list label) (x : list Z) : Prop :=
  Forall2 (fun l h => exists t, l = LZ t /\ (h * 3600000000000 <= t < (h + 1) * 3600000000000)%Z) leads x.
(** What is drawn at a point: the file's value, or nothing. *)
Definition drawn (P : val -> Prop) (y : val) : Prop := (y = NaN \/ P y) /\ forall x, P x -> x = y.

(** [p] percent better than the baseline [b]: an error smaller by that part of the baseline's error;
    for a correlation, by that part of what the baseline lacks to 1. *)
Definition percent_better (metric : string) (s b p : R) : Prop :=
  if String.eqb metric "ACC" then s = (b + (1 - b) * (p / 100))%R else s = (b * (1 - p / 100))%R.
(** Where that is defined. *)
Definition comparable (metric : string) (b : R) : Prop := if String.eqb metric "ACC" then b <> 1%R else b <> 0%R.

(** The models drawn when the page is opened, the others being in the legend only. *)
Definition shown_at_first (m : mode) (precipitation : bool) : list string :=
  if precipitation then ["IFS HRES vs ERA5"; "IFS ENS (mean) vs ERA5"; "GraphCast vs ERA5"]
  else match m with
       | Deterministic => ["IFS HRES vs Analysis"; "IFS ENS (mean) vs Analysis"; "GraphCast vs ERA5"; "NeuralGCM 0.7 vs ERA5"]
       | Probabilistic => ["IFS ENS vs Analysis"; "GenCast vs ERA5"; "NeuralGCM ENS vs ERA5"]
       end.

(** Every choice is one the menus offer. *)
Definition offered_choice (ds : vars da) (c : choice) : Prop :=
  In (c_variable c) (keys ds) /\
  forall d x, In (d, x) [("metric", LS (c_metric c)); ("level", c_level c); ("region", LS (c_region c)); ("year", LS (c_year c));
                         ("resolution", LS (c_resolution c)); ("model", LS (c_relative_to c))] ->
    exists ls, offered ds d = Ok ls /\ In x ls.
Definition is_precipitation (V : string) : Prop := V = "6h Precipitation" \/ V = "24h Precipitation".
(** Displayed variables that have no levels. *)
Definition single_level : list string :=
  ["Sea Level Pressure"; "2m Temperature"; "6h Precipitation"; "24h Precipitation"; "10m Wind Speed"; "10m Wind Vector";
   "10m U Component of Wind"; "10m V Component of Wind"].
