(** Model of public_benchmark/apps: the viewer of the combined benchmark results
    (apps/config.py 16-176, apps/dash_app.py 31-432; apps/main_deterministic.py and
    apps/main_probabilistic.py 14-24 open the combined dataset and call make_app).
    Simplifications: the layout of the page, styling that does not depend on the data, and the
    browser are not modelled; colours of the seaborn palettes are named by their place in the
    palette; the third alert (results not yet available) is never raised by the code and is left
    out; the dropdowns send labels of the dataset (time and level labels as they are). *)
From Coq Require Import String Ascii ZArith List Bool Reals.
Import ListNotations.
From Verif Require Import Prelude Values Model_XArray Model_MetricsBase Model_Aggregation Model_Loaders Model_Combine.
Local Open Scope string_scope.
Local Open Scope list_scope.

(** apps/config.py 16-21: palettes of seaborn, or a CSS colour *)
Inductive colour := Tab10 (n : nat) | Husl (n : nat) | Css (s : string).
(** apps/config.py 23-30 SURFACE_VARIABLES *)
Definition SURFACE_VARIABLES : list string :=
  ["Sea Level Pressure"; "2m Temperature"; "6h Precipitation"; "24h Precipitation"; "10m Wind Speed"; "10m Wind Vector"].
(** apps/config.py 32-52 UNITS *)
Definition UNITS : dict string string :=
  [("Geopotential", "m<sup>2</sup>/s<sup>2</sup>");
   ("Temperature", "K");
   ("Specific Humidity", "g/kg");
   ("U Component of Wind", "m/s");
   ("V Component of Wind", "m/s");
   ("10m U Component of Wind", "m/s");
   ("10m V Component of Wind", "m/s");
   ("2m Temperature", "K");
   ("Sea Level Pressure", "Pa");
   ("6h Precipitation", "mm");
   ("24h Precipitation", "mm");
   ("Wind Speed", "m/s");
   ("10m Wind Speed", "m/s");
   ("Wind Vector", "m/s");
   ("10m Wind Vector", "m/s");
   ("500hPa Geopotential", "m<sup>2</sup>/s<sup>2</sup>");
   ("700hPa Specific Humidity", "g/kg");
   ("850hPa Temperature", "K");
   ("850hPa Wind Speed", "m/s")].
(** apps/config.py 55-60 DEFAULT_MODELS *)
Definition DEFAULT_MODELS : list string :=
  ["IFS HRES vs Analysis"; "IFS ENS (mean) vs Analysis"; "GraphCast vs ERA5"; "NeuralGCM 0.7 vs ERA5"].
(** apps/config.py 61-65 DEFAULT_MODELS_PRECIP *)
Definition DEFAULT_MODELS_PRECIP : list string :=
  ["IFS HRES vs ERA5"; "IFS ENS (mean) vs ERA5"; "GraphCast vs ERA5"].
(** apps/config.py 66-70 DEFAULT_MODELS_PROB *)
Definition DEFAULT_MODELS_PROB : list string :=
  ["IFS ENS vs Analysis"; "GenCast vs ERA5"; "NeuralGCM ENS vs ERA5"].
(** apps/config.py 73-123 COLORS *)
Definition COLORS : dict string colour :=
  [("Climatology vs ERA5", Css "darkgrey");
   ("Probabilistic Climatology vs ERA5", Css "darkgrey");
   ("Persistence vs ERA5", Css "lightgray");
   ("IFS HRES vs Analysis", Tab10 0);
   ("IFS HRES vs ERA5", Tab10 0);
   ("IFS ENS (mean) vs Analysis", Tab10 2);
   ("IFS ENS (mean) vs ERA5", Tab10 2);
   ("IFS ENS (1st member) vs Analysis", Tab10 2);
   ("IFS ENS (1st member) vs ERA5", Tab10 2);
   ("IFS ENS vs Analysis", Tab10 2);
   ("IFS ENS vs ERA5", Tab10 2);
   ("GraphCast vs ERA5", Tab10 3);
   ("GraphCast (oper.) vs ERA5", Tab10 6);
   ("GraphCast (oper.) vs Analysis", Tab10 6);
   ("Pangu-Weather vs ERA5", Tab10 4);
   ("Pangu-Weather (oper.) vs ERA5", Css "purple");
   ("Pangu-Weather (oper.) vs Analysis", Css "purple");
   ("Keisler (2022) vs ERA5", Husl 6);
   ("ERA5-Forecasts vs ERA5", Tab10 8);
   ("NeuralGCM 0.7 vs ERA5", Css "orange");
   ("NeuralGCM ENS vs ERA5", Css "orange");
   ("NeuralGCM ENS (mean) vs ERA5", Tab10 1);
   ("NeuralGCM ENS (1st member) vs ERA5", Tab10 1);
   ("FuXi vs ERA5", Tab10 5);
   ("GenCast vs ERA5", Css "firebrick");
   ("GenCast (mean) vs ERA5", Css "firebrick");
   ("GenCast (1st member) vs ERA5", Css "firebrick");
   ("GenCast (oper.) vs ERA5", Css "maroon");
   ("GenCast (oper.) (mean) vs ERA5", Css "maroon");
   ("GenCast (oper.) (1st member) vs ERA5", Css "maroon");
   ("GenCast (oper.) vs Analysis", Css "maroon");
   ("GenCast (oper.) (mean) vs Analysis", Css "maroon");
   ("GenCast (oper.) (1st member) vs Analysis", Css "maroon");
   ("Aurora (oper.) vs Analysis", Husl 8);
   ("Stormer ENS (mean) vs ERA5", Husl 2);
   ("ArchesWeather-Mx4 vs ERA5", Husl 3);
   ("ArchesWeatherGen vs ERA5", Husl 3);
   ("ArchesWeatherGen (mean) vs ERA5", Husl 3);
   ("Swin vs ERA5", Husl 4);
   ("Excarta (HEAL-ViT) vs ERA5", Husl 5);
   ("Baguan vs ERA5", Husl 6);
   ("WeatherMesh4 vs ERA5", Husl 7)].
(** apps/config.py 125-176 SYMBOLS *)
Definition SYMBOLS : dict string string :=
  [("Climatology vs ERA5", "circle");
   ("Probabilistic Climatology vs ERA5", "circle");
   ("Persistence vs ERA5", "circle");
   ("IFS HRES vs Analysis", "circle");
   ("IFS HRES vs ERA5", "triangle-up");
   ("IFS ENS (mean) vs Analysis", "circle");
   ("IFS ENS (mean) vs ERA5", "triangle-up");
   ("IFS ENS (1st member) vs Analysis", "triangle-down");
   ("IFS ENS (1st member) vs ERA5", "square");
   ("IFS ENS vs Analysis", "circle");
   ("IFS ENS vs ERA5", "triangle-up");
   ("GraphCast vs ERA5", "circle");
   ("GraphCast (oper.) vs ERA5", "triangle-up");
   ("GraphCast (oper.) vs Analysis", "circle");
   ("Pangu-Weather vs ERA5", "circle");
   ("Pangu-Weather (oper.) vs ERA5", "triangle-up");
   ("Pangu-Weather (oper.) vs Analysis", "circle");
   ("Keisler (2022) vs ERA5", "circle");
   ("ERA5-Forecasts vs ERA5", "circle");
   ("NeuralGCM 0.7 vs ERA5", "circle");
   ("neuralgcm_hres_vs_era", "circle");
   ("NeuralGCM ENS vs ERA5", "square");
   ("NeuralGCM ENS (mean) vs ERA5", "square");
   ("NeuralGCM ENS (1st member) vs ERA5", "triangle-down");
   ("FuXi vs ERA5", "circle");
   ("GenCast vs ERA5", "circle");
   ("GenCast (mean) vs ERA5", "circle");
   ("GenCast (1st member) vs ERA5", "triangle-down");
   ("GenCast (oper.) vs ERA5", "triangle-up");
   ("GenCast (oper.) (mean) vs ERA5", "triangle-up");
   ("GenCast (oper.) (1st member) vs ERA5", "square");
   ("GenCast (oper.) vs Analysis", "circle");
   ("GenCast (oper.) (mean) vs Analysis", "circle");
   ("GenCast (oper.) (1st member) vs Analysis", "triangle-down");
   ("Aurora (oper.) vs Analysis", "triangle-down");
   ("Stormer ENS (mean) vs ERA5", "circle");
   ("ArchesWeather-Mx4 vs ERA5", "circle");
   ("ArchesWeatherGen (mean) vs ERA5", "square");
   ("ArchesWeatherGen vs ERA5", "circle");
   ("Swin vs ERA5", "circle");
   ("Excarta (HEAL-ViT) vs ERA5", "circle");
   ("Baguan vs ERA5", "circle");
   ("WeatherMesh4 vs ERA5", "circle")].

(** ** What the page shows *)
(** A plotly trace's "visible": True, False or "legendonly"; None leaves it unset. *)
Inductive visible := VTrue | VFalse | VLegendonly.
Record trace := mkTrace {
  t_name : string; t_x : list Z; t_y : list val; t_markers : bool;
  t_colour : colour; t_symbol : string; t_visible : option visible }.
Record figure := mkFigure { f_traces : list trace; f_ylabel : string; f_range : Z * Z }.
(** go.Figure() without traces or layout *)
Definition empty_figure : figure := mkFigure [] "" (0%Z, 0%Z).
(** What the callback returns: the figure, whether alert-relative and alert-seeps are open. *)
Record page := mkPage { p_figure : figure; p_relative_alert : bool; p_seeps_alert : bool }.
(** The inputs of the callback, dash_app.py 292-307.  [c_relative] says that the mode is
    RELATIVE_YES; [c_markers] that the checklist has its one entry ticked. *)
Record choice := mkChoice {
  c_variable : string; c_metric : string; c_level : label; c_region : string; c_year : string; c_resolution : string;
  c_relative : bool; c_relative_to : string; c_markers : bool }.

(** ** Parts of update_graph *)
(** Python's [sub in s] *)
Definition contains (sub s : string) : bool := match String.index 0 sub s with Some _ => true | None => false end.
(** [a.sel(d=l)] for one DataArray: KeyError for an unknown dimension or label.  The scalar
    coordinate that remains does not enter any value. *)
Definition sel_label (d : string) (l : label) (a : da) : result da :=
  match dget (dims a) d with
  | None => Err KeyError
  | Some have => if memb l have then Ok (mkDa (keep (fun n => negb (eqb n d)) (dims a)) (fun e => get a (upd e d l)) []) else Err KeyError
  end.
(** [ds.sel(d=l, drop=True)]: variables without the dimension stay. *)
Definition sel_ds (ds : vars da) (dl : string * label) : result (vars da) :=
  if has_dim ds (fst dl) then
    mapM (fun kv => if memb (fst dl) (dnames (snd kv)) then do a <- sel_label (fst dl) (snd dl) (snd kv); Ok (fst kv, a) else Ok kv) ds
  else Err KeyError.
(** dash_app.py 332-339 *)
Definition selection_of (ds : vars da) (c : choice) : result da :=
  do ds1 <- sel_ds ds ("region", LS (c_region c));
  do ds2 <- sel_ds ds1 ("metric", LS (c_metric c));
  do ds3 <- sel_ds ds2 ("level", c_level c);
  do ds4 <- sel_ds ds3 ("year", LS (c_year c));
  do ds5 <- sel_ds ds4 ("resolution", LS (c_resolution c));
  dgetE ds5 (c_variable c).
(** The elements of an array in C order. *)
Definition elements (a : da) : list val := map (get a) (envs (dims a) env0).
(** dash_app.py 350, 352: [selection.where(selection.lead_time > np.timedelta64(0, "h"))];
    AttributeError without that coordinate. *)
Definition where_positive_lead (a : da) : result da :=
  if memb "lead_time" (dnames a) then
    Ok (da_where (fun e => match e "lead_time" with LZ t => Z.ltb 0 t | _ => false end) NaN a)
  else Err AttributeError.
(** dash_app.py 345-348 *)
Definition relative_score (metric : string) (selection baseline : da) : da :=
  if String.eqb metric "ACC" then
    da_map (fun x => vmul x (Fin 100%R)) (binop vdiv (binop vsub selection baseline) (da_map (vsub (Fin 1%R)) baseline))
  else
    da_map (fun x => vmul x (Fin (-100)%R)) (binop vdiv (binop vsub selection baseline) baseline).
(** dash_app.py 343: [np.isnan(baseline).mean() == 1]; the mean of nothing is NaN. *)
Definition all_missing (baseline : da) : bool :=
  match elements baseline with [] => false | vs => forallb isnan vs end.
(** dash_app.py 341-352: the array to plot, and whether alert-relative opens *)
Definition plotted (c : choice) (selection : da) : result (da * bool) :=
  do r <- (if c_relative c then
             do baseline <- sel_label "model" (LS (c_relative_to c)) selection;
             do s <- where_positive_lead (relative_score (c_metric c) selection baseline);
             Ok (s, all_missing baseline)
           else Ok (selection, false));
  if String.eqb (c_metric c) "Spread/Skill Ratio" then do s <- where_positive_lead (fst r); Ok (s, snd r) else Ok r.
(** dash_app.py 363-373 *)
Definition first_visible (m : mode) (variable model : string) : option visible :=
  if contains "Precipitation" variable then (if memb model DEFAULT_MODELS_PRECIP then None else Some VLegendonly)
  else match m with
       | Deterministic => if memb model DEFAULT_MODELS then None else Some VLegendonly
       | Probabilistic => if memb model DEFAULT_MODELS_PROB then None else Some VLegendonly
       end.
(** dash_app.py 354, 375-391: the trace of one model, if it has a finite value *)
Definition trace_of (m : mode) (hours : list Z) (c : choice) (plot : da) (l : label) : result (list trace) :=
  do y <- sel_label "model" l plot;
  if existsb isfin (elements y) then
    match l with
    | LS model =>
        do col <- dgetE COLORS model;
        do sym <- dgetE SYMBOLS model;
        Ok [mkTrace model hours (elements y) (c_markers c) col sym (first_visible m (c_variable c) model)]
    | _ => Err KeyError
    end
  else Ok [].
(** dash_app.py 394-405: what the user had switched on or off stays; [previous] is the data of the
    figure shown before, each entry with its name and, if present, its "visible". *)
Definition visible_state (previous : list (string * option visible)) : dict string visible :=
  fold_left (fun acc i => dset acc (fst i) (match snd i with Some v => v | None => VTrue end)) previous [].
Definition retain (previous : option (list (string * option visible))) (t : trace) : trace :=
  match previous with
  | None => t
  | Some data =>
      let v := match dget (visible_state data) (t_name t) with
               | Some v => v
               | None => if memb (t_name t) DEFAULT_MODELS then VTrue else VLegendonly
               end in
      mkTrace (t_name t) (t_x t) (t_y t) (t_markers t) (t_colour t) (t_symbol t) (Some v)
  end.
(** dash_app.py 407-414 *)
Definition ylabel (c : choice) : result string :=
  if c_relative c then Ok ("% improvement relative to " ++ c_relative_to c)%string
  else if String.eqb (c_metric c) "ACC" then Ok "ACC"
  else do u <- dgetE UNITS (c_variable c);
       Ok ((if String.eqb (c_metric c) "rms_bias" then "RMS Bias" else c_metric c) ++ " [" ++ u ++ "]")%string.
(** dash_app.py 314-321 *)
Definition seeps_alert (c : choice) : bool :=
  String.eqb (c_metric c) "SEEPS" &&
  (negb (memb (c_variable c) ["24h Precipitation"; "6h Precipitation"]) || (c_relative c && contains "vs Analysis" (c_relative_to c))).

(** ** dash_app.py 305-430 update_graph *)
Definition update_graph (m : mode) (ds : vars da) (hours : list Z) (c : choice) (previous : option (list (string * option visible)))
    : result page :=
  if seeps_alert c then Ok (mkPage empty_figure false true) else                        (* 314-321 *)
  do selection <- selection_of ds c;                                                  (* 332-339 *)
  do pa <- plotted c selection;                                                       (* 341-352 *)
  do models <- match dget (dims (fst pa)) "model" with Some ls => Ok ls | None => Err AttributeError end;
  do traces <- mapM (trace_of m hours c (fst pa)) models; (* 354-391 *)
  do label <- ylabel c;                                                               (* 407-414 *)
  Ok (mkPage (mkFigure (map (retain previous) (concat traces)) label
                       (0%Z, match m with Deterministic => 240%Z | Probabilistic => 360%Z end))
             (snd pa) false).
(** dash_app.py 271-276 disable_level, 278-283 disable_relative_to *)
Definition disable_level (variable : string) : bool := memb variable SURFACE_VARIABLES.
Definition disable_relative_to (relative : bool) : bool := negb relative.
(** What the menus offer, 55-230: the variables of the dataset, and the labels of its dimensions. *)
Definition offered (ds : vars da) (d : string) : result (list label) := ds_labels ds d.
(** The choices made before the user changes any, 65-222. *)
Definition initial_choice (m : mode) : choice :=
  mkChoice "Temperature" (match m with Deterministic => "RMSE" | Probabilistic => "CRPS" end) (LZ 850%Z) "Global" "2020" "240x121" false
    (match m with Deterministic => "IFS HRES vs Analysis" | Probabilistic => "IFS ENS vs Analysis" end) true.
