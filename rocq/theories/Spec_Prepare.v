(** Specification vocabulary for the preparation of a loader's dataset. *)
From Coq Require Import String ZArith List Bool.
Import ListNotations.
From Verif Require Import Prelude Values Model_XArray Spec_XArray Model_MetricsBase Spec_Loaders Model_Prepare.
Local Open Scope string_scope.
Local Open Scope list_scope.

(** ** Names *)
(** [n] names a dimension or another coordinate of a variable. *)
Definition coordinate_of (ds : vars da) (n : string) : Prop :=
  exists v a, In (v, a) ds /\ (In n (dnames a) \/ In n (keys (aux a))).
Definition name_of (ds : vars da) (n : string) : Prop := In n (keys ds) \/ coordinate_of ds n.
(** "lat" and "lon" become "latitude" and "longitude" (only if both are coordinates). *)
Definition geographic (wanted : Prop) (rho : string -> string) : Prop :=
  (wanted -> rho "lat" = "latitude" /\ rho "lon" = "longitude") /\
  (forall n, (wanted -> n <> "lat" /\ n <> "lon") -> rho n = n).
(** The names of the time dimensions of a forecast, or of an analysis. *)
Definition ecmwf_names (forecast : Prop) (rho : string -> string) : Prop :=
  (forecast -> rho "time" = "init_time" /\ rho "prediction_timedelta" = "lead_time") /\
  (~ forecast -> rho "time" = "valid_time") /\
  (forall n, n <> "time" -> (forecast -> n <> "prediction_timedelta") -> rho n = n).
(** A name dictionary. *)
Definition by_dictionary (m : dict string string) (rho : string -> string) : Prop :=
  forall n, (forall n', dget m n = Some n' -> rho n = n') /\ (dget m n = None -> rho n = n).
Definition unchanged (rho : string -> string) : Prop := forall n, rho n = n.

(** The new name of every name, as the options ask for. *)
Definition asked_names (o : loader_options) (ds : vars da) (rho : string -> string) : Prop :=
  exists geo time var, (forall n, rho n = var (time (geo n))) /\
    geographic (o_convert_lat_lon o = true /\ coordinate_of ds "lat" /\ coordinate_of ds "lon") geo /\
    match o_rename_dimensions o with
    | Ecmwf => ecmwf_names (coordinate_of ds "prediction_timedelta") time
    | RenameMap m => by_dictionary m time
    | RenameNone => unchanged time
    | RenameOther => False
    end /\
    match o_rename_variables o with Some m => by_dictionary m var | None => unchanged var end.

(** ** Values *)
(** The dimensions fixed to one label by the selection. *)
Definition fixed_to (kw : option (dict string indexer)) (d : string) (l : label) : Prop :=
  exists k, kw = Some k /\ dget k d = Some (IxLabel l).
(** The labels asked for along a dimension. *)
Definition asked_labels (kw : option (dict string indexer)) (d : string) (have ls : list label) : Prop :=
  match kw with
  | None => ls = have
  | Some k => match dget k d with
              | None => ls = have
              | Some (IxLabel _) => False
              | Some (IxList l) => ls = l /\ incl l have
              | Some (IxSlice lo hi) => ls = filter (fun x => label_leb lo x && label_leb x hi) have
              end
  end.
(** The array [b] is the array [a] under the names [rho], with the asked labels: every dimension of
    [a] is a dimension of [b] under its new name, or fixed to one of its labels; the value at a point
    is the one of [a] at the same labels. *)
Record selected_from (kw : option (dict string indexer)) (rho : string -> string) (a b : da) : Prop := {
  sf_kept : forall n have, In (n, have) (dims a) ->
    (exists ls, In (rho n, ls) (dims b) /\ asked_labels kw (rho n) have ls) \/
    (exists l, fixed_to kw (rho n) l /\ In l have /\ ~ In (rho n) (dnames b));
  sf_no_other : forall d, In d (dnames b) -> exists n, In n (dnames a) /\ d = rho n;
  sf_value : forall e e',
    (forall n, In n (dnames a) -> (forall l, ~ fixed_to kw (rho n) l) -> e' n = e (rho n)) ->
    (forall n l, In n (dnames a) -> fixed_to kw (rho n) l -> e' n = l) ->
    get b e = get a e' }.

(** ** Histories *)
(** What the loader starts from: the dataset it was given, or else the file as it is at that moment. *)
Definition reading (o : loader_options) (given : option (vars da)) (w : files) : result (vars da) :=
  match given, o_path o with
  | Some d, _ => Ok d
  | None, Some path => open_path w path
  | None, None => Err AssertionError
  end.
(** One preparation of the dataset that was read: preprocessing, names, variables, labels. *)
Definition step {A} (o : option A) (f : A -> vars da -> result (vars da)) (d d' : vars da) : Prop :=
  match o with Some x => f x d = Ok d' | None => d' = d end.
Definition prepared_from (o : loader_options) (raw ds : vars da) : Prop :=
  exists d1 d2 d3, step (o_preprocessing_fn o) (fun f => f) raw d1 /\
    rename_dataset d1 (o_rename_dimensions o) (o_rename_variables o) (o_convert_lat_lon o) = Ok d2 /\
    step (o_variables o) select_variables d2 d3 /\ step (o_sel_kwargs o) sel_kwargs d3 ds.
