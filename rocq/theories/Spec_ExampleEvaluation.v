(** Specification vocabulary for the example evaluation (C74). *)
From Coq Require Import String List Bool ZArith QArith Reals.
Import ListNotations.
From Verif Require Import Prelude Values Model_XArray Spec_XArray Spec_RoundTrip Spec_Binning Spec_Weighting Spec_EndToEnd.
Local Open Scope string_scope.
Local Open Scope list_scope.

(** The time at which a forecast from [q]'s init_time with [q]'s lead_time holds. *)
Definition verification_time (q : env) : Z :=
  match q "init_time", q "lead_time" with LZ t, LZ l => (t + l)%Z | _, _ => 0%Z end.
(** The truth for the forecast at [q]: the stored value at its verification time. *)
Definition truth (T : da) (q : env) : val := get T (upd q "valid_time" (LZ (verification_time q))).
Definition real (v : val) : R := match v with Fin x => x | _ => 0%R end.
(** The labels evaluated: the requested times, and everything along the other dimensions. *)
Definition eval_labels (inits leads : list Z) (P : da) (d : string) : list label :=
  if eq_dec d "init_time" then map LZ inits else if eq_dec d "lead_time" then map LZ leads else labels_of (dims P) d.
(** What the theorems ask of the two datasets, predictions [pd] and targets [td], and the requested
    times.  [lats] are the latitudes of both. *)
Record evaluable (inits leads : list Z) (pd td : dict string da) (lats : list R) : Prop := {
  ev_pd : forall v P, dget pd v = Some P -> wf P /\ aux P = [] /\ incl ["init_time"; "lead_time"; "latitude"; "longitude"] (dnames P) /\
     ~ In "valid_time" (dnames P) /\ ~ In "region" (dnames P) /\
     incl (map LZ inits) (labels_of (dims P) "init_time") /\ incl (map LZ leads) (labels_of (dims P) "lead_time");
  ev_td : forall v T, dget td v = Some T -> wf T /\ aux T = [] /\ In "valid_time" (dnames T) /\ ~ In "init_time" (dnames T) /\ ~ In "lead_time" (dnames T) /\
     forall i l, In i inits -> In l leads -> In (LZ (i + l)) (labels_of (dims T) "valid_time");
  ev_grid : forall v P T d, dget pd v = Some P -> dget td v = Some T -> d <> "init_time" -> d <> "lead_time" -> d <> "valid_time" ->
     dget (dims P) d = dget (dims T) d;
  ev_lat : forall v P, dget pd v = Some P -> exists ls, dget (dims P) "latitude" = Some ls /\ Forall2 latitude ls lats;
  ev_lats : in_range lats /\ monotonic lats /\ (2 <= List.length lats)%nat;
  ev_lon : forall v P l, dget pd v = Some P -> In l (labels_of (dims P) "longitude") -> exists q, is_number l q;
  ev_shared : forall v P v' P', dget pd v = Some P -> dget pd v' = Some P' -> labels_agree P P';
  ev_some : forall v P d, dget pd v = Some P -> In d (dnames P) -> labels_of (dims P) d <> [];
  ev_values : forall v P T q, dget pd v = Some P -> dget td v = Some T -> (forall d, In d (dnames P) -> In (q d) (eval_labels inits leads P d)) ->
     get P q = Fin (real (get P q)) /\ truth T q = Fin (real (truth T q)) }.
(** The two regions. *)
Definition in_example_region (label : string) (q : env) : Prop :=
  label = "global" \/ label = "northern-hemisphere" /\ exists lat, is_number (q "latitude") lat /\ (20 <= lat)%Q.
(** [e] is a point of the result for [P]: a region and labels along what is not averaged over. *)
Definition example_point (inits leads : list Z) (over : list string) (P : da) (label : string) (e : env) : Prop :=
  (label = "global" \/ label = "northern-hemisphere") /\ e "region" = LS label /\
  forall d, In d (dnames P) -> ~ In d over -> In (e d) (eval_labels inits leads P d).
(** [Q] are the evaluated points of the region that agree with [e] except along [over]. *)
Definition example_sample (inits leads : list Z) (over : list string) (P : da) (label : string) (e : env) (Q : list env) : Prop :=
  NoDup Q /\ forall q, In q Q <->
    (forall d, ~ In d over -> q d = e d) /\ (forall d, In d over -> In (q d) (eval_labels inits leads P d)) /\ in_example_region label q.
(** The squared error of the forecast at [q]. *)
Definition squared_error_at (P T : da) (q : env) : R := ((real (get P q) - real (truth T q)) * (real (get P q) - real (truth T q)))%R.
(** The two metrics: what is made of the mean. *)
Definition example_scores : list (string * (val -> val)) := [("rmse", root); ("mse", fun m => m)].
