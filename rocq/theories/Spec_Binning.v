(** Specification vocabulary for bin masks. *)
From Coq Require Import String ZArith QArith Qround Qcanon Bool List.
Import ListNotations.
From Verif Require Import Prelude Values Model_XArray Spec_XArray.
From Coq Require Import Reals.
Local Open Scope string_scope.
Local Open Scope list_scope.

(** Non-dimension coordinates are arrays over dimensions of the data. *)
Definition coords_local (st : da) : Prop :=
  forall k c, dget (aux st) k = Some c ->
    incl (c_dims c) (dnames st) /\
    forall e e', (forall d, In d (c_dims c) -> e d = e' d) -> c_get c e = c_get c e'.

(** The coordinate [name] of [st] has the value [l] at the point [e]. *)
Definition coord_at (st : da) (name : string) (e : env) (l : label) : Prop :=
  (In name (dnames st) /\ l = e name) \/
  (~ In name (dnames st) /\ exists c, dget (aux st) name = Some c /\ l = c_get c e).
Definition has_coord (st : da) (name : string) : Prop :=
  In name (dnames st) \/ exists c, dget (aux st) name = Some c.
(** A label that is the number [q]. *)
Inductive is_number : label -> Q -> Prop :=
| number_Z z : is_number (LZ z) (inject_Z z)
| number_Q q : is_number (LQ q) (this q).
Definition number_at (st : da) (name : string) (e : env) (q : Q) : Prop :=
  exists l, coord_at st name e l /\ is_number l q.

(** The mask value is 1 where [P] holds and 0 where it does not. *)
Definition shows (v : val) (P : Prop) : Prop := (P /\ v = Fin 1%R) \/ (~ P /\ v = Fin 0%R).
(** The bin labelled [l] of the mask [m] along [d], at the point [e] of the data. *)
Definition in_bin (m : da) (d : string) (l : label) (e : env) : val := get m (upd e d l).
(** The mask can be used with the data: a well-formed array of 0/1 values over the bin
    dimension (with these labels) and some dimensions of the data with the data's labels. *)
Record mask_for (st m : da) (d : string) (labels : list label) : Prop := {
  mf_wf : wf m;
  mf_labels : dget (dims m) d = Some labels;
  mf_dims : forall k ls, In (k, ls) (dims m) -> k = d \/ In (k, ls) (dims st);
  mf_01 : forall e, point_of (dims m) e -> get m e = Fin 0%R \/ get m e = Fin 1%R }.

(** Longitude [x] lies, up to full turns, on the closed arc travelled eastwards from [a] to
    [b]; the whole circle when the ends coincide. *)
Definition turns (k : Z) : Q := (360 * inject_Z k)%Q.
Definition on_arc (a b x : Q) : Prop :=
  exists w k j, (0 < w <= 360)%Q /\ (b == a + w + turns j)%Q /\
              (a <= x + turns k <= a + w)%Q.

(** A land-sea mask over latitude and longitude, on the grid of [st] (latitudes in any order). *)
Definition grid_dims (lm : da) : Prop := forall k, In k (dnames lm) <-> k = "latitude" \/ k = "longitude".
Definition same_grid (st lm : da) : Prop :=
  In "latitude" (dnames st) /\ In "longitude" (dnames st) /\
  (forall x, In x (labels_of (dims st) "latitude") <-> In x (labels_of (dims lm) "latitude")) /\
  labels_of (dims st) "longitude" = labels_of (dims lm) "longitude".
(** The region names, followed by the names of their land bins. *)
Definition all_names {A} (regions : list (string * A)) : list string :=
  map fst regions ++ map (fun r => fst r ++ "_land")%string regions.
(** The same region up to full turns of its longitude limits. *)
Definition turned (r r' : string * ((Q * Q) * (Q * Q))) : Prop :=
  fst r = fst r' /\ fst (snd r) = fst (snd r') /\
  (exists j, fst (snd (snd r')) == fst (snd (snd r)) + turns j)%Q /\
  (exists j, snd (snd (snd r')) == snd (snd (snd r)) + turns j)%Q.
(** The land fraction reaches the threshold. *)
Definition is_land (fraction : da) (threshold : R) (e : env) : Prop :=
  get fraction e = PInf \/ exists r, get fraction e = Fin r /\ (threshold <= r)%R.
(** Equal as numpy elements: the same label, or equal numbers. *)
Definition same_value (a b : label) : Prop :=
  a = b \/ exists p q, is_number a p /\ is_number b q /\ (p == q)%Q.
(** The smallest number of steps from [lo] that reaches [hi]. *)
Definition steps (lo hi step : Q) (n : nat) : Prop :=
  (0 < n)%nat /\ (hi <= lo + inject_Z (Z.of_nat n) * step)%Q /\ (lo + inject_Z (Z.of_nat n - 1) * step < hi)%Q.
Definition start_of (lo step : Q) (i : nat) : Q := (lo + inject_Z (Z.of_nat i) * step)%Q.
(** East end of a longitude range: a range that is not increasing crosses the date line. *)
Definition lon_end (lo hi : Q) : Q := if Qle_bool hi lo then (hi + 360)%Q else hi.
(** Bin labels: with a global bin all labels are text. *)
Definition bin_label (fmt : label -> string) (add_global_bin : bool) (l : label) : label :=
  if add_global_bin then match l with LS s => LS s | _ => LS (fmt l) end else l.
Definition glob_labels (add_global_bin : bool) : list label := if add_global_bin then [LS "global"] else [].
