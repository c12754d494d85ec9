(** Specification vocabulary for the Aggregator. *)
From Coq Require Import String List Bool.
Import ListNotations.
From Verif Require Import Prelude Values Model_XArray Spec_XArray Model_Aggregation.
From Coq Require Import Reals.
Local Open Scope R_scope.
Local Open Scope list_scope.

(** [P] enumerates, without repetition, the points that a reduction over the dimensions
    [R] of the arrays [arrs] visits from the point [e]: they agree with [e] outside [R],
    and along each reduced dimension have a label common to all arrays having it. *)
Definition reduced_points (arrs : list da) (R : list string) (e : env) (P : list env) : Prop :=
  NoDup P /\
  forall e', In e' P <->
    (forall d, ~ (In d R /\ exists a, In a arrs /\ In d (dnames a)) -> e' d = e d) /\
    (forall a d, In a arrs -> In d R -> In d (dnames a) -> In (e' d) (labels_of (dims a) d)).

(** The point counts: its mask is true (if masking is on and the statistic has a mask)
    and, with skipna, its value is not NaN. *)
Definition counted (g : aggregator) (st : da) (e : env) : bool :=
  match (if masked g then dget (aux st) "mask"%string else None) with
  | Some c => truthy (c_get c e)
  | None => true
  end && (negb (skipna g) || negb (isnan (get st e))).

(** A weighting or binning that looks at the coordinates of the statistic only. *)
Definition uses_coords {B} (f : da -> B) : Prop :=
  forall a b, dims a = dims b -> aux a = aux b -> f a = f b.

(** The mask coordinate has all dimensions of every other non-dimension coordinate
    (otherwise those coordinates are lost from the mask array). *)
Definition mask_spans (st : da) : Prop :=
  forall c, dget (aux st) "mask"%string = Some c ->
    forall k c', In (k, c') (aux st) -> incl (c_dims c') (c_dims c).

(** Real-valued on its box. *)
Definition real_valued (a : da) (r : env -> R) : Prop :=
  forall e, point_of (dims a) e -> get a e = Fin (r e).
(** A 0/1 mask on its box. *)
Definition indicator (a : da) (b : env -> bool) : Prop :=
  forall e, point_of (dims a) e -> get a e = b2v (b e).

Definition rprod (l : list R) : R := fold_right Rmult 1 l.

(** The weight with which the point [e] enters: the product of the weights if the point
    is counted and lies in all bins, 0 otherwise. *)
Definition point_weight (g : aggregator) (st : da) (wrs : list (env -> R)) (bs : list (env -> bool)) (e : env) : R :=
  if counted g st e && forallb (fun b => b e) bs then rprod (map (fun r => r e) wrs) else 0.

(** A statistic [st] whose counted values are the reals [s], weighted by [ws] (the reals
    [wrs]) and binned by [ms] (the predicates [bs]). *)
Record weighted_input (g : aggregator) (st : da) (s : env -> R)
    (ws : list da) (wrs : list (env -> R)) (ms : list da) (bs : list (env -> bool)) : Prop := {
  wi_wf : wf st;
  wi_spans : mask_spans st;
  wi_weights_coords : forall w, In w (weigh_by g) -> uses_coords w;
  wi_bins_coords : forall b, In b (bin_by g) -> uses_coords (create_bin_mask b);
  wi_weights : mapM (fun w => w st) (weigh_by g) = Ok ws;
  wi_bins : mapM (fun b => create_bin_mask b st) (bin_by g) = Ok ms;
  wi_all_wf : forall a, In a (ws ++ ms) -> wf a;
  wi_real : Forall2 real_valued ws wrs;
  wi_ind : Forall2 indicator ms bs;
  wi_finite : forall e, point_of (dims st) e -> counted g st e = true -> get st e = Fin (s e) }.

(** Same aggregator with other reduction dimensions. *)
Definition with_reduce_dims (g : aggregator) (R : list string) : aggregator :=
  mkAgg R (bin_by g) (weigh_by g) (masked g) (skipna g).

(** Outcomes (value or exception) related by [Q]. *)
Definition outcome_rel {A} (Q : A -> A -> Prop) (r1 r2 : result A) : Prop :=
  match r1, r2 with Ok a, Ok b => Q a b | Err e, Err e' => e = e' | _, _ => False end.

(** Lists of named items with equal names in the same order and related items. *)
Definition items_rel {A B} (Q : A -> B -> Prop) : list (string * A) -> list (string * B) -> Prop :=
  Forall2 (fun x y => fst x = fst y /\ Q (snd x) (snd y)).


Definition opt_rel {A} (Q : A -> A -> Prop) (a b : option A) : Prop :=
  match a, b with Some x, Some y => Q x y | None, None => True | _, _ => False end.


(** Two variables that agree wherever the first one's mask is true. *)
Definition agree_unmasked (a b : da) : Prop :=
  dims a = dims b /\ aux a = aux b /\ NoDup (dnames a) /\
  forall c, dget (aux a) "mask"%string = Some c -> 
   forall e, point_of (dims a) e -> truthy (c_get c e) = true -> get a e = get b e.

