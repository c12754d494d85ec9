(** What it means that a map on tangents is the derivative of a function of the aggregation state. *)
From Coq Require Import String ZArith List Bool Reals.
Import ListNotations.
From Verif Require Import Prelude Values Model_XArray Spec_XArray Spec_Reduce Model_Tree Model_MetricsBase Model_Aggregation Spec_Resample Model_Autodiff.
Local Open Scope R_scope.
Local Open Scope list_scope.

(** The average over the units of dimension [d]. *)
Definition mean_over (d : string) (x : da) : da :=
  mkDa (keep (fun k => negb (eqb k d)) (dims x))
       (fun e => vdiv (vsum (along x d e)) (Fin (INR (length (labels_of (dims x) d))))) (aux_without [d] (aux x)).

Section Derivative.
  (** A state: for every statistic and variable some [z], with weighted statistics [a z] and
      weights [b z]. *)
  Context {X : Type} (st : dict string (dict string X)) (a b : X -> da).

  (** A place in a state: weighted statistics (false) or weights (true), statistic, variable, point. *)
  Definition place := (bool * string * string * env)%type.
  Definition place_in (pl : place) : Prop :=
    match pl with (w, name, var, e) => exists z, entry st name var z /\ point_of (dims (if w then b z else a z)) e end.
  (** Value of the arrays [p z], [q z] at a place. *)
  Definition value_at (p q : X -> da) (pl : place) : val :=
    match pl with (w, name, var, e) =>
      match dget st name with
      | Some vs => match dget vs var with Some z => get (if w then q z else p z) e | None => NaN end
      | None => NaN end end.
  (** Tangents: well-formed finite arrays of the shape of the state. *)
  Definition tangent (p q : X -> da) : Prop :=
    forall name var z, entry st name var z ->
      dims (p z) = dims (a z) /\ dims (q z) = dims (b z) /\
      (forall e, point_of (dims (a z)) e -> isfin (get (p z) e) = true) /\
      (forall e, point_of (dims (b z)) e -> isfin (get (q z) e) = true) /\
      wf (p z) /\ wf (q z).
  Definition arrays_state (p q : X -> da) : state := Some (tree_of st p, tree_of st q).
  (** [L] is a linear map: every output is a fixed linear combination (a row of the Jacobian matrix)
      of the tangents. *)
  Definition linear_on (L : state -> result metric_arrays) : Prop :=
    exists jacobian : string -> string -> env -> list (R * place),
      (forall m var e c pl, In (c, pl) (jacobian m var e) -> place_in pl) /\
      forall p q o m var y e, tangent p q -> L (arrays_state p q) = Ok o -> entry o m var y -> point_of (dims y) e ->
        get y e = vsum (map (fun cp => vmul (Fin (fst cp)) (value_at p q (snd cp))) (jacobian m var e)).
  (** There are outputs for all tangents, with the variables and shapes of [value]. *)
  Definition shaped_like (L : state -> result metric_arrays) (value : metric_arrays) : Prop :=
    forall p q, tangent p q -> exists o, L (arrays_state p q) = Ok o /\
      forall m var x, entry value m var x -> exists y, entry o m var y /\ dims y = dims x /\ wf y.
  (** The state moved by [h] times a tangent. *)
  Definition moved_array (h : R) (x t : da) : da := mkDa (dims x) (fun e => vadd (get x e) (vmul (Fin h) (get t e))) (aux x).
  Definition moved (p q : X -> da) (h : R) : state :=
    arrays_state (fun z => moved_array h (a z) (p z)) (fun z => moved_array h (b z) (q z)).
  (** Outputs are derivatives: wherever the value of [f] at a point is, near the state, a real
      function [g] of the distance moved along a tangent, the output for that tangent is the
      derivative of [g] at 0. *)
  Definition derivative_on (f L : state -> result metric_arrays) : Prop :=
    forall p q o m var y e (g : R -> R) delta,
      tangent p q -> L (arrays_state p q) = Ok o -> entry o m var y -> point_of (dims y) e ->
      0 < delta ->
      (forall h, Rabs h < delta -> exists fh x, f (moved p q h) = Ok fh /\ entry fh m var x /\ get x e = Fin (g h)) ->
      exists r, get y e = Fin r /\ derivable_pt_lim g 0 r.
End Derivative.
