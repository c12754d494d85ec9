(** Model of the part of the xarray library that weatherbenchX relies on:
    labelled arrays, alignment, broadcasting arithmetic, reductions, dot.
    xarray itself is not in /repo; every definition names the xarray operation it
    stands for and the calls in /repo that use it. *)
From Coq Require Import String ZArith QArith Qcanon Bool List.
Import ListNotations.
From Verif Require Import Prelude Values.
From Coq Require Import Reals.
Local Open Scope R_scope.
Local Open Scope list_scope.

(** Coordinate labels: integers (times in ns, member numbers, indices), exact
    rationals (latitudes, levels), strings (bin names), booleans (masks). *)
Inductive label := LZ (z : Z) | LQ (q : Qc) | LS (s : string) | LB (b : bool).
#[global] Instance EqDec_label : EqDec label.
Proof.
  intros a b. decide equality.
  - apply Z.eq_dec. - apply Qc_eq_dec. - apply string_dec. - apply bool_dec.
Defined.

(** A point of a labelled box: a label for every dimension name (only the
    dimensions of the array at hand matter). *)
Definition env := string -> label.
Definition env0 : env := fun _ => LZ 0.
Definition upd (e : env) (d : string) (l : label) : env :=
  fun d' => if string_dec d' d then l else e d'.

Definition dimlist := list (string * list label).

(** Non-dimension coordinate (e.g. "mask", or "lead_time" along "index"). *)
Record coord := mkCoord { c_dims : list string; c_get : env -> label }.

(** xarray.DataArray (name, attrs and dtype are not modelled). *)
Record da := mkDa { dims : dimlist; get : env -> val; aux : dict string coord }.

Definition dnames (a : da) : list string := map fst (dims a).
Definition labels_of (ds : dimlist) (d : string) : list label :=
  match dget ds d with Some l => l | None => [] end.
Definition in_box (ds : dimlist) (e : env) : bool :=
  forallb (fun p => memb (e (fst p)) (snd p)) ds.

(** All points of a box, the other dimensions being as in [e]. *)
Fixpoint envs (ds : dimlist) (e : env) : list env :=
  match ds with
  | [] => [e]
  | (d, ls) :: ds' => flat_map (fun l => envs ds' (upd e d l)) ls
  end.

Definition subsetb (l1 l2 : list string) : bool := forallb (fun x => memb x l2) l1.
Definition keep (p : string -> bool) (ds : dimlist) : dimlist := filter (fun q => p (fst q)) ds.

(** Labels of two joined dimensions. pandas may sort the union; order is not observable here. *)
Definition union_labels (l1 l2 : list label) : list label :=
  l1 ++ filter (fun x => negb (memb x l1)) l2.
Definition inter_labels (l1 l2 : list label) : list label :=
  filter (fun x => memb x l2) l1.

(** Dimensions of a broadcast, shared dimensions being joined by [j]. *)
Definition merge_dims (j : list label -> list label -> list label) (ds1 ds2 : dimlist) : dimlist :=
  map (fun p => match dget ds2 (fst p) with
                | Some l2 => (fst p, j (snd p) l2) | None => p end) ds1
  ++ filter (fun p => negb (memb (fst p) (map fst ds1))) ds2.

(** Equality of two non-dimension coordinates on a box. *)
Definition coord_eqb (ds : dimlist) (c1 c2 : coord) : bool :=
  subsetb (c_dims c1) (c_dims c2) && subsetb (c_dims c2) (c_dims c1)
  && forallb (fun e => eqb (c_get c1 e) (c_get c2 e)) (envs ds env0).

(** xarray arithmetic merges coordinates with compat="minimal": a non-dimension
    coordinate on which the operands disagree is silently dropped. *)
Definition merge_aux (ds : dimlist) (x y : dict string coord) : dict string coord :=
  filter (fun p => match dget y (fst p) with
                   | Some c => coord_eqb ds (snd p) c | None => true end) x
  ++ filter (fun p => negb (memb (fst p) (map fst x))) y.

(** Binary arithmetic [a op b]: arithmetic_join="inner" (xarray's default). *)
Definition binop (f : val -> val -> val) (a b : da) : da :=
  let ds := merge_dims inter_labels (dims a) (dims b) in
  mkDa ds (fun e => f (get a e) (get b e)) (merge_aux ds (aux a) (aux b)).

Definition scalar (v : val) : da := mkDa [] (fun _ => v) [].
Definition da_map (f : val -> val) (a : da) : da := mkDa (dims a) (fun e => f (get a e)) (aux a).

(** [xr.align( *arrays, join="outer", fill_value=fill, exclude=excl)]
    (aggregation.py 53, beam_pipeline.py 266-271). *)
Definition align_outer (excl : list string) (fill : val) (arrs : list da) : list da :=
  let J := fold_left (merge_dims union_labels) (map dims arrs) [] in
  map (fun a =>
         mkDa (map (fun p => (fst p, if memb (fst p) excl then snd p else labels_of J (fst p))) (dims a))
              (fun e => if in_box (keep (fun d => negb (memb d excl)) (dims a)) e then get a e else fill)
              (aux a)) arrs.

(** Python [sum(arrays)]: starts from the integer 0. *)
Definition py_sum (arrs : list da) : da := fold_left (binop vadd) arrs (scalar (Fin 0)).

(** Non-dimension coordinates that survive a reduction over [R]. *)
Definition aux_without (R : list string) (x : dict string coord) : dict string coord :=
  filter (fun p => negb (existsb (fun d => memb d R) (c_dims (snd p)))) x.

(** [a.sum(R, skipna=False)]: ValueError if a dimension is missing. *)
Definition da_sum (R : list string) (a : da) : result da :=
  if subsetb R (dnames a) then
    Ok (mkDa (keep (fun d => negb (memb d R)) (dims a))
             (fun e => vsum (map (get a) (envs (keep (fun d => memb d R) (dims a)) e)))
             (aux_without R (aux a)))
  else Err ValueError.

(** [xr.dot( *arrays, dim=R)]: inner join, broadcast product, sum over R. *)
Definition da_dot (R : list string) (arrs : list da) : da :=
  let J := fold_left (merge_dims inter_labels) (map dims arrs) [] in
  mkDa (keep (fun d => negb (memb d R)) J)
       (fun e => vsum (map (fun e' => vprod (map (fun a => get a e') arrs))
                           (envs (keep (fun d => memb d R) J) e)))
       [].

(** [a.where(cond, other)] for a condition defined on the same box. *)
Definition da_where (cond : env -> bool) (other : val) (a : da) : da :=
  mkDa (dims a) (fun e => if cond e then get a e else other) (aux a).

(** Selection of sub-lists of labels along some dimensions ([a.sel(d=labels)]). *)
Definition restrict (sel : dimlist) (a : da) : da :=
  mkDa (map (fun p => match dget sel (fst p) with
                      | Some ls => (fst p, ls) | None => p end) (dims a))
       (get a) (aux a).

(** xr.DataArray(): a dimensionless NaN (beam_pipeline.py 294). *)
Definition da_empty : da := scalar NaN.

(** Number of elements, [a.size]. *)
Definition da_size (a : da) : nat := fold_right Nat.mul 1%nat (map (fun p => length (snd p)) (dims a)).

(** [xr.combine_by_coords(arrays)] for unnamed arrays with common dimension
    names (beam_pipeline.py 295): labels are united per dimension, each point is
    taken from an array that has it, points covered by none are NaN.  Not
    modelled: the ValueError xarray raises when the combined time labels are not
    globally monotonic. *)
Definition combine_by_coords (arrs : list da) : da :=
  mkDa (fold_left (merge_dims union_labels) (map dims arrs) [])
       (fun e => match find (fun a => in_box (dims a) e) arrs with
                 | Some a => get a e | None => NaN end)
       [].
