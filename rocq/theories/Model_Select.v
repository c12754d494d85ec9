(** Model of weatherbenchX/metrics/wrappers.py 663-766: the input transforms Rename, Select and
    StackToNewDimension.  Names of transforms contain [repr] of the arguments, which are parameters. *)
From Coq Require Import String ZArith List Bool Reals.
Import ListNotations.
From Verif Require Import Prelude Values Model_XArray Model_MetricsBase Model_Aggregation Model_Deterministic Model_Loaders Model_Wrappers Model_Prepare.
Local Open Scope Z_scope.
Local Open Scope string_scope.
Local Open Scope list_scope.

(** [da.rename(m)] with a dictionary: dimensions and coordinates of the array (its own name is not
    one of them); ValueError if a name does not exist or two names become equal. *)
Definition array_names (a : da) : list string := nodup string_dec (dnames a ++ keys (aux a)).
Definition rename_array (m : dict string string) (a : da) : result da :=
  if forallb (fun n => memb n (array_names a)) (keys m) && nodupb (map (new_name m) (array_names a))
  then Ok (rename_da m a) else Err ValueError.
(** 663-686 Rename *)
Definition Rename (repr : dict string string -> string) (w : string) (renames : dict string string) : result transform :=
  input_transform w ("rename_" ++ repr renames)%string (fun _ a => rename_array renames a).

(** [da.sel(indexers)]: the dataset selection on one array (KeyError if a dimension is missing). *)
Definition sel_array (kw : dict string indexer) (a : da) : result da :=
  do out <- sel_kwargs kw [("", a)];
  match out with [(_, b)] => Ok b | _ => Err KeyError end.

(** ** [da.isel(indexers)]: positions, counted from the end if negative; a slice. *)
Inductive position := PosAt (k : Z) | PosList (ks : list Z) | PosSlice (start stop : option Z).
(** Python's index: IndexError outside. *)
Definition pos_label (ls : list label) (k : Z) : result label :=
  let p := (if k <? 0 then k + Z.of_nat (length ls) else k)%Z in
  if (p <? 0)%Z then Err IndexError
  else match nth_error ls (Z.to_nat p) with Some l => Ok l | None => Err IndexError end.
(** Python's slice bound: from the end if negative, cut to 0..n. *)
Definition slice_bound (n : Z) (k : Z) : Z := (Z.max 0 (Z.min n (if k <? 0 then k + n else k)))%Z.
Definition slice_labels (ls : list label) (start stop : option Z) : list label :=
  let n := Z.of_nat (length ls) in
  let a := match start with Some k => slice_bound n k | None => 0%Z end in
  let b := match stop with Some k => slice_bound n k | None => n end in
  firstn (Z.to_nat (b - a)%Z) (skipn (Z.to_nat a) ls).
Definition isel_one (d : string) (ix : position) (a : da) : result da :=
  match dget (dims a) d with
  | None => Err ValueError
  | Some ls =>
      match ix with
      | PosAt k => do l <- pos_label ls k; sel_array [(d, IxLabel l)] a
      | PosList ks => do l <- mapM (pos_label ls) ks; Ok (restrict [(d, l)] a)
      | PosSlice start stop => Ok (restrict [(d, slice_labels ls start stop)] a)
      end
  end.
Fixpoint isel_array (kw : dict string position) (a : da) : result da :=
  match kw with
  | [] => Ok a
  | (d, ix) :: kw' => do a' <- isel_one d ix a; isel_array kw' a'
  end.
(** 689-726 Select; the additional keyword arguments (method, tolerance, drop, missing_dims) are
    in Model_SelectMethod.v. *)
Definition select_fn (sel : option (dict string indexer)) (isel : option (dict string position)) (a : da) : result da :=
  do a <- match sel with Some kw => sel_array kw a | None => Ok a end;
  match isel with Some kw => isel_array kw a | None => Ok a end.
Definition Select (repr_sel : option (dict string indexer) -> string) (repr_isel : option (dict string position) -> string)
    (w : string) (sel : option (dict string indexer)) (isel : option (dict string position)) : result transform :=
  input_transform w ("select_self._isel=" ++ repr_isel isel ++ "_self._isel_kwargs={}_self._sel=" ++ repr_sel sel ++ "_self._sel_kwargs={}")%string
    (fun _ a => select_fn sel isel a).

(** ** 762-766 [da.stack({tmp: dims}).drop_vars(dims).rename({tmp: new})] *)
(** The stacked part of the box, in the order of [ds]. *)
Definition stacked_box (ds : list string) (a : da) : dimlist := map (fun d => (d, labels_of (dims a) d)) ds.
(** The point of [a] at a position of the new dimension: the last of [ds] varies fastest.  (Outside the
    array: any point.) *)
Definition unstack (ds : list string) (new : string) (a : da) (e : env) : env :=
  let e0 := fun n => if memb n ds then env0 n else e n in
  match e new with LZ k => nth (Z.to_nat k) (envs (stacked_box ds a) e0) e0 | _ => e0 end.
(** KeyError if a dimension is missing; ValueError for a repeated one or none at all (nothing is stacked,
    and the temporary name is missing), or if the new name is that of another dimension or coordinate.  The coordinates of the stacked dimensions are dropped: the new
    dimension has no labels but its positions. *)
Definition stack_array (ds : list string) (new : string) (a : da) : result da :=
  if negb (subsetb ds (dnames a)) then Err KeyError
  else if negb (nodupb ds) || Nat.eqb (length ds) 0 then Err ValueError
  else
    let others := keep (fun n => negb (memb n ds)) (dims a) in
    if memb new (map fst others) || memb new (keys (aux a)) then Err ValueError
    else
      let n := length (envs (stacked_box ds a) env0) in
      Ok (mkDa (others ++ [(new, map (fun k => LZ (Z.of_nat k)) (seq 0 n))])
               (fun e => get a (unstack ds new a e))
               (map (fun c => (fst c,
                  if existsb (fun d => memb d ds) (c_dims (snd c))
                  then mkCoord (filter (fun d => negb (memb d ds)) (c_dims (snd c)) ++ [new]) (fun e => c_get (snd c) (unstack ds new a e))
                  else snd c)) (aux a))).
(** 729-766 StackToNewDimension *)
Definition StackToNewDimension (repr : list string -> string) (w : string) (ds : list string) (new : string) : result transform :=
  input_transform w ("stack_" ++ repr ds ++ "_to_" ++ new)%string (fun _ a => stack_array ds new a).
