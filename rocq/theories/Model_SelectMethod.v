(** Model of weatherbenchX/metrics/wrappers.py 689-726: Select with its additional keyword arguments:
    [method], [tolerance] and [drop] of [DataArray.sel] (sel_kwargs), [drop] and [missing_dims] of
    [DataArray.isel] (isel_kwargs).  The labels looked up with a method are numbers or times (LZ, LQ). *)
From Coq Require Import String ZArith QArith Qabs Qcanon List Bool.
Import ListNotations.
From Verif Require Import Prelude Values Model_XArray Model_Wrappers Model_Prepare Model_Select.
Local Open Scope string_scope.
Local Open Scope list_scope.

(** The keyword arguments; the defaults are no method, no tolerance, [drop=False], [missing_dims="raise"]. *)
Inductive fill_method := MPad | MBackfill | MNearest.
Record sel_options := mkSelOptions { so_method : option fill_method; so_tolerance : option Q; so_drop : bool }.
Inductive missing_mode := MRaise | MWarn | MIgnore.
Record isel_options := mkIselOptions { io_drop : bool; io_missing : missing_mode }.
Definition sel_defaults : sel_options := mkSelOptions None None false.
Definition isel_defaults : isel_options := mkIselOptions false MRaise.

(** ** pandas' Index.get_indexer with a method *)
Definition numeric (l : label) : bool := match l with LZ _ | LQ _ => true | _ => false end.
Definition lnum (l : label) : Q := match l with LZ z => inject_Z z | LQ q => this q | _ => 0%Q end.
Definition Qltb (x y : Q) : bool := negb (Qle_bool y x).
(** is_monotonic_increasing / is_monotonic_decreasing of an index without duplicates *)
Definition rising (ls : list label) : bool := forallb (fun ab => Qltb (lnum (fst ab)) (lnum (snd ab))) (neighbours ls).
Definition falling (ls : list label) : bool := forallb (fun ab => Qltb (lnum (snd ab)) (lnum (fst ab))) (neighbours ls).
Definition not_after (up : bool) (x y : label) : bool := if up then Qle_bool (lnum x) (lnum y) else Qle_bool (lnum y) (lnum x).
Definition distance (x y : label) : Q := Qabs (lnum x - lnum y).
(** pad: the last position not after the label; backfill: the first one not before it, in the order of
    the index.  nearest: the nearer of the two; [op = lt if self.is_monotonic_increasing else le]. *)
Definition fill_label (m : fill_method) (have : list label) (l : label) : option label :=
  let up := rising have in
  let before := find (fun x => not_after up x l) (rev have) in
  let after := find (fun x => not_after up l x) have in
  match m with
  | MPad => before
  | MBackfill => after
  | MNearest =>
      match before, after with
      | Some a, Some b =>
          Some (if (if up then Qltb (distance a l) (distance b l) else Qle_bool (distance a l) (distance b l)) then a else b)
      | Some a, None => Some a
      | None, r => r
      end
  end.
(** tolerance: a farther label is not found.  KeyError if a label is not found. *)
Definition near_label (m : fill_method) (tolerance : option Q) (have : list label) (l : label) : result label :=
  match fill_label m have l with
  | None => Err KeyError
  | Some x => if match tolerance with Some t => Qle_bool (distance x l) t | None => true end then Ok x else Err KeyError
  end.

(** ** xarray's PandasIndex.sel: the indexer with the labels that were found.  A slice with a method or
    a tolerance is NotImplementedError; a tolerance without a method is a ValueError for a list and
    ignored for one label; an index that is neither increasing nor decreasing is a ValueError.
    (Labels that are not numbers: TypeError; pandas can pad strings.) *)
Definition resolve (o : sel_options) (have : list label) (ix : indexer) : result indexer :=
  match so_method o with
  | None =>
      match ix, so_tolerance o with
      | IxSlice _ _, Some _ => Err NotImplementedError
      | IxList _, Some _ => Err ValueError
      | _, _ => Ok ix
      end
  | Some m =>
      let look l := if numeric l then near_label m (so_tolerance o) have l else Err TypeError in
      match ix with
      | IxSlice _ _ => Err NotImplementedError
      | IxLabel l => if forallb numeric have then if rising have || falling have then do x <- look l; Ok (IxLabel x) else Err ValueError else Err TypeError
      | IxList ls => if forallb numeric have then if rising have || falling have then do xs <- mapM look ls; Ok (IxList xs) else Err ValueError else Err TypeError
      end
  end.
(** Every indexer is resolved on the array as it was (which of several failures is raised is not modelled). *)
Definition resolve_all (o : sel_options) (ds : dimlist) (kw : dict string indexer) : result (dict string indexer) :=
  mapM (fun x => do have <- dgetE ds (fst x); do ix <- resolve o have (snd x); Ok (fst x, ix)) kw.

(** [drop=True]: coordinates that had dimensions in [a] and have none after the selection are dropped. *)
Definition became_scalar (a : da) (c : string * coord) : bool :=
  match c_dims (snd c) with
  | [] => memb (fst c) (dnames a) || match dget (aux a) (fst c) with Some k => match c_dims k with [] => false | _ => true end | None => false end
  | _ => false
  end.
Definition drop_scalars (drop : bool) (a b : da) : da :=
  if drop then mkDa (dims b) (get b) (filter (fun c => negb (became_scalar a c)) (aux b)) else b.
Definition sel_with (o : sel_options) (kw : dict string indexer) (a : da) : result da :=
  do kw' <- resolve_all o (dims a) kw;
  do b <- sel_array kw' a;
  Ok (drop_scalars (so_drop o) a b).
(** [missing_dims]: "warn" and "ignore" leave out the dimensions that are missing. *)
Definition isel_with (o : isel_options) (kw : dict string position) (a : da) : result da :=
  do b <- isel_array (match io_missing o with MRaise => kw | _ => filter (fun x => memb (fst x) (dnames a)) kw end) a;
  Ok (drop_scalars (io_drop o) a b).

(** ** 689-726 *)
Definition select_with_fn (sel : option (dict string indexer)) (so : sel_options) (isel : option (dict string position)) (io : isel_options) (a : da) : result da :=
  do a <- match sel with Some kw => sel_with so kw a | None => Ok a end;                      (* 722-723 *)
  match isel with Some kw => isel_with io kw a | None => Ok a end.                            (* 724-725 *)
Definition SelectWith (repr_sel repr_so repr_isel repr_io : string) (w : string)
    (sel : option (dict string indexer)) (so : sel_options) (isel : option (dict string position)) (io : isel_options) : result transform :=
  input_transform w ("select_self._isel=" ++ repr_isel ++ "_self._isel_kwargs=" ++ repr_io ++ "_self._sel=" ++ repr_sel ++ "_self._sel_kwargs=" ++ repr_so)%string
    (fun _ a => select_with_fn sel so isel io a).                                             (* 716-726 *)
