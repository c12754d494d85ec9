(** Model of weatherbenchX/aggregation.py. *)
From Coq Require Import String Ascii ZArith Bool List.
Import ListNotations.
From Verif Require Import Prelude Values Model_XArray Model_Tree Model_MetricsBase.
From Coq Require Import Reals.
Local Open Scope list_scope.

(** aggregation.py 27-53 *)
Definition combining_sum (arrs : list da) : da := py_sum (align_outer [] (Fin 0) arrs).

(** AggregationState, 56-75: None = the zero state (both fields None), else
    (sum_weighted_statistics, sum_weights). *)
Definition state := option (tree da * tree da).
Definition zero : state := None.

(** The leaves given to a mapped function are DataArrays; anything else is a TypeError. *)
Fixpoint arrays (ss : list (tree da)) : result (list da) :=
  match ss with
  | [] => Ok []
  | Leaf a :: ss' => do r <- arrays ss'; Ok (a :: r)
  | _ :: _ => Err TypeError
  end.

(** Rebuilding a Dataset from its variables (xarray_tree.py 52-60); merge failures
    (falling back to a dict) are not modelled. *)
Definition rebuild_ds (kvs : list (string * da)) : tree da := Dset kvs.

Definition tree_sum (ts : list (tree da)) : result (tree da) :=
  map_structure (fun ss => do a <- arrays ss; Ok (combining_sum a)) rebuild_ds ts.

(** aggregation.py 85-89: the components of the non-zero states. *)
Definition nonzero_states (ss : list state) : list (tree da * tree da) :=
  flat_map (fun s => match s with Some p => [p] | None => [] end) ss.

(** aggregation.py 80-103 *)
Definition state_sum (ss : list state) : result state :=
  match nonzero_states ss with
  | [] => Ok zero
  | ps =>
      do r <- tree_sum (map (fun p => Seq [fst p; snd p]) ps);
      match r with
      | Seq [x; y] => Ok (Some (x, y))
      | _ => Err ValueError
      end
  end.
(** aggregation.py 77-78 *)
Definition state_add (a b : state) : result state := state_sum [a; b].

(** aggregation.py 105-113.  For the zero state map_structure applies the
    division to None and None: TypeError. *)
Definition mean_statistics (s : state) : result (tree da) :=
  match s with
  | None => Err TypeError
  | Some (x, y) =>
      map_structure (fun ss => do a <- arrays ss;
                       match a with [p; q] => Ok (binop vdiv p q) | _ => Err TypeError end)
                    rebuild_ds [x; y]
  end.

(** aggregation.py 176-194 *)
Definition map_multi (func : list da -> result da) (ss : list state) : result state :=
  if existsb (fun s => match s with None => true | Some _ => false end) ss then Err ValueError
  else
    let ps := nonzero_states ss in
    let f := fun xs => do a <- arrays xs; func a in
    do x <- map_structure f rebuild_ds (map fst ps);
    do y <- map_structure f rebuild_ds (map snd ps);
    Ok (Some (x, y)).
Definition map_state (func : da -> result da) (s : state) : result state :=
  map_multi (fun a => match a with [x] => func x | _ => Err TypeError end) [s].

(** aggregation.py 143-168 *)
Definition sum_along_dims (dims : list string) (s : state) : result state :=
  match s with
  | None => Ok s
  | Some _ => map_state (da_sum dims) s
  end.

(** aggregation.py 170-174 *)
Definition state_dot (others : list da) (dim : list string) (s : state) : result state :=
  map_state (fun x => Ok (da_dot dim (x :: others))) s.

(** ** DataTree and Dataset representations *)

(** xr.DataTree: the two variables of a node (if any) and named children. *)
Inductive dtree := DT (data : option (da * da)) (children : list (string * dtree)).

Fixpoint has_char (c : ascii) (s : string) : bool :=
  match s with EmptyString => false | String a s' => Ascii.eqb a c || has_char c s' end.
Definition slash : ascii := "/"%char.

(** xr.Dataset({...}): outer-join alignment of all variables, NaN-filled. *)
Definition align_dataset (arrs : list da) : list da := align_outer [] NaN arrs.

(** aggregation.py 196-208.  A DataTree node name containing '/' is a ValueError. *)
Fixpoint to_data_tree_aux (x y : tree da) : result dtree :=
  match x with
  | Leaf a =>
      match y with
      | Leaf b => match align_dataset [a; b] with
                  | [a'; b'] => Ok (DT (Some (a', b')) []) | _ => Err ValueError end
      | _ => Err TypeError
      end
  | Dict kvs =>
      do cs <- (fix go (l : list (string * tree da)) : result (list (string * dtree)) :=
                  match l with
                  | [] => Ok []
                  | (k, t) :: l' =>
                      do u <- child y k;
                      do n <- to_data_tree_aux t u;
                      do ns <- go l';
                      Ok ((k, n) :: ns)
                  end) kvs;
      if existsb (fun k => has_char slash k) (map fst kvs) then Err ValueError
      else Ok (DT None cs)
  | _ => Err TypeError
  end.
Definition to_data_tree (s : state) : result dtree :=
  match s with None => Err TypeError | Some (x, y) => to_data_tree_aux x y end.

(** aggregation.py 210-225; the renaming of arrays is not modelled. *)
Fixpoint from_data_tree_aux (d : dtree) : tree da * tree da :=
  match d with
  | DT (Some (a, b)) _ => (Leaf a, Leaf b)
  | DT None cs =>
      (Dict (map (fun kn => (fst kn, fst (from_data_tree_aux (snd kn)))) cs),
       Dict (map (fun kn => (fst kn, snd (from_data_tree_aux (snd kn)))) cs))
  end.
Definition from_data_tree (d : dtree) : state := Some (from_data_tree_aux d).

(** [DataTree.to_dict()]: absolute path of every node, '/' for the root, and the
    node's data.  (Pre-order here; the order of distinct keys is not observable.) *)
Fixpoint tree_items (prefix : string) (d : dtree) : list (string * option (da * da)) :=
  match d with
  | DT data cs =>
      (match prefix with EmptyString => "/"%string | _ => prefix end, data)
      :: flat_map (fun kn => tree_items (prefix ++ "/" ++ fst kn)%string (snd kn)) cs
  end.

(** str.lstrip('/'), str.replace(c, d) for characters *)
Fixpoint lstrip (c : ascii) (s : string) : string :=
  match s with String a s' => if Ascii.eqb a c then lstrip c s' else s | EmptyString => s end.
Fixpoint replace_char (c d : ascii) (s : string) : string :=
  match s with
  | EmptyString => EmptyString
  | String a s' => String (if Ascii.eqb a c then d else a) (replace_char c d s')
  end.

(** aggregation.py 227-247, for a one-character separator (default '#').  Names of
    the two variables of a node: 'sum_weighted_statistics' and 'sum_weights'.
    [result] is a dict: a later equal name overwrites. *)
Definition to_dataset (sep : ascii) (s : state) : result (list (string * da)) :=
  do d <- to_data_tree s;
  let items := flat_map (fun pd =>
        let path := replace_char slash sep (lstrip slash (fst pd)) in
        match snd pd with
        | None => []
        | Some (a, b) =>
            [((path ++ String sep "sum_weighted_statistics")%string, a);
             ((path ++ String sep "sum_weights")%string, b)]
        end) (tree_items "" d) in
  let r := dict_of items in
  Ok (combine (map fst r) (align_dataset (map snd r))).

(** Python [s.rsplit(sep, 1)] into exactly two parts; ValueError (unpacking) if the
    separator does not occur. *)
Fixpoint rsplit1 (c : ascii) (s : string) : option (string * string) :=
  match s with
  | EmptyString => None
  | String a s' =>
      match rsplit1 c s' with
      | Some (x, y) => Some (String a x, y)
      | None => if Ascii.eqb a c then Some (EmptyString, s') else None
      end
  end.

(** Path components as pathlib.PurePosixPath splits them (xarray's NodePath): empty
    components and '.' vanish. *)
Fixpoint split_char (c : ascii) (s : string) : list string :=
  match s with
  | EmptyString => [EmptyString]
  | String a s' =>
      if Ascii.eqb a c then EmptyString :: split_char c s'
      else match split_char c s' with
           | x :: xs => String a x :: xs
           | [] => [String a EmptyString]
           end
  end.
Definition path_parts (s : string) : list string :=
  filter (fun x => negb (String.eqb x "") && negb (String.eqb x ".")) (split_char slash s).

(** A node's dataset while it is being filled: variable name -> array. *)
Inductive ftree := FT (data : list (string * da)) (children : list (string * ftree)).

(** xr.DataTree.from_dict: insert one dataset at a path, creating parents.  Components
    '..' are not modelled (KeyError here). *)
Fixpoint insert_at (parts : list string) (data : list (string * da)) (t : ftree) : ftree :=
  match t with
  | FT d cs =>
      match parts with
      | [] => FT data cs
      | p :: ps =>
          match dget cs p with
          | Some t' => FT d (dset cs p (insert_at ps data t'))
          | None => FT d (cs ++ [(p, insert_at ps data (FT [] []))])
          end
      end
  end.
Definition from_dict (items : list (string * list (string * da))) : result ftree :=
  fold_left (fun r pd => do t <- r;
               if existsb (String.eqb "..") (path_parts (fst pd)) then Err KeyError
               else Ok (insert_at (path_parts (fst pd)) (snd pd) t))
            items (Ok (FT [] [])).

(** aggregation.py 210-225 on the tree just built (KeyError if a variable is missing). *)
Fixpoint from_ftree (t : ftree) : result (tree da * tree da) :=
  match t with
  | FT [] cs =>
      do rs <- (fix go (l : list (string * ftree)) : result (list (string * (tree da * tree da))) :=
                  match l with
                  | [] => Ok []
                  | (k, n) :: l' => do r <- from_ftree n; do rs <- go l'; Ok ((k, r) :: rs)
                  end) cs;
      Ok (Dict (map (fun kr => (fst kr, fst (snd kr))) rs),
          Dict (map (fun kr => (fst kr, snd (snd kr))) rs))
  | FT d _ =>
      do a <- dgetE d "sum_weighted_statistics"%string;
      do b <- dgetE d "sum_weights"%string;
      Ok (Leaf a, Leaf b)
  end.

(** aggregation.py 249-258: group the variables by path (a defaultdict), then
    DataTree.from_dict, then from_data_tree.  Assigning into a node's Dataset
    re-aligns; with coordinates already common to the whole dataset this is the
    identity. *)
Definition from_dataset (sep : ascii) (ds : list (string * da)) : result state :=
  do groups <- fold_left (fun r kv => do g <- r;
        match rsplit1 sep (fst kv) with
        | None => Err ValueError
        | Some (path, var) =>
            let p := String slash (replace_char sep slash path) in
            let old := match dget g p with Some d => d | None => [] end in
            Ok (dset g p (dset old var (snd kv)))
        end) ds (Ok []);
  do t <- from_dict groups;
  do r <- from_ftree t;
  Ok (Some r).

(** ** Aggregator *)

(** weighting.Weighting.weights and binning.Binning (bin_dim_name, create_bin_mask),
    as arbitrary functions of the statistic; they may raise. *)
Definition weighting := da -> result da.
Record binning := mkBinning { bin_dim_name : string; create_bin_mask : da -> result da }.

Record aggregator := mkAgg {
  reduce_dims : list string;
  bin_by : list binning;
  weigh_by : list weighting;
  masked : bool;
  skipna : bool }.

Fixpoint nodupb (l : list string) : bool :=
  match l with [] => true | x :: l' => negb (memb x l') && nodupb l' end.

(** aggregation.py 312-323: stops at the first bin mask with foreign dimensions. *)
Fixpoint bin_masks (bs : list binning) (stat : da) : result (option (list da)) :=
  match bs with
  | [] => Ok (Some [])
  | b :: bs' =>
      do m <- create_bin_mask b stat;
      if subsetb (filter (fun d => negb (String.eqb d (bin_dim_name b))) (dnames m)) (dnames stat) then
        do r <- bin_masks bs' stat;
        Ok (match r with Some ms => Some (m :: ms) | None => None end)
      else Ok None
  end.

(** aggregation.py 290-328 *)
Definition aggregation_fn (g : aggregator) (stat : da) : result (option da) :=
  if negb (subsetb (reduce_dims g) (dnames stat)) then Ok None            (* 297-301 *)
  else
    do ws <- mapM (fun w => w stat) (weigh_by g);                           (* 303-306 *)
    if negb (nodupb (map bin_dim_name (bin_by g))) then Err ValueError       (* 308-310 *)
    else
      do ms <- bin_masks (bin_by g) stat;
      match ms with
      | None => Ok None
      | Some ms => Ok (Some (da_dot (reduce_dims g) (stat :: ws ++ ms)))     (* 327-328 *)
      end.

Definition truthy (l : label) : bool := match l with LB b => b | _ => false end.

(** aggregation.py 330-359: the statistic and the mask that are aggregated.
    [stat.mask] keeps only the non-dimension coordinates whose dimensions it has. *)
Definition prepare (g : aggregator) (stat : da) : da * da :=
  let notnull := fun e => negb (isnan (get stat e)) in
  match (if masked g then dget (aux stat) "mask"%string else None) with
  | Some c =>
      let m := fun e => truthy (c_get c e) && (if skipna g then notnull e else true) in
      (da_where m (Fin 0) stat,
       mkDa (dims stat) (fun e => b2v (m e))
            (if skipna g then aux stat
             else filter (fun p => subsetb (c_dims (snd p)) (c_dims c)) (aux stat)))
  | None =>
      if skipna g then
        (da_where notnull (Fin 0) stat, mkDa (dims stat) (fun e => b2v (notnull e)) (aux stat))
      else (stat, mkDa (dims stat) (fun _ => Fin 1) (aux stat))
  end.

(** aggregation.py 330-359 *)
Definition aggregate_stat_var (g : aggregator) (stat : da) : result (option (da * da)) :=
  let (s, m) := prepare g stat in
  do x <- aggregation_fn g s;
  do y <- aggregation_fn g m;
  Ok (match x, y with Some x, Some y => Some (x, y) | _, _ => None end).

(** aggregation.py 361-375; a statistic may be None. *)
Definition aggregate_stat_vars (g : aggregator) (stats : dict string (option da))
  : result (dict string da * dict string da) :=
  do per_var <- mapM (fun kv => match snd kv with
                                | None => Ok []
                                | Some st => do r <- aggregate_stat_var g st;
                                             Ok (match r with Some p => [(fst kv, p)] | None => [] end)
                                end) stats;
  let l := concat per_var in
  Ok (map (fun kp => (fst kp, fst (snd kp))) l, map (fun kp => (fst kp, snd (snd kp))) l).

(** aggregation.py 377-401 *)
Definition aggregate_statistics (g : aggregator) (statistics : dict string (dict string (option da)))
  : result state :=
  do per_stat <- mapM (fun kv => do r <- aggregate_stat_vars g (snd kv); Ok (fst kv, r)) statistics;
  Ok (Some (Dict (map (fun kr => (fst kr, Dict (map (fun va => (fst va, Leaf (snd va))) (fst (snd kr))))) per_stat),
            Dict (map (fun kr => (fst kr, Dict (map (fun va => (fst va, Leaf (snd va))) (snd (snd kr))))) per_stat))).

(** ** Metric values *)

(** A tree statistic -> variable -> DataArray as a nested dict. *)
Definition nested (t : tree da) : result (dict string (vars da)) :=
  match t with
  | Dict kvs => mapM (fun kt => match snd kt with
                                | Dict vs => do r <- mapM (fun va => match snd va with Leaf a => Ok (fst va, a) | _ => Err TypeError end) vs;
                                             Ok (fst kt, r)
                                | _ => Err TypeError end) kvs
  | _ => Err TypeError
  end.

(** [values[name] = da] on an xr.Dataset (aggregation.py 140): along dimensions the
    Dataset already has, the new variable is reindexed to the Dataset's labels
    (xarray: merge with indexes=dataset.xindexes), missing points becoming NaN. *)
Definition ds_labels (ds : dict string da) (d : string) : option (list label) :=
  match find (fun va => memb d (dnames (snd va))) ds with
  | Some va => dget (dims (snd va)) d
  | None => None
  end.
Definition ds_assign (ds : dict string da) (name : string) (a : da) : dict string da :=
  dset ds name
    (mkDa (map (fun p => match ds_labels ds (fst p) with Some ls => (fst p, ls) | None => p end) (dims a))
          (fun e => if in_box (dims a) e then get a e else NaN)
          (aux a)).

(** aggregation.py 136-141: later equal names overwrite. *)
Definition values_dataset (mv : dict string (vars da)) : dict string da :=
  fold_left (fun acc nm => fold_left (fun acc va => ds_assign acc (fst nm ++ "." ++ fst va)%string (snd va)) (snd nm) acc) mv [].
(** aggregation.py 115-141 *)
Definition metric_values (metrics : dict string (metric da)) (s : state) : result (dict string da) :=
  do m <- mean_statistics s;
  do n <- nested m;
  do mv <- compute_metrics_from_statistics metrics n;
  Ok (values_dataset mv).

(** aggregation.py 404-428 *)
Definition compute_metric_values_for_single_chunk (metrics : dict string (metric da)) (g : aggregator)
  (predictions targets : vars da) : result (dict string da) :=
  do stats <- compute_unique_statistics metrics predictions targets;
  do s <- aggregate_statistics g (map (fun kv => (fst kv, map (fun va => (fst va, Some (snd va))) (snd kv))) stats);
  metric_values metrics s.
