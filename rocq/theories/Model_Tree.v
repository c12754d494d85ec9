(** Model of weatherbenchX/xarray_tree.py: nested Python structures and
    map_structure. *)
From Coq Require Import String List Bool.
Import ListNotations.
From Verif Require Import Prelude.
Local Open Scope list_scope.
Set Implicit Arguments.

(** A nested structure: dict, list/tuple, xarray.Dataset (a container of leaves),
    or anything else (a leaf).  Sets (line 66) are unordered and not modelled. *)
Inductive tree (A : Type) :=
| Leaf (a : A)
| Dict (kvs : list (string * tree A))
| Seq (ts : list (tree A))
| Dset (kvs : list (string * A)).
Arguments Leaf {A} a.
Arguments Dict {A} kvs.
Arguments Seq {A} ts.
Arguments Dset {A} kvs.

(** Python [s[k]] for a string key. *)
Definition child {A} (s : tree A) (k : string) : result (tree A) :=
  match s with
  | Dict kvs => dgetE kvs k
  | Dset kvs => do a <- dgetE kvs k; Ok (Leaf a)
  | Seq _ => Err TypeError
  | Leaf _ => Err KeyError
  end.

(** Iterating a list/tuple (as zip does); other containers are not modelled here. *)
Definition seq_items {A} (s : tree A) : result (list (tree A)) :=
  match s with Seq ts => Ok ts | _ => Err TypeError end.

(** First elements and remainders of all lists, or None if one is exhausted (zip stops). *)
Fixpoint heads_tails {A} (ls : list (list A)) : option (list A * list (list A)) :=
  match ls with
  | [] => Some ([], [])
  | [] :: _ => None
  | (x :: xs) :: ls' =>
      match heads_tails ls' with
      | Some (hs, ts) => Some (x :: hs, xs :: ts)
      | None => None
      end
  end.

Section MapStructure.
  Context {A B : Type}.
  (** The mapped function receives all structures at a position (line 68). *)
  Variable func : list (tree A) -> result B.
  (** Rebuilding a Dataset from per-variable results, or a plain dict (lines 52-60). *)
  Variable rebuild : list (string * B) -> tree B.

  (** xarray_tree.py 49-68, for at least one structure. *)
  Fixpoint map_first (first : tree A) (rest : list (tree A)) {struct first} : result (tree B) :=
    match first with
    | Dset kvs =>                                                 (* 50-60 *)
        do data <- mapM (fun kv =>
            do others <- mapM (fun s => child s (fst kv)) rest;
            do b <- func (Leaf (snd kv) :: others); Ok (fst kv, b)) kvs;
        Ok (rebuild data)
    | Dict kvs =>                                                 (* 61-65 *)
        do data <-
          (fix go (l : list (string * tree A)) : result (list (string * tree B)) :=
             match l with
             | [] => Ok []
             | (k, t) :: l' =>
                 do others <- mapM (fun s => child s k) rest;
                 do b <- map_first t others;
                 do bs <- go l'; Ok ((k, b) :: bs)
             end) kvs;
        Ok (Dict data)
    | Seq ts =>                                                   (* 66-67 *)
        do lists <- mapM seq_items rest;
        do data <-
          (fix go (l : list (tree A)) (ls : list (list (tree A))) : result (list (tree B)) :=
             match l with
             | [] => Ok []
             | t :: l' =>
                 match heads_tails ls with
                 | None => Ok []
                 | Some (hs, tl) =>
                     do b <- map_first t hs;
                     do bs <- go l' tl; Ok (b :: bs)
                 end
             end) ts lists;
        Ok (Seq data)
    | Leaf _ => do b <- func (first :: rest); Ok (Leaf b)          (* 68 *)
    end.

  (** xarray_tree.py 42-68; [callable(func)] holds by typing. *)
  Definition map_structure (structures : list (tree A)) : result (tree B) :=
    match structures with
    | [] => Err ValueError                                         (* 46-47 *)
    | first :: rest => map_first first rest
    end.
End MapStructure.
