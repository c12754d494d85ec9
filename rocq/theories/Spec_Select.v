(** Specification vocabulary for the transforms Rename, Select and StackToNewDimension. *)
From Coq Require Import String ZArith List Bool.
Import ListNotations.
From Verif Require Import Prelude Values Model_XArray Spec_XArray Model_Prepare Model_Select.
Local Open Scope string_scope.
Local Open Scope list_scope.

(** ** Positions *)
(** [l] is at position [k], counted from the end if negative. *)
Definition at_position (have : list label) (k : Z) (l : label) : Prop :=
  exists p : nat, nth_error have p = Some l /\ Z.of_nat p = (if Z.ltb k 0 then k + Z.of_nat (length have) else k)%Z.
(** The positions from [start] (included) to [stop] (excluded), each counted from the end if
    negative; from the first, up to the last if absent. *)
Definition slice_of (have : list label) (start stop : option Z) (ls : list label) : Prop :=
  let count k := (if Z.ltb k 0 then k + Z.of_nat (length have) else k)%Z in
  exists before after, have = before ++ ls ++ after /\
    forall p l, nth_error have p = Some l ->
      (match start with Some k => count k <= Z.of_nat p | None => True end)%Z /\
      (match stop with Some k => Z.of_nat p < count k | None => True end)%Z <->
      (length before <= p < length before + length ls)%nat.
(** The labels at the positions asked for. *)
Definition labels_at (have : list label) (p : position) (ix : indexer) : Prop :=
  match p, ix with
  | PosAt k, IxLabel l => at_position have k l
  | PosList ks, IxList ls => Forall2 (at_position have) ks ls
  | PosSlice start stop, IxList ls => slice_of have start stop ls
  | _, _ => False
  end.
Definition by_position (ds : dimlist) (isel : option (dict string position)) (sel : option (dict string indexer)) : Prop :=
  match isel, sel with
  | None, None => True
  | Some p, Some q => Forall2 (fun x y => fst y = fst x /\ exists have, dget ds (fst x) = Some have /\ labels_at have (snd x) (snd y)) p q
  | _, _ => False
  end.

(** ** Row-major positions: the last index varies fastest. *)
Fixpoint product (l : list nat) : nat := match l with [] => 1 | n :: l' => n * product l' end.
Fixpoint row_major (sizes idx : list nat) : nat :=
  match sizes, idx with
  | n :: sizes', i :: idx' => i * product sizes' + row_major sizes' idx'
  | _, _ => 0
  end.
(** An index below the size, for each dimension. *)
Definition within (sizes idx : list nat) : Prop := Forall2 (fun n i => (i < n)%nat) sizes idx.
(** The sizes of dimensions of an array. *)
Definition sizes_of (a : da) (ds : list string) : list nat := map (fun d => length (labels_of (dims a) d)) ds.
(** The labels 0, 1, ..., n-1. *)
Definition positions_upto (n : nat) : list label := map (fun k => LZ (Z.of_nat k)) (seq 0 n).
