(** Specification vocabulary for C01-C04, independent of the model. *)
From Coq Require Import List ZArith.
Import ListNotations.
From Verif Require Import Model_TimeChunks. (* only for the argument type lead_arg *)
Local Open Scope Z_scope.

(** [ps] cuts [l] into consecutive non-empty pieces of at most [size] elements,
    all but the last having exactly [size] elements. *)
Definition pieces_of {A} (size : Z) (l : list A) (ps : list (list A)) : Prop :=
  concat ps = l /\
  Forall (fun p => 0 < Z.of_nat (length p) <= size) ps /\
  (forall q p rest, ps = q ++ p :: rest -> rest <> [] -> Z.of_nat (length p) = size).

(** The contiguous run of [n] elements of [l] starting at position [off]. *)
Definition run_at {A} (l : list A) (off : Z) (n : nat) : list A :=
  firstn n (skipn (Z.to_nat off) l).

(** The argument combinations TimeChunks(...) must reject. *)
Definition bad_args (init : list Z) (lead : lead_arg) (isz lsz : option Z) : Prop :=
  (exists z, isz = Some z /\ z < 0) \/ (exists z, lsz = Some z /\ z < 0) \/
  (init = [] /\ (isz = None \/ isz = Some 0)) \/
  match lead with
  | LeadArr l => l = [] /\ (lsz = None \/ lsz = Some 0)
  | LeadSlice a b s => a = None \/ b = None \/ s <> None \/ (lsz <> None /\ lsz <> Some 0)
  | LeadOther => True
  end.

