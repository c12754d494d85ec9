(** Model of weatherbenchX/beam_utils.py 64-101 (atomic_write) as a transition system: any
    number of concurrent calls, each of which can fail or crash at any step.

    Simplifications: a path is the pair (directory, name) that os.path.split (85) yields and
    os.path.join (90) puts together again; one file system; directories are not tracked
    (makedirs either succeeds or raises); the visible content of the file being written is a
    prefix of the data (buffering), complete when it has been closed. *)
From Coq Require Import String List Arith Lia.
Import ListNotations.
From Verif Require Import Prelude.

Definition bytes := list nat.
Definition path := (string * string)%type.
Definition filesystem := path -> option bytes.
Definition fupd (fs : filesystem) (p : path) (c : option bytes) : filesystem :=
  fun q => if eq_dec q p then c else fs q.

(** One call: the target, the data and the uuid drawn on line 89. *)
Record call := mkCall { target : path; data : bytes; uuid : string }.
(** 89-90: tmp.<uuid>.<name> in the directory of the target. *)
Definition tmp_path (c : call) : path :=
  (fst (target c), ("tmp." ++ uuid c ++ "." ++ snd (target c))%string).

(** Why a call raised. *)
Inductive reason := MakedirsFailed | WriteFailed | RemoveFailed | MoveFailed.
Inductive phase :=
| Start                    (* before makedirs *)
| Ready                    (* before open *)
| Writing (n : nat)        (* file open, n bytes visible *)
| Cleaning                 (* in the except clause *)
| Closed                   (* in the else clause *)
| Returned
| Raised (r : reason)
| Crashed.

Definition state := (filesystem * (nat -> phase))%type.
Definition set_phase (ph : nat -> phase) (i : nat) (p : phase) : nat -> phase :=
  fun j => if eq_dec j i then p else ph j.

(** One step of call [c] from its phase: new file system and phase. *)
Inductive call_step (c : call) (fs : filesystem) : phase -> filesystem -> phase -> Prop :=
| s_mkdir : call_step c fs Start fs Ready                                          (* 87-88 *)
| s_mkdir_fails : call_step c fs Start fs (Raised MakedirsFailed)
| s_open : call_step c fs Ready (fupd fs (tmp_path c) (Some [])) (Writing 0)       (* 93 *)
| s_open_fails : call_step c fs Ready fs Cleaning
| s_write n m : n <= m -> m <= length (data c) ->                                  (* 94 *)
    call_step c fs (Writing n) (fupd fs (tmp_path c) (Some (firstn m (data c)))) (Writing m)
| s_write_fails n : call_step c fs (Writing n) fs Cleaning
| s_close n : n = length (data c) -> call_step c fs (Writing n) fs Closed          (* 93, exit *)
| s_rm : call_step c fs Cleaning (fupd fs (tmp_path c) None) (Raised WriteFailed)  (* 96-98 *)
| s_rm_fails : call_step c fs Cleaning fs (Raised RemoveFailed)
| s_mv : call_step c fs Closed                                                     (* 99-101 *)
    (fupd (fupd fs (target c) (fs (tmp_path c))) (tmp_path c) None) Returned
| s_mv_fails : call_step c fs Closed fs (Raised MoveFailed)
| s_crash p : p <> Returned -> (forall r, p <> Raised r) -> call_step c fs p fs Crashed.

Inductive step (calls : nat -> option call) : state -> nat -> state -> Prop :=
| step_call fs ph i c fs' p' : calls i = Some c -> call_step c fs (ph i) fs' p' ->
    step calls (fs, ph) i (fs', set_phase ph i p').

(** Any interleaving. *)
Inductive reachable (calls : nat -> option call) (fs0 : filesystem) : state -> Prop :=
| r_init : reachable calls fs0 (fs0, fun _ => Start)
| r_step s i s' : reachable calls fs0 s -> step calls s i s' -> reachable calls fs0 s'.
