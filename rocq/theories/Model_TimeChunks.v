(** Model of weatherbenchX/time_chunks.py.
    Times are integers (nanoseconds): the casts to datetime64[ns] and
    timedelta64[ns] (lines 121, 143) are the identity here. *)
From Coq Require Import List ZArith Lia Bool.
Import ListNotations.
From Verif Require Import Prelude.
Local Open Scope Z_scope.

(** time_chunks.py 39-48: the lead_times argument: np.ndarray, slice or anything else. *)
Inductive lead_arg :=
| LeadArr (l : list Z)
| LeadSlice (start stop step : option Z)
| LeadOther.

(** time_chunks.py 27: the second component of a TimeChunk. *)
Inductive lead_chunk :=
| ChunkArr (l : list Z)
| ChunkSlice (start stop : Z).

(** time_chunks.py 30-33: TimeChunkOffsets. *)
Record offsets := { off_init : Z; off_lead : Z }.

(** time_chunks.py 154-159: instance attributes.  [tc_lead_size] is None only
    when lead_times is a slice and the argument was None. *)
Record time_chunks := {
  tc_init_times : list Z;
  tc_lead_times : lead_arg;
  tc_init_size : Z;
  tc_lead_size : option Z;
  tc_init_chunks : list (list Z);
  tc_lead_chunks : list lead_chunk }.

Definition zlen {A} (l : list A) : Z := Z.of_nat (length l).

(** Python [range(0, n, step)] for n >= 0: ValueError for step 0, empty for a
    negative step. *)
Definition py_range0 (n step : Z) : result (list Z) :=
  if step =? 0 then Err ValueError
  else if step <? 0 then Ok []
  else Ok (map (fun k => Z.of_nat k * step)
               (seq 0 (Z.to_nat ((n + step - 1) / step)))).

(** Python [l[i:j]] for 0 <= i. *)
Definition py_slice {A} (l : list A) (i j : Z) : list A :=
  firstn (Z.to_nat (j - i)) (skipn (Z.to_nat i) l).

(** time_chunks.py 127-130 and 147-150: the list comprehension. *)
Definition split_chunks (l : list Z) (size : Z) : result (list (list Z)) :=
  do starts <- py_range0 (zlen l) size;
  Ok (map (fun i => py_slice l i (i + size)) starts).

(** [not size] for an optional int. *)
Definition falsy (s : option Z) : bool :=
  match s with None => true | Some z => z =? 0 end.
Definition negative (s : option Z) : bool :=
  match s with None => false | Some z => z <? 0 end.

(** time_chunks.py 124-125 / 144-145. *)
Definition effective_size (s : option Z) (l : list Z) : Z :=
  match s with None => zlen l | Some z => if z =? 0 then zlen l else z end.

(** time_chunks.py 39-159: TimeChunks.__init__ *)
Definition make_time_chunks (init_times : list Z) (lead_times : lead_arg)
    (init_size lead_size : option Z) : result time_chunks :=
  if negative init_size then Err ValueError else            (* 112-115 *)
  if negative lead_size then Err ValueError else            (* 116-119 *)
  let isz := effective_size init_size init_times in         (* 124-125 *)
  do ics <- split_chunks init_times isz;                    (* 127-130 *)
  match lead_times with
  | LeadSlice start stop step =>                            (* 132-141 *)
      match start, stop with
      | Some a, Some b =>
          match step with
          | Some _ => Err ValueError
          | None =>
              if falsy lead_size then
                Ok {| tc_init_times := init_times; tc_lead_times := lead_times;
                      tc_init_size := isz; tc_lead_size := lead_size;
                      tc_init_chunks := ics; tc_lead_chunks := [ChunkSlice a b] |}
              else Err ValueError
          end
      | _, _ => Err ValueError
      end
  | LeadArr leads =>                                        (* 142-150 *)
      let lsz := effective_size lead_size leads in
      do lcs <- split_chunks leads lsz;
      Ok {| tc_init_times := init_times; tc_lead_times := lead_times;
            tc_init_size := isz; tc_lead_size := Some lsz;
            tc_init_chunks := ics; tc_lead_chunks := map ChunkArr lcs |}
  | LeadOther => Err ValueError                             (* 151-152 *)
  end.

(** time_chunks.py 177-178: __iter__ = itertools.product *)
Definition tc_iter (tc : time_chunks) : list (list Z * lead_chunk) :=
  list_prod (tc_init_chunks tc) (tc_lead_chunks tc).

(** time_chunks.py 180-181: __len__ *)
Definition tc_len (tc : time_chunks) : Z :=
  zlen (tc_init_chunks tc) * zlen (tc_lead_chunks tc).

(** Python list indexing with a non-negative index. *)
Definition py_index {A} (l : list A) (i : Z) : result A :=
  match nth_error l (Z.to_nat i) with Some a => Ok a | None => Err IndexError end.

(** time_chunks.py 183-188: __getitem__ *)
Definition tc_getitem (tc : time_chunks) (index : Z) : result (list Z * lead_chunk) :=
  if (index <? 0) || (index >=? tc_len tc) then Err IndexError else
  do ic <- py_index (tc_init_chunks tc) (index / zlen (tc_lead_chunks tc));
  do lc <- py_index (tc_lead_chunks tc) (index mod zlen (tc_lead_chunks tc));
  Ok (ic, lc).

(** time_chunks.py 190-202: iter_with_chunk_offsets, consumed to the end.
    [None * int] raises TypeError (lead_time_chunk_size None for slices). *)
Definition tc_iter_offsets (tc : time_chunks)
  : result (list (offsets * (list Z * lead_chunk))) :=
  mapM (fun ix =>
          let index := Z.of_nat (fst ix) in
          let ii := tc_init_size tc * (index / zlen (tc_lead_chunks tc)) in
          match tc_lead_size tc with
          | None => Err TypeError
          | Some ls =>
              let li := ls * (index mod zlen (tc_lead_chunks tc)) in
              Ok ({| off_init := ii; off_lead := li |}, snd ix)
          end)
       (combine (seq 0 (length (tc_iter tc))) (tc_iter tc)).
