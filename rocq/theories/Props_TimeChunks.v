(** Properties C01-C04: weatherbenchX/time_chunks.py *)
From Coq Require Import List ZArith Lia Permutation.
Import ListNotations.
From Verif Require Import Prelude Model_TimeChunks Spec_TimeChunks Proofs_TimeChunks.
Local Open Scope Z_scope.

(** C01: iteration is the ordered product of consecutive pieces of the two time
    arrays, and the (init, lead) pairs of all chunks together are exactly the
    pairs of the full arrays, with multiplicity. *)
Theorem C01_chunks_partition_pairs :
  forall init lead isz lsz tc,
  make_time_chunks init (LeadArr lead) isz lsz = Ok tc ->
  exists ics lcs,
    tc_iter tc = list_prod ics (map ChunkArr lcs) /\
    pieces_of (match isz with Some (Zpos p) => Zpos p | _ => zlen init end) init ics /\
    pieces_of (match lsz with Some (Zpos p) => Zpos p | _ => zlen lead end) lead lcs /\
    Permutation
      (flat_map (fun c => list_prod (fst c)
          (match snd c with ChunkArr l => l | ChunkSlice _ _ => [] end)) (tc_iter tc))
      (list_prod init lead).
Proof. exact partition. Qed.

Theorem C01_default_is_single_chunk :
  forall init lead isz lsz tc,
  make_time_chunks init (LeadArr lead) isz lsz = Ok tc ->
  (isz = None \/ isz = Some 0) -> (lsz = None \/ lsz = Some 0) ->
  tc_iter tc = [(init, ChunkArr lead)].
Proof. exact single_chunk. Qed.

Theorem C01_slice_chunks :
  forall init a b isz lsz tc,
  make_time_chunks init (LeadSlice (Some a) (Some b) None) isz lsz = Ok tc ->
  exists ics,
    tc_iter tc = list_prod ics [ChunkSlice a b] /\
    pieces_of (match isz with Some (Zpos p) => Zpos p | _ => zlen init end) init ics.
Proof. exact slice_partition. Qed.

Example C01_nonvacuous :
  exists tc, make_time_chunks [0; 6; 12; 18; 24] (LeadArr [0; 6; 12]) (Some 2) (Some 2) = Ok tc
  /\ tc_iter tc = [([0; 6], ChunkArr [0; 6]); ([0; 6], ChunkArr [12]);
                   ([12; 18], ChunkArr [0; 6]); ([12; 18], ChunkArr [12]);
                   ([24], ChunkArr [0; 6]); ([24], ChunkArr [12])].
Proof. eexists. split; reflexivity. Qed.

(** C02 *)
Theorem C02_getitem_agrees_with_iteration :
  forall tc i,
  (0 <= i < tc_len tc ->
     exists c, nth_error (tc_iter tc) (Z.to_nat i) = Some c /\ tc_getitem tc i = Ok c) /\
  (~ (0 <= i < tc_len tc) -> tc_getitem tc i = Err IndexError).
Proof. exact getitem_agrees. Qed.

Theorem C02_len_is_number_of_chunks :
  forall tc, tc_len tc = Z.of_nat (length (tc_iter tc)).
Proof. exact tc_len_iter. Qed.

Example C02_nonvacuous :
  exists tc, make_time_chunks [0; 6; 12; 18; 24] (LeadArr [0; 6; 12]) (Some 2) (Some 2) = Ok tc
  /\ tc_len tc = 6 /\ tc_getitem tc 3 = Ok ([12; 18], ChunkArr [12])
  /\ tc_getitem tc 6 = Err IndexError /\ tc_getitem tc (-1) = Err IndexError.
Proof. eexists. repeat split; reflexivity. Qed.

(** C03 *)
Theorem C03_offsets_locate_chunks :
  forall init lead isz lsz tc os,
  make_time_chunks init (LeadArr lead) isz lsz = Ok tc ->
  tc_iter_offsets tc = Ok os ->
  map snd os = tc_iter tc /\
  (forall o ic lc, In (o, (ic, ChunkArr lc)) os ->
      ic = run_at init (off_init o) (length ic) /\
      lc = run_at lead (off_lead o) (length lc) /\
      0 <= off_init o < zlen init /\ 0 <= off_lead o < zlen lead) /\
  NoDup (map fst os).
Proof. exact offsets_locate. Qed.

Theorem C03_offsets_defined_for_arrays :
  forall init lead isz lsz tc,
  make_time_chunks init (LeadArr lead) isz lsz = Ok tc ->
  exists os, tc_iter_offsets tc = Ok os.
Proof. exact offsets_defined. Qed.

(** Refutation of "the offsets iterator works for every documented call":
    with lead times given as an interval and lead_time_chunk_size=None it raises. *)
Theorem C03_offsets_for_interval_refuted :
  forall init a b isz tc,
  make_time_chunks init (LeadSlice (Some a) (Some b) None) isz None = Ok tc ->
  tc_iter tc <> [] ->
  tc_iter_offsets tc = Err TypeError.
Proof. exact offsets_slice_TypeError. Qed.

Example C03_nonvacuous :
  exists tc os, make_time_chunks [0; 6; 12] (LeadArr [0; 6]) (Some 2) (Some 1) = Ok tc
  /\ tc_iter_offsets tc = Ok os
  /\ nth_error os 3 = Some ({| off_init := 2; off_lead := 1 |}, ([12], ChunkArr [6])).
Proof. eexists. eexists. split; [reflexivity|]. split; reflexivity. Qed.
Example C03_refuted_nonvacuous :
  exists tc, make_time_chunks [0; 6; 12] (LeadSlice (Some 0) (Some 6) None) (Some 2) None = Ok tc
  /\ tc_iter tc = [([0; 6], ChunkSlice 0 6); ([12], ChunkSlice 0 6)].
Proof. eexists. split; reflexivity. Qed.

(** C04 *)
Theorem C04_constructor_validation :
  forall init lead isz lsz,
  (bad_args init lead isz lsz -> make_time_chunks init lead isz lsz = Err ValueError) /\
  (~ bad_args init lead isz lsz -> exists tc, make_time_chunks init lead isz lsz = Ok tc).
Proof. exact validation. Qed.

Example C04_nonvacuous :
  bad_args [0] (LeadSlice (Some 0) None None) None None
  /\ ~ bad_args [0; 1] (LeadArr [0]) (Some 5) None.
Proof.
  split; [right; right; right; auto|].
  intros [[z [[= <-] H]]|[[z [[=] _]]|[[[=] _]|[[=] _]]]]. lia.
Qed.

Print Assumptions C01_chunks_partition_pairs.
Print Assumptions C01_default_is_single_chunk.
Print Assumptions C01_slice_chunks.
Print Assumptions C02_getitem_agrees_with_iteration.
Print Assumptions C02_len_is_number_of_chunks.
Print Assumptions C03_offsets_locate_chunks.
Print Assumptions C03_offsets_defined_for_arrays.
Print Assumptions C03_offsets_for_interval_refuted.
Print Assumptions C04_constructor_validation.
