(** Model of the unaggregated pipeline (weatherbenchX/beam_pipeline.py 488-682): statistics are
    written to one zarr store, chunk by chunk. *)
From Coq Require Import String ZArith List Bool Permutation.
Import ListNotations.
From Verif Require Import Prelude Values Model_XArray Model_Tree Model_MetricsBase Model_TimeChunks Model_Aggregation Model_Beam.
Local Open Scope string_scope.
Local Open Scope list_scope.

(** 524, 573: f'{stat_name}.{var_name}' *)
Definition output_name (stat_name var_name : string) : string := (stat_name ++ "." ++ var_name)%string.

(** The time dimensions that the array has, init_time first (528-535). *)
Definition time_order (a : da) : list string := filter (fun d => memb d (dnames a)) ["init_time"; "lead_time"].
(** 537 chunk_ds.transpose( *dim_order, ...): these dimensions first, the others in their order *)
Definition time_first (a : da) : da :=
  mkDa (filter (fun p => eqb (fst p) "init_time") (dims a) ++ filter (fun p => eqb (fst p) "lead_time") (dims a)
        ++ filter (fun p => negb (eqb (fst p) "init_time") && negb (eqb (fst p) "lead_time")) (dims a)) (get a) (aux a).

(** xbeam.Key (offsets by dimension, the one variable) with its dataset of one variable. *)
Record region := mkRegion { rg_offsets : dict string Z; rg_name : string; rg_data : da }.
(** 523-540 *)
Definition format_statistic (off : offsets) (stat_name var_name : string) (a : da) : region :=
  mkRegion (map (fun d => (d, if eqb d "init_time" then off_init off else off_lead off)) (time_order a))
          (output_name stat_name var_name) (time_first a).
(** 505-540 ComputeAndFormatStatistics.process *)
Definition format_statistics (metrics : dict string (metric da)) (off : offsets) (pt : vars da * vars da) : result (list region) :=
  do stats <- compute_unique_statistics metrics (fst pt) (snd pt);
  Ok (concat (map (fun kv => map (fun va => format_statistic off (fst kv) (fst va) (snd va)) (snd kv)) stats)).

(** ** 543-605 _get_template_dataset *)
(** The template: dimensions and labels of every variable, and the coordinate valid_time.  Other
    coordinates and values are not modelled. *)
Record template := mkTemplate { t_vars : dict string dimlist; t_valid_time : option coord }.
(** 571-573: the variables of the first chunk (a later one of the same name replaces it).  Alignment of
    differing coordinates on assignment is not modelled: the docstring (622-624) requires compatible ones. *)
Definition first_dataset (stats : dict string (vars da)) : dict string da :=
  dict_of (concat (map (fun kv => map (fun va => (output_name (fst kv) (fst va), snd va)) (snd kv)) stats)).
(** 585-594 and 596-600: the dimension is dropped and put back, in front, with the given labels. *)
Definition expand_time (d : string) (labels : list label) (t : dict string dimlist) : dict string dimlist :=
  map (fun kv => (fst kv, if memb d (map fst (snd kv)) then (d, labels) :: filter (fun p => negb (eqb (fst p) d)) (snd kv)
                          else snd kv)) t.
Definition has_dim (d : string) (t : dict string dimlist) : bool := existsb (fun kv => memb d (map fst (snd kv))) t.
(** The integer of a time label. *)
Definition ticks (l : label) : Z := match l with LZ z => z | _ => 0%Z end.
Definition get_template (metrics : dict string (metric da)) (predictions_loader targets_loader : loader) (tc : time_chunks)
  : result template :=
  do c <- match tc_getitem tc 0 with Ok c => Ok c | Err _ => Err ValueError end;                (* 556-561 *)
  do pt <- load_predictions_and_targets predictions_loader targets_loader c;                    (* 563-566 *)
  do stats <- compute_unique_statistics metrics (fst pt) (snd pt);                              (* 567-569 *)
  let ds := first_dataset stats in
  if existsb (fun kv => memb "mask" (keys (aux (snd kv)))) ds then Err ValueError else          (* 579-583 *)
  let t0 := map (fun kv => (fst kv, dims (snd kv))) ds in
  do t1 <- (if has_dim "lead_time" t0 then
              match tc_lead_times tc with
              | LeadArr leads => Ok (expand_time "lead_time" (map LZ leads) t0)
              | _ => Err TypeError                   (* 589-592: slice.step is None: stop + None *)
              end
            else Ok t0);
  let t2 := if has_dim "init_time" t1 then expand_time "init_time" (map LZ (tc_init_times tc)) t1 else t1 in
  Ok (mkTemplate t2 (if has_dim "init_time" t2 && has_dim "lead_time" t2                        (* 602-603 *)
                     then Some (mkCoord ["init_time"; "lead_time"] (fun e => LZ (ticks (e "init_time") + ticks (e "lead_time"))))
                     else None)).

(** 644-651 stat_chunks: the chunk sizes declared to Rechunk (-1: one chunk). *)
Definition stat_chunks (tc : time_chunks) (sizes : dict string nat) : dict string Z :=
  map (fun kv => (fst kv,
    if eqb (fst kv) "init_time" then (if Z.eqb (tc_init_size tc) 0 then (-1)%Z else tc_init_size tc)
    else if eqb (fst kv) "lead_time" then match tc_lead_size tc with Some z => if Z.eqb z 0 then (-1)%Z else z | None => (-1)%Z end
    else Z.of_nat (snd kv))) sizes.

(** 660-671: the chunks that are emitted *)
Definition emitted (metrics : dict string (metric da)) (predictions_loader targets_loader : loader) (tc : time_chunks)
  : result (list region) :=
  do chunks <- tc_iter_offsets tc;
  do es <- mapM (fun oc => do pt <- load_predictions_and_targets predictions_loader targets_loader (snd oc);
                           format_statistics metrics (fst oc) pt) chunks;
  Ok (concat es).

(** ** The zarr store: for every variable the value at every position (an index for every dimension), if
    written.  Rechunk and ChunksToZarr write the value of every chunk at its positions, in any order;
    their checks against the template are not modelled. *)
Definition store := string -> (string -> Z) -> option val.
Definition offset_of (c : region) (d : string) : Z := match dget (rg_offsets c) d with Some o => o | None => 0%Z end.
Definition covers (c : region) (p : string -> Z) : bool :=
  forallb (fun q => Z.leb (offset_of c (fst q)) (p (fst q)) && Z.ltb (p (fst q)) (offset_of c (fst q) + zlen (snd q))) (dims (rg_data c)).
Definition value_at (c : region) (p : string -> Z) : val :=
  get (rg_data c) (fun d => nth (Z.to_nat (p d - offset_of c d)) (labels_of (dims (rg_data c)) d) (LZ 0)).
Definition write (s : store) (c : region) : store :=
  fun name p => if eqb name (rg_name c) && covers c p then Some (value_at c p) else s name p.
Definition write_all (cs : list region) : store := fold_left write cs (fun _ _ => None).

(** 610-682 define_unaggregated_pipeline: [s] is a possible content of the store. *)
Definition unaggregated_pipeline (metrics : dict string (metric da)) (predictions_loader targets_loader : loader) (tc : time_chunks)
  (t : template) (s : store) : Prop :=
  get_template metrics predictions_loader targets_loader tc = Ok t /\
  exists cs order, emitted metrics predictions_loader targets_loader tc = Ok cs /\ Permutation order cs /\ s = write_all order.
