(** Model of weatherbenchX/statistical_inference/autodiff.py and of the constructor of the
    t-tests (statistical_inference/t_test.py 171-210). *)
From Coq Require Import String ZArith List Bool Reals.
Import ListNotations.
From Verif Require Import Prelude Values Model_XArray Model_Tree Model_MetricsBase Model_Aggregation Model_Ensemble
  Model_Baseline Model_Resample Model_TTest.
Local Open Scope R_scope.
Local Open Scope string_scope.
Local Open Scope list_scope.

(** Metric values: metric name -> variable -> array. *)
Notation metric_arrays := (dict string (dict string da)).

(** The slice at position [i] along [d] of an array with [n] labels there, as a positional
    axis of jax.vmap (in_axes=-1): another size is a ValueError. *)
Definition unit_slice (d : string) (n i : nat) (a : da) : result da :=
  match dget (dims a) d with
  | None => Err ValueError
  | Some ls =>
      if Nat.eqb (length ls) n then
        Ok (mkDa (keep (fun k => negb (eqb k d)) (dims a)) (fun e => get a (upd e d (nth i ls (LZ 0)))) (aux_without [d] (aux a)))
      else Err ValueError
  end.

Section Linearize.
  (** jax.linearize(f, x)[1]: the linear map from tangents at [x] to tangents of [f x].  jax works
      on the bare arrays; dimensions and coordinates are those of the templates
      (autodiff.py 148-158, 191-206), so here it maps states to metric values directly. *)
  Variable linearize : (state -> result metric_arrays) -> state -> state -> result metric_arrays.

  (** autodiff.py 33-233.  Transposing the unit dimension last (164-165) does not change a
      labelled array. *)
  Definition per_unit_values_linearized (metrics : dict string (metric da)) (s : state) (d : string)
    : result (metric_arrays * metric_arrays) :=
    do c <- get_and_check_experimental_unit_coord s d true;                                  (* 160-161 *)
    do mean_state <- map_state (reduce (np_mean false) [d]) s;                               (* 172-173 *)
    let f := state_metrics metrics in                                                        (* 183-194 *)
    do value <- f mean_state;                                                                (* 198-199 *)
    do tangents_in <- map_multi (fun xy => match xy with [x; y] => Ok (binop vsub x y) | _ => Err TypeError end)
                                [s; mean_state];                                             (* 209-210 *)
    let n := length (snd c) in
    do tangents_out <- mapM (fun i => do v <- map_state (unit_slice d n i) tangents_in; linearize f mean_state v)
                            (seq 0 n);                                                       (* 204-205, 216-217 *)
    (* 219-228: the template's dimensions and the units last *)
    let tangents := map (fun mv => (fst mv, map (fun va => (fst va,
        mkDa (dims (snd va) ++ [(d, snd c)])
             (fun e => match nth_error tangents_out (index_of (e d) (snd c)) with
                       | Some o => match dget o (fst mv) with
                                   | Some vs => match dget vs (fst va) with Some a => get a e | None => NaN end
                                   | None => NaN end
                       | None => NaN end)
             (aux (snd va)))) (snd mv))) value in
    Ok (value, tangents).

  (** t_test.py 171-210: the results of every metric and variable *)
  Definition t_tests (compute_results : string -> da -> da -> result t_test_results)
    (metrics : dict string (metric da)) (s : state) (d : string)
    : result (dict string (dict string t_test_results)) :=
    do vt <- per_unit_values_linearized metrics s d;
    mapM (fun mv => do tv <- dgetE (snd vt) (fst mv);
                    do rs <- mapM (fun va => do t <- dgetE tv (fst va); do r <- compute_results d (snd va) t; Ok (fst va, r)) (snd mv);
                    Ok (fst mv, rs)) (fst vt).
End Linearize.
