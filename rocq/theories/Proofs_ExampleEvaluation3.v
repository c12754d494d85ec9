(** The example evaluation: the statistics, the state and the tables of metric values. *)
From Coq Require Import String Ascii ZArith QArith Reals List Bool Lia.
Import ListNotations.
From Verif Require Import Prelude Values Model_XArray Spec_XArray Proofs_XArray Model_Tree Model_MetricsBase Spec_Metrics Model_Deterministic Model_Aggregation Spec_Aggregator Proofs_Aggregator Proofs_Aggregator2
  Spec_Means Proofs_Means Proofs_Beam Model_TimeChunks Model_Beam Spec_Beam Proofs_Beam6 Spec_RoundTrip Proofs_RoundTrip Spec_BeamWrite Proofs_Deterministic
  Model_Loaders Proofs_Metrics Model_ExampleEvaluation Proofs_ExampleEvaluation.
Local Open Scope string_scope.
Local Open Scope list_scope.

Lemma per_var_all (f : da -> da -> result (option da)) (h : string -> da -> da) t ps : forall res, NoDup (keys ps) -> (forall k, In k (keys ps) -> dget res k = None) ->
  (forall k a, In (k, a) ps -> exists b, dget t k = Some b /\ f a b = Ok (Some (h k a))) ->
  per_variable_compute f ps t res = Ok (res ++ map (fun kv => (fst kv, h (fst kv) (snd kv))) ps).
Proof.
  induction ps as [|[k a] ps IH]; intros res N D H; cbn [per_variable_compute map]; [now rewrite app_nil_r|].
  destruct (H k a (or_introl eq_refl)) as (b & E1 & E2). rewrite E1, E2. cbn [bind]. rewrite dset_new by (apply D; now left).
  cbn [keys map fst] in N. inversion N as [|? ? N1 N2]; subst. rewrite IH; auto.
  - rewrite <- app_assoc. reflexivity.
  - intros k' I. assert (dget (res ++ [(k, h k a)]) k' = match dget res k' with Some v => Some v | None => dget [(k, h k a)] k' end) as ->.
    { clear. induction res as [|[k0 v0] l IH]; [reflexivity|]. cbn [app dget]. destruct (eq_dec k' k0); auto. }
    rewrite D by (right; exact I). cbn [dget]. destruct (eq_dec k' k) as [->|]; [exfalso; apply N1, I|reflexivity].
  - intros k' a' I. apply H. now right.
Qed.

(** The target of a variable. *)
Definition target_of (td : vars da) (v : string) : da := match dget td v with Some T => T | None => da_empty end.
(** The squared errors of all variables over the times [I] and [L]. *)
Definition all_errors (I L : list Z) (pd td : vars da) : vars da := map (fun kv => (fst kv, errors_at I L (snd kv) (target_of td (fst kv)))) pd.
Definition loaded_predictions (I L : list Z) (pd : vars da) : vars da := map (fun kv => (fst kv, forecast_at I L (snd kv))) pd.
Definition loaded_targets (I L : list Z) (td : vars da) : vars da := map (fun kv => (fst kv, target_at I L (snd kv))) td.
Lemma keys_map_val {V W} (f : string * V -> W) (d : dict string V) : keys (map (fun kv => (fst kv, f kv)) d) = keys d.
Proof. unfold keys. rewrite map_map. reflexivity. Qed.
Lemma dget_map_snd {V W} (f : V -> W) (d : dict string V) k : dget (map (fun kv => (fst kv, f (snd kv))) d) k = match dget d k with Some x => Some (f x) | None => None end.
Proof. induction d as [|[k0 v0] d IH]; [reflexivity|]. cbn [map dget fst snd]. destruct (eq_dec k k0); auto. Qed.
Lemma dget_map_both {V W} (f : string -> V -> W) (d : dict string V) k : dget (map (fun kv => (fst kv, f (fst kv) (snd kv))) d) k = match dget d k with Some x => Some (f k x) | None => None end.
Proof. induction d as [|[k0 v0] d IH]; [reflexivity|]. cbn [map dget fst snd]. destruct (eq_dec k k0) as [->|]; auto. Qed.

Lemma errors_computed I L pd td : NoDup (keys pd) -> (forall k, In k (keys pd) -> In k (keys td)) ->
  compute SquaredError (loaded_predictions I L pd) (loaded_targets I L td) = Ok (all_errors I L pd td).
Proof.
  intros N K. cbn [SquaredError per_variable_statistic compute].
  rewrite (per_var_all _ (fun k a => squared_error_var a (target_at I L (target_of td k)))).
  - cbn [app]. unfold loaded_predictions, all_errors. rewrite map_map. reflexivity.
  - unfold loaded_predictions. rewrite keys_map_val. exact N.
  - reflexivity.
  - intros k a I0. apply (in_map fst) in I0. unfold loaded_predictions in I0. rewrite map_map in I0. cbn [fst] in I0. apply K in I0. apply keys_dget in I0. destruct I0 as [T E].
    exists (target_at I L T). split; [unfold loaded_targets; rewrite dget_map_snd, E; reflexivity|]. unfold target_of. rewrite E. reflexivity.
Qed.
Lemma example_statistics p t raw : compute SquaredError p t = Ok raw -> compute_unique_statistics example_metrics p t = Ok [("SquaredError", raw)].
Proof. intros E. unfold compute_unique_statistics. change (unique_statistics example_metrics) with [("SquaredError", SquaredError)]. cbn [mapM snd fst]. rewrite E. reflexivity. Qed.

Section STATE.
  Variables (g : aggregator) (raw : vars da) (L : list (string * (da * da))).
  Hypothesis Nr : NoDup (keys raw).
  Hypothesis HL : Forall2 (fun kv kp => fst kp = fst kv /\ aggregate_stat_var g (snd kv) = Ok (Some (snd kp))) raw L.
  Lemma L_keys : keys L = keys raw.
  Proof. clear Nr. induction HL as [|kv kp r l [E _] F IH]; [reflexivity|]. cbn [keys map]. rewrite E. f_equal. exact (IH F). Qed.
  Lemma L_kept : kept_vars g (somes raw) L.
  Proof.
    exists (map (fun kp => Some (snd kp)) L). clear Nr. split.
    - unfold somes. induction HL as [|kv kp r l [E1 E2] F IH]; [constructor|]. cbn [map]. constructor; [exact E2|exact (IH F)].
    - unfold somes. rewrite map_map. cbn [fst]. induction HL as [|kv kp r l [E1 E2] F IH]; [reflexivity|]. cbn [map combine flat_map snd fst]. rewrite <- (IH F), <- E1. destruct kp as [k xy]. reflexivity.
  Qed.
  Definition tables : dict string (vars da) := [("rmse", map (fun kv => (fst kv, da_map vsqrt (snd kv))) (meanof L)); ("mse", meanof L)].
  Lemma dget_present {V} (M : dict string V) : NoDup (keys M) -> forall v a, In (v, a) M -> dgetE M v = Ok a.
  Proof. intros N v a I. unfold dgetE. now rewrite (In_dget _ _ _ N I). Qed.
  Lemma mapM_keys_all (F : string -> result (string * da)) h (M : vars da) : (forall v a, In (v, a) M -> F v = Ok (v, h a)) -> mapM F (filter (fun _ => true) (keys M)) = Ok (map (fun kv => (fst kv, h (snd kv))) M).
  Proof.
    induction M as [|[v a] M IH]; intros H; [reflexivity|]. cbn [keys map filter mapM fst snd]. rewrite (H v a) by now left. cbn [bind]. 
    unfold keys in IH. rewrite IH by (intros; apply H; now right). reflexivity.
  Qed.
  Lemma state_tables : exists s, aggregate_statistics g (present [("SquaredError", raw)]) = Ok s /\ metric_tables example_metrics s = Ok tables /\ each_statistic_kept [("SquaredError", raw)] s \/ raw = [].
  Proof.
    destruct raw as [|[v0 st0] raw0] eqn:Er; [exists None; auto|]. rewrite <- Er in *.
    pose proof (proj2 (agg_means g [("SquaredError", raw)] ltac:(repeat constructor; intros []) ltac:(intros k vs [[= <- <-]|[]]; exact Nr) [("SquaredError", meanof L)])) as K.
    cbv beta in K. destruct (aggregate_statistics g (map (fun kv => (fst kv, somes (snd kv))) [("SquaredError", raw)])) as [s|] eqn:Es.
    2:{ exfalso. assert (items_rel (mean1 g) [("SquaredError", raw)] [("SquaredError", meanof L)]) as IR; [|apply K in IR; discriminate]. constructor; [|constructor]. split; [reflexivity|]. exists L. split; [exact L_kept|reflexivity]. }
    exists s. left. split; [exact Es|]. split.
    - assert (items_rel (mean1 g) [("SquaredError", raw)] [("SquaredError", meanof L)]) as IR by (constructor; [split; [reflexivity|]; exists L; split; [exact L_kept|reflexivity]|constructor]).
      apply K in IR. cbn [bind] in IR. unfold metric_tables. destruct (mean_statistics s) as [m|]; [|discriminate]. cbn [bind] in *. rewrite IR. cbn [bind].
      set (M := meanof L). assert (NoDup (keys M)) as NM by (unfold M, meanof; rewrite (keys_map_val (fun vp => binop vdiv (fst (snd vp)) (snd (snd vp)))), L_keys; exact Nr).
      unfold compute_metrics_from_statistics, example_metrics. cbn [mapM fst snd]. unfold compute_metric_from_statistics at 1. cbn [RMSE per_variable_metric statistics mapM fst snd]. 
      change (unique_name SquaredError) with "SquaredError". change (dgetE [("SquaredError", M)] "SquaredError") with (Ok M). cbn [bind]. cbn [values_from_mean_statistics keys map fst mapM].
      assert (values_from_mean_statistics RMSE [("SquaredError", M)] = Ok (map (fun kv => (fst kv, da_map vsqrt (snd kv))) M)) as ->; [|reflexivity].
      cbn [RMSE per_variable_metric values_from_mean_statistics keys map fst mapM]. change (dgetE [("SquaredError", M)] "SquaredError") with (Ok M). cbn [bind forallb].
      apply (mapM_keys_all _ (da_map vsqrt) M). intros v a I. rewrite (dget_present M NM v a I). reflexivity.
    - intros k [<-|[]]. destruct L as [|[v1 xy] L0] eqn:EL; [rewrite Er in HL; inversion HL|].
      exists v1, (snd xy). pose proof (direct_entry g [("SquaredError", raw)] s SumWeights "SquaredError" v1) as DE.
      assert (dicts [("SquaredError", raw)]) as D by (split; [repeat constructor; intros []|intros k vs [[= <- <-]|[]]; exact Nr]).
      specialize (DE D Es). unfold stat in DE. cbn [dget] in DE. destruct (eq_dec "SquaredError" "SquaredError"); [|congruence].
      rewrite Er in HL. inversion HL as [|? ? ? ? [E1 E2] F]; subst. cbn [fst snd] in *. subst v1. cbn [dget] in DE. destruct (eq_dec v0 v0); [|congruence].
      destruct DE as (r & E3 & E4). rewrite E2 in E3. injection E3 as <-. cbn [fst]. rewrite E4. reflexivity.
  Qed.
End STATE.
