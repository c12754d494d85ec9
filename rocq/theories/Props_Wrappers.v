(** C33: wrapped metrics and input transforms. *)
From Coq Require Import String ZArith List Bool Reals Lra Lia.
Import ListNotations.
From Verif Require Import Prelude Values Model_XArray Spec_XArray Proofs_XArray Model_Tree Model_MetricsBase Model_Aggregation
  Spec_Aggregator Spec_Metrics Proofs_Metrics Spec_Means Proofs_Means Model_Deterministic Model_Categorical Model_Ensemble
  Spec_Reduce Proofs_Reduce Spec_Statistic Spec_Ensemble Proofs_Ensemble2
  Proofs_Tree Proofs_Aggregator2 Model_Wrappers Spec_Wrappers Proofs_Wrappers.
Local Open Scope R_scope.
Local Open Scope string_scope.
Local Open Scope list_scope.

(** Every statistic of a wrapped metric computes what the original statistic computes on the
    transformed inputs: the transforms are applied in list order, each to its own side(s) only;
    it raises exactly if a transform or the original statistic does.  *)
Theorem C33_statistics : forall m ts sfx p t,
  keys (statistics (WrappedMetric m ts sfx)) = keys (statistics m) /\
  forall n s, dget (statistics m) n = Some s -> exists s', dget (statistics (WrappedMetric m ts sfx)) n = Some s' /\
    forall r, compute s' p t = Ok r <->
      exists p' t', transformed "predictions" ts p p' /\ transformed "targets" ts t t' /\ compute s p' t' = Ok r.
Proof.
  intros m ts sfx p t. cbn [WrappedMetric statistics]. split; [unfold keys; rewrite map_map; reflexivity|].
  intros n s H. exists (wrap_statistic ts sfx s). split; [|intros r; apply wrap_statistic_iff].
  change (map (fun ns => (fst ns, wrap_statistic ts sfx (snd ns))) (statistics m)) with (map (fun ns : string * statistic da => (fst ns, (wrap_statistic ts sfx) (snd ns))) (statistics m)).
  rewrite (dget_map_val (wrap_statistic ts sfx)). now rewrite H.
Qed.
Print Assumptions C33_statistics.

(** With one wrapped statistic: the sides are transformed by that transform alone. *)
Theorem C33_wrapped_statistic : forall s w p t r,
  compute (WrappedStatistic s w) p t = Ok r <->
  exists p' t', transformed "predictions" [w] p p' /\ transformed "targets" [w] t t' /\ compute s p' t' = Ok r.
Proof. intros. apply wrapped_iff. Qed.
Print Assumptions C33_wrapped_statistic.

Lemma registered_single (m : metric da) : registered [("m", m)] = map snd (statistics m).
Proof. unfold registered. simpl. apply app_nil_r. Qed.
(** The value of a wrapped metric is the value of the metric on the transformed inputs. *)
Theorem C33_metric : forall g m ts sfx p t p' t' v a,
  transformed "predictions" ts p p' -> transformed "targets" ts t t' ->
  names_identify [("m", m)] p' t' -> (forall s raw, In s (registered [("m", m)]) -> compute s p' t' = Ok raw -> NoDup (keys raw)) ->
  (metric_value g p t (WrappedMetric m ts sfx) v a <-> metric_value g p' t' m v a).
Proof.
  intros g m ts sfx p t p' t' v a H1 H2 Hid Hnd. unfold names_identify in Hid. rewrite !registered_single in *.
  assert (forall s r, compute (wrap_statistic ts sfx s) p t = Ok r <-> compute s p' t' = Ok r) as W by (intros; now apply wrap_statistic_Ok).
  assert (forall s raw, In s (map snd (statistics m)) -> compute s p' t' = Ok raw -> NoDup (keys raw)) as Hnd' by exact Hnd.
  rewrite (metric_value_iff g p' t' m); [|exact Hnd|exact Hid].
  assert (forall s, In s (map snd (statistics (WrappedMetric m ts sfx))) -> exists s0, In s0 (map snd (statistics m)) /\ s = wrap_statistic ts sfx s0) as Hs.
  { cbn [WrappedMetric statistics]. intros s. rewrite map_map, in_map_iff. intros ([k s0] & <- & Hin). exists s0. split; [|reflexivity]. apply in_map_iff. now exists (k, s0). }
  assert (forall l means, incl (map snd l) (map snd (statistics m)) ->
    (items_rel (own_mean g p t) (map (fun ns => (fst ns, wrap_statistic ts sfx (snd ns))) l) means <-> items_rel (own_mean g p' t') l means)) as G.
  { induction l as [|[k s] l IH]; intros means Hi; cbn [map].
    - split; intros H; inversion H; constructor.
    - assert (forall mn, own_mean g p t (wrap_statistic ts sfx s) mn <-> own_mean g p' t' s mn) as O.
      { intros mn. assert (In s (map snd (statistics m))) as Hin by (apply Hi; now left). rewrite !own_mean_iff.
        - split; intros (raw & K1 & K2); exists raw; split; auto; now apply W.
        - intros raw. now apply Hnd.
        - intros raw K. apply W in K. eapply Hnd; eauto. }
      split; intros H; inversion H as [|? [k' mn] ? ? [E1 E2]]; subst; cbn [fst snd] in *; constructor; cbn [fst snd]; try (split; auto; now apply O);
        (apply IH; [intros z Hz; apply Hi; now right|assumption]). }
  rewrite metric_value_iff.
  - cbn [WrappedMetric statistics values_from_mean_statistics].
    split; intros (means & vs & K1 & K2 & K3); exists means, vs; (split; [apply (G (statistics m)); [apply incl_refl|exact K1]|auto]).
  - intros s raw Hin K. apply Hs in Hin. destruct Hin as (s0 & Hin & ->). apply W in K. eapply Hnd; eauto.
  - intros s s' Hin Hin' K. apply Hs in Hin. apply Hs in Hin'. destruct Hin as (s0 & Hin & ->). destruct Hin' as (s0' & Hin' & ->).
    apply wrap_statistic_name in K. specialize (Hid _ _ Hin Hin' K).
    rewrite !(wrap_compute ts sfx _ p t p' t' H1 H2). exact Hid.
Qed.
Print Assumptions C33_metric.

(** A concrete case: negation of the predictions, then ReLU on both sides.  The squared error of
    prediction 3 and target 2 becomes (max(-3, 0) - max(2, 0))^2 = 4. *)
Definition ex_neg : transform := mkTransform "predictions" "negate" (fun _ a => Ok (da_map vneg a)).
Definition ex_relu : transform := mkTransform "both" "relu" (fun _ a => Ok (da_map (fun x => if vltb (Fin 0) x then x else Fin 0) a)).
Example C33_order_example : exists s r y,
  dget (statistics (WrappedMetric (metric_of_statistic SquaredError) [ex_neg; ex_relu] None)) "self" = Some s /\
  compute s [("v", scalar (Fin 3))] [("v", scalar (Fin 2))] = Ok r /\ dget r "v" = Some y /\ get y env0 = Fin 4 /\
  exists p' t', transformed "predictions" [ex_neg; ex_relu] [("v", scalar (Fin 3))] p' /\ transformed "targets" [ex_neg; ex_relu] [("v", scalar (Fin 2))] t' /\ compute SquaredError p' t' = Ok r.
Proof.
  destruct (C33_statistics (metric_of_statistic SquaredError) [ex_neg; ex_relu] None [("v", scalar (Fin 3))] [("v", scalar (Fin 2))]) as [_ K].
  destruct (K "self" SquaredError eq_refl) as (s & Hs & Hiff). exists s.
  assert (exists r, compute s [("v", scalar (Fin 3))] [("v", scalar (Fin 2))] = Ok r /\ exists y, dget r "v" = Some y /\ get y env0 = Fin 4) as (r & Hr & y & Hy & Hv).
  { injection Hs as <-. eexists. split; [reflexivity|]. eexists. split; [reflexivity|]. cbn. unfold Rltb. destruct (Rlt_dec 0 (- (3))); [lra|]. destruct (Rlt_dec 0 2); [|lra]. cbn. f_equal. lra. }
  exists r, y. split; [exact Hs|]. split; [exact Hr|]. split; [exact Hy|]. split; [exact Hv|]. now apply Hiff.
Qed.
