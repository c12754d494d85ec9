(** When a per-variable metric has a value: a converse of [value_of_metric], used to show that
    examples meet the hypotheses of theorems about metric values. *)
From Coq Require Import String List Bool.
Import ListNotations.
From Verif Require Import Prelude Values Model_XArray Model_Tree Model_MetricsBase Model_Aggregation Spec_Aggregator Proofs_Aggregator2 Spec_Metrics Proofs_Metrics Spec_Means Proofs_Means.
Local Open Scope string_scope.
Local Open Scope list_scope.

Lemma own_mean_intro g p t s v st m : compute s p t = Ok [(v, st)] -> mean_array g st m -> own_mean g p t s [(v, m)].
Proof.
  intros H (x & y & E & ->). apply own_mean_iff; [intros r; rewrite H; intros [= <-]; repeat constructor; intros []|]. exists [(v, st)]. split; [exact H|].
  exists [(v, (x, y))]. split; [|reflexivity]. exists [Some (x, y)]. split; [constructor; [exact E|constructor]|reflexivity].
Qed.
Lemma tables_single (v : string) (per : list (string * da)) : NoDup (keys per) ->
  mapM (fun s => dgetE (map (fun km => (fst km, [(v, snd km)])) per) s) (keys per) = Ok (map (fun km => [(v, snd km)]) per) /\
  mapM (fun s => do t <- dgetE (map (fun km => (fst km, [(v, snd km)])) per) s; do x <- dgetE t v; Ok (s, x)) (keys per) = Ok per.
Proof.
  intros N. assert (forall k m, In (k, m) per -> dgetE (map (fun km => (fst km, [(v, snd km)])) per) k = Ok [(v, m)]) as K.
  { intros k m I. unfold dgetE. rewrite (In_dget _ k [(v, m)]); auto.
    - unfold keys. rewrite map_map. exact N.
    - apply in_map_iff. now exists (k, m). }
  revert K. generalize (map (fun km : string * da => (fst km, [(v, snd km)])) per). intros tb K. clear N. induction per as [|[k m] per IH]; [split; reflexivity|].
  destruct IH as [I1 I2]; [intros; apply K; now right|]. split; cbn [keys map mapM fst snd]; rewrite (K k m (or_introl eq_refl)); cbn [bind].
  - unfold keys in I1. rewrite I1. reflexivity.
  - unfold dgetE at 1. cbn [dget]. destruct (eq_dec v v); [|congruence]. cbn [bind]. unfold keys in I2. rewrite I2. reflexivity.
Qed.
Lemma metric_value_intro g p t stats F v a per : stats <> [] -> NoDup (map fst stats) ->
  (forall s s', In s (map snd stats) -> In s' (map snd stats) -> unique_name s = unique_name s' -> compute s p t = compute s' p t) ->
  Forall2 (fun ks sa => fst ks = fst sa /\ exists st, compute (snd ks) p t = Ok [(v, st)] /\ mean_array g st (snd sa)) stats per ->
  F per = Ok a -> metric_value g p t (per_variable_metric stats F) v a.
Proof.
  intros Hne Hnd Hid H HF. set (M := [("metric", per_variable_metric stats F)]).
  assert (registered M = map snd stats) as HR by (unfold registered, M; simpl; apply app_nil_r).
  assert (forall s, In s (map snd stats) -> exists st, compute s p t = Ok [(v, st)]) as Hc.
  { intros s Hs. apply in_map_iff in Hs. destruct Hs as ([k s'] & <- & Hs). clear - H Hs. induction H as [|x y l1 l2 [_ (st & Hst & _)] H IH]; [destruct Hs|]. destruct Hs as [->|Hs]; eauto. }
  assert (forall s r, In s (registered M) -> compute s p t = Ok r -> NoDup (keys r)) as Hout.
  { intros s r Hs Hr. rewrite HR in Hs. destruct (Hc s Hs) as [st E]. rewrite E in Hr. injection Hr as <-. repeat constructor; intros []. }
  assert (names_identify M p t) as Hni by (intros s s'; rewrite HR; apply Hid).
  assert (map fst per = map fst stats) as Hk.
  { clear - H. induction H as [|x y l1 l2 [E _] H IH]; [reflexivity|]. cbn [map]. congruence. }
  set (means := map (fun km => (fst km, [(v, snd km)])) per).
  assert (items_rel (own_mean g p t) stats means) as IR.
  { unfold means. clear - H. induction H as [|x y l1 l2 [E (st & E1 & E2)] H IH]; [constructor|]. cbn [map]. constructor; [|exact IH]. split; [exact E|]. cbn [snd]. eapply own_mean_intro; eauto. }
  assert (NoDup (keys per)) as Np by (unfold keys; rewrite Hk; exact Hnd).
  assert (values_from_mean_statistics (per_variable_metric stats F) means = Ok [(v, a)]) as V.
  { cbn [values_from_mean_statistics per_variable_metric]. assert (keys stats = keys per) as -> by (unfold keys; now rewrite Hk). destruct (tables_single v per Np) as [T1 T2]. unfold means. unfold vars, dict in *. rewrite T1. cbn [bind].
    destruct per as [|[k0 m0] per']; [destruct stats; [contradiction|discriminate Hk]|]. set (per := (k0, m0) :: per') in *. change (map (fun km : string * da => [(v, snd km)]) per) with ([(v, m0)] :: map (fun km : string * da => [(v, snd km)]) per'). cbv iota.
    change (keys [(v, m0)]) with [v]. cbn [filter]. 
    assert (forallb (fun t0 : list (string * da) => memb v (keys t0)) (map (fun km : string * da => [(v, snd km)]) per') = true) as ->.
    { apply forallb_forall. intros z Hz. apply in_map_iff in Hz. destruct Hz as (km & <- & _). apply memb_In. now left. }
    cbn [mapM]. rewrite T2. cbn [bind]. rewrite HF. reflexivity. }
  destruct (evaluate_conv g p t M Hout Hni) as [mv E].
  { intros n m [[= <- <-]|[]]. exists means, [(v, a)]. split; [exact IR|exact V]. }
  destruct (evaluate_each g p t M mv Hout Hni E) as [K1 K2]. destruct (K2 _ _ (or_introl eq_refl)) as (vv & means' & I & IR' & V').
  assert (means' = means) as ->.
  { clear - IR IR' Hout HR. change (statistics (per_variable_metric stats F)) with stats in IR'.
    assert (forall s, In s (map snd stats) -> forall r, compute s p t = Ok r -> NoDup (keys r)) as Ho by (intros s Hs r; apply Hout; now rewrite HR). clear Hout HR. revert means' IR'.
    induction IR as [|[k s] [k1 m1] l1 l2 [E1 E2] IR IH]; intros means' IR'; inversion IR' as [|? [k2 m2] ? ? [E3 E4] IR2]; subst; [reflexivity|]. cbn [fst snd] in *. subst. f_equal.
    - f_equal. eapply own_mean_fun; [|exact E4|exact E2]. apply Ho. now left.
    - apply IH; auto. intros s' Hs'. apply Ho. now right. }
  rewrite V in V'. injection V' as <-. exists [(v, a)]. split; [|cbn [dget]; destruct (eq_dec v v); congruence]. fold M. rewrite E. f_equal.
  destruct mv as [|[n0 v0] [|]]; try discriminate. destruct I as [[= -> ->]|[]]. reflexivity.
Qed.
Lemma statistic_metric_intro g p t s v st m : compute s p t = Ok [(v, st)] -> mean_array g st m -> metric_value g p t (metric_of_statistic s) v m.
Proof.
  intros H Hm. pose proof (own_mean_intro g p t s v st m H Hm) as O. set (M := [("metric", metric_of_statistic s)]).
  assert (forall s' r, In s' (registered M) -> compute s' p t = Ok r -> NoDup (keys r)) as Hout.
  { intros s' r [Es|[]]; rewrite <- Es; cbn [snd]. rewrite H. intros [= <-]; repeat constructor; intros []. }
  assert (names_identify M p t) as Hid by (intros s1 s' [<-|[]] [<-|[]] E; reflexivity).
  destruct (evaluate_conv g p t M Hout Hid) as [mv E].
  { intros n m' [[= <- <-]|[]]. exists [("self", [(v, m)])], [(v, m)]. split; [constructor; [split; [reflexivity|exact O]|constructor]|]. reflexivity. }
  destruct (evaluate_each g p t M mv Hout Hid E) as [K1 K2]. destruct (K2 _ _ (or_introl eq_refl)) as (vv & means & I & IR' & V').
  inversion IR' as [|? [k1 a1] ? ? [E1 O1'] IR2]; subst. inversion IR2; subst. cbn [fst snd] in *. subst k1.
  assert (a1 = [(v, m)]) as -> by (eapply own_mean_fun; [|exact O1'|exact O]; intros r Hr; apply (Hout s); [now left|exact Hr]).
  assert (vv = [(v, m)]) as -> by (cbn in V'; congruence).
  exists [(v, m)]. split; [|cbn [dget]; destruct (eq_dec v v); congruence]. fold M. rewrite E. f_equal. destruct mv as [|[n0 v0] [|]]; try discriminate. destruct I as [[= -> ->]|[]]. reflexivity.
Qed.
