(** The shape of states and the metric values of states with equal entries (C69). *)
From Coq Require Import String Ascii List Bool Arith Lia ZArith.
Import ListNotations.
From Verif Require Import Prelude Values Model_XArray Spec_XArray Proofs_XArray Model_Tree Spec_Tree Proofs_Tree Proofs_AggState
  Model_MetricsBase Model_Aggregation Spec_Aggregator Proofs_Aggregator2 Spec_RoundTrip Proofs_Deterministic Proofs_Metrics Proofs_MetricValues
  Model_TimeChunks Model_Beam Spec_Beam Proofs_Beam5 Proofs_Beam6 Spec_BeamWrite Proofs_BeamWrite Proofs_BeamWrite2.
Local Open Scope string_scope.
Local Open Scope list_scope.

(** Nested dictionaries with distinct keys and no empty inner dictionary. *)
Definition proper (d : dict string (dict string da)) : Prop :=
  NoDup (keys d) /\ forall k vs, In (k, vs) d -> NoDup (keys vs) /\ vs <> [].
Definition shaped (s : state) (d1 d2 : dict string (dict string da)) : Prop :=
  s = Some (nest_tree d1, nest_tree d2) /\ proper d1 /\ proper d2.

Lemma dset_ne {K V} `{EqDec K} (d : dict K V) k v : dset d k v <> [].
Proof. destruct d as [|[k0 x] d]; cbn; [discriminate|]. destruct (eq_dec k k0); discriminate. Qed.
Lemma In_dset {K V} `{EqDec K} (d : dict K V) k v k' v' : NoDup (keys d) -> In (k', v') (dset d k v) -> k' = k /\ v' = v \/ k' <> k /\ In (k', v') d.
Proof.
  intros N I. assert (NoDup (keys (dset d k v))) as N' by (now apply NoDup_keys_dset). apply (In_dget _ _ _ N') in I. rewrite dget_dset in I.
  destruct (eq_dec k' k) as [->|Hne]; [injection I as <-; auto|]. right. split; auto. now apply dget_In in I.
Qed.
Lemma proper_set d k v a : proper d -> proper (set_nested d k v a).
Proof.
  intros [N W]. unfold set_nested. split; [now apply NoDup_keys_dset|]. intros k' vs I. apply In_dset in I; auto.
  destruct I as [[-> ->]|[_ I]]; [|eauto]. split; [|apply dset_ne]. apply NoDup_keys_dset. destruct (dget d k) as [vs0|] eqn:G; [|constructor].
  apply dget_In in G. apply (W k vs0 G).
Qed.
Lemma reconstruct_shaped pairs : exists d1 d2, shaped (reconstruct pairs) d1 d2.
Proof.
  unfold reconstruct. match goal with |- context [fold_left ?F pairs ?x] => set (f := F) end.
  assert (forall acc, proper (fst acc) -> proper (snd acc) -> proper (fst (fold_left f pairs acc)) /\ proper (snd (fold_left f pairs acc))) as K.
  { induction pairs as [|[kk a] pairs IH]; intros acc P1 P2; [auto|]. cbn [fold_left]. apply IH; unfold f; cbn [fst snd]; destruct (k_type kk); cbn [fst snd]; auto; now apply proper_set. }
  destruct (K ([], [])) as [P1 P2]; [split; [constructor|intros ? ? []]..|].
  exists (fst (fold_left f pairs ([], []))), (snd (fold_left f pairs ([], []))). split; [reflexivity|auto].
Qed.
Lemma pipeline_shaped tc pl tl metrics g out s : pipeline_states tc pl tl metrics g out -> In s out -> exists d1 d2, shaped s d1 d2.
Proof.
  intros (os & elems & summed & grouped & groups & _ & _ & _ & _ & _ & ->) I. apply in_map_iff in I. destruct I as (p & <- & _). apply reconstruct_shaped.
Qed.

(** Direct aggregation where each statistic keeps a variable. *)
Lemma direct_shaped g full s : dicts full -> aggregate_statistics g (present full) = Ok s ->
  (forall k, In k (keys full) -> exists v a, entry (part SumWeights s) k v = Some a) ->
  (exists d1 d2, shaped s d1 d2) /\ (forall k v, entry (part SumWeightedStatistics s) k v <> None <-> entry (part SumWeights s) k v <> None).
Proof.
  intros D H NE. assert (forall k v, entry (part SumWeightedStatistics s) k v <> None <-> entry (part SumWeights s) k v <> None) as B.
  { intros k v. pose proof (direct_entry g full s SumWeightedStatistics k v D H) as E1. pose proof (direct_entry g full s SumWeights k v D H) as E2.
    destruct (stat full k v) as [st|]; [|rewrite E1, E2; tauto]. destruct E1 as (r & Er & ->), E2 as (r' & Er' & ->). rewrite Er in Er'. injection Er' as <-.
    destruct r; split; intros; discriminate || congruence. }
  split; [|exact B]. destruct D as [Hn Hd]. apply agg_stats_Ok in H. destruct H as (L & HL & ->).
  set (P := fun f : da * da -> da => map (fun kr : string * list (string * (da * da)) => (fst kr, map (fun vp : string * (da * da) => (fst vp, f (snd vp))) (snd kr))) L) in *.
  change (nest (map (fun kr => (fst kr, map (fun vp => (fst vp, fst (snd vp))) (snd kr))) L)) with (nest_tree (P fst)) in *.
  change (nest (map (fun kr => (fst kr, map (fun vp => (fst vp, snd (snd vp))) (snd kr))) L)) with (nest_tree (P snd)) in *.
  assert (map fst L = map fst full) as KL.
  { rewrite <- (items_rel_keys _ _ _ HL). unfold present. rewrite map_map. reflexivity. }
  assert (forall k l, In (k, l) L -> NoDup (map fst l)) as NL.
  { intros k l I. assert (exists raw, In (k, raw) (present full) /\ kept_vars g raw l) as (raw & I' & K).
    { clear - HL I. induction HL as [|[k1 x] [k2 y] q q' [E K] HF IH]; [destruct I|]. cbn [fst snd] in *. subst k2. destruct I as [[= -> ->]|I]; [exists x; split; [now left|auto]|].
      destruct (IH I) as (z & ? & ?). exists z. split; [now right|auto]. }
    eapply kept_NoDup; [exact K|]. unfold present in I'. apply in_map_iff in I'. destruct I' as ([k0 vs] & [= -> <-] & I'). cbn [snd]. rewrite map_map. cbn [fst]. eapply Hd. eauto. }
  assert (forall k l, In (k, l) L -> l <> []) as NN.
  { intros k l I ->. destruct (NE k) as (v & a & E); [unfold keys; rewrite <- KL; apply in_map_iff; exists (k, []); auto|].
    change (entry (nest_tree (P snd)) k v = Some a) in E. rewrite entry_nest in E. unfold look, P, dict in E. rewrite (dget_map_val (fun x : list (string * (da * da)) => map (fun vp => (fst vp, snd (snd vp))) x)) in E.
    assert (NoDup (map fst L)) as N by (rewrite KL; exact Hn). unfold dict in *. rewrite (In_dget _ _ _ N I) in E. discriminate. }
  assert (forall f, proper (P f)) as PP.
  { intros f. split.
    - unfold P, keys. rewrite map_map. cbn [fst]. change (NoDup (map fst L)). rewrite KL. exact Hn.
    - intros k vs I. unfold P in I. apply in_map_iff in I. destruct I as ([k0 l] & [= -> <-] & I). cbn [snd]. split.
      + unfold keys. rewrite map_map. cbn [fst]. eapply NL; eauto.
      + intros F. apply map_eq_nil in F. now apply (NN k l). }
  exists (P fst), (P snd). split; [reflexivity|]. auto.
Qed.

(** ** Means *)
Definition pick (d : dict string (dict string da)) (k v : string) : da := match look d k v with Some b => b | None => da_empty end.
Definition means (d1 d2 : dict string (dict string da)) : dict string (vars da) :=
  map (fun kr => (fst kr, map (fun va => (fst va, binop vdiv (snd va) (pick d2 (fst kr) (fst va)))) (snd kr))) d1.

Lemma means_nest d1 d2 : proper d1 -> (forall k v a, look d1 k v = Some a -> exists b, look d2 k v = Some b) ->
  mean_statistics (Some (nest_tree d1, nest_tree d2)) = Ok (nest (means d1 d2)).
Proof.
  intros [N W] H. unfold mean_statistics, map_structure. unfold nest_tree at 1. rewrite map_first_Dict.
  match goal with |- context [go_dict ?F ?rb ?r] => set (func := F); set (rest := r) end.
  assert (forall l1, incl l1 d1 ->
    go_dict func rebuild_ds rest (map (fun kv : string * dict string da => (fst kv, Dict (map (fun va => (fst va, Leaf (snd va))) (snd kv)))) l1)
    = Ok (map (fun kr : string * vars da => (fst kr, nest1 (snd kr))) (means l1 d2))) as K; [|rewrite K by apply incl_refl; reflexivity].
  induction l1 as [|[k vs] l1 IH]; intros Hin; [reflexivity|].
  cbn [map fst snd go_dict mapM bind means]. unfold rest at 1. cbn [mapM].
  assert (In (k, vs) d1) as Hkv by (apply Hin; now left). destruct (W k vs Hkv) as [Nv Ne].
  assert (look d1 k = dget vs) as Lk by (unfold look; now rewrite (In_dget _ _ _ N Hkv)).
  assert (exists ws, dget d2 k = Some ws) as [ws Ews].
  { destruct vs as [|[v a] vs]; [congruence|]. destruct (H k v a) as [b Hb]; [rewrite Lk; cbn; now destruct (eq_dec v v)|]. unfold look in Hb. destruct (dget d2 k); [eauto|discriminate]. }
  assert (child (nest_tree d2) k = Ok (Dict (map (fun va : string * da => (fst va, Leaf (snd va))) ws))) as Hc.
  { unfold nest_tree, child, dgetE, dict in *. rewrite (dget_map_val (fun vs => Dict (map (fun va => (fst va, Leaf (snd va))) vs))), Ews. reflexivity. }
  rewrite Hc. cbn [bind]. rewrite map_first_Dict.
  assert (forall vs1, incl vs1 vs ->
      go_dict func rebuild_ds [Dict (map (fun va : string * da => (fst va, Leaf (snd va))) ws)] (map (fun va : string * da => (fst va, Leaf (snd va))) vs1)
      = Ok (map (fun va : string * da => (fst va, Leaf (snd va))) (map (fun va => (fst va, binop vdiv (snd va) (pick d2 k (fst va)))) vs1))) as Kv.
  { clear IH. induction vs1 as [|[v a] vs1 IH]; intros Hi; [reflexivity|].
    cbn [map fst snd go_dict mapM bind].
    assert (In (v, a) vs) as Hv by (apply Hi; now left).
    destruct (H k v a) as [b Hb]; [rewrite Lk; apply In_dget; auto|].
    assert (child (Dict (map (fun va : string * da => (fst va, Leaf (snd va))) ws)) v = Ok (Leaf b)) as Hc'.
    { unfold child, dgetE. rewrite (dget_map_val (fun a : da => Leaf a)). unfold look in Hb. rewrite Ews in Hb. unfold dict in *. rewrite Hb. reflexivity. }
    rewrite Hc'. cbn [bind map_first]. unfold func at 1. cbn [arrays bind].
    match goal with |- bind ?X _ = _ => change X with (go_dict func rebuild_ds [Dict (map (fun va : string * da => (fst va, Leaf (snd va))) ws)] (map (fun va : string * da => (fst va, Leaf (snd va))) vs1)) end.
    rewrite IH; [|intros z Hz; apply Hi; now right]. cbn [bind]. unfold pick at 2. rewrite Hb. reflexivity. }
  rewrite Kv by apply incl_refl. cbn [bind].
  match goal with |- bind ?X _ = _ => change X with (go_dict func rebuild_ds rest (map (fun kv : string * dict string da => (fst kv, Dict (map (fun va => (fst va, Leaf (snd va))) (snd kv)))) l1)) end.
  rewrite IH; [reflexivity|]. intros z Hz. apply Hin. now right.
Qed.

Lemma look_keys d k : proper d -> In k (keys d) <-> exists v a, look d k v = Some a.
Proof.
  intros [N W]. split.
  - intros I. destruct (keys_dget _ _ I) as [vs G]. unfold look. destruct (W k vs (dget_In _ _ G)) as [_ Ne]. destruct vs as [|[v a] vs]; [congruence|].
    exists v, a. rewrite G. cbn. now destruct (eq_dec v v).
  - intros (v & a & E). unfold look in E. destruct (dget d k) eqn:G; [|discriminate]. exact (dget_Some_keys _ _ G).
Qed.
Lemma dget_means d1 d2 k : dget (means d1 d2) k = match dget d1 k with Some vs => Some (map (fun va => (fst va, binop vdiv (snd va) (pick d2 k (fst va)))) vs) | None => None end.
Proof.
  unfold means. induction d1 as [|[k0 vs] d1 IH]; [reflexivity|]. cbn [map fst snd dget]. destruct (eq_dec k k0) as [->|]; [reflexivity|exact IH].
Qed.
Lemma dget_vmap (f : string -> da -> da) (vs : list (string * da)) v : dget (map (fun va => (fst va, f (fst va) (snd va))) vs) v = match dget vs v with Some a => Some (f v a) | None => None end.
Proof. induction vs as [|[k0 a] vs IH]; [reflexivity|]. cbn [map fst snd dget]. destruct (eq_dec v k0) as [->|]; [reflexivity|exact IH]. Qed.

Lemma same_means d1 d2 d1' d2' : proper d1 -> proper d1' ->
  (forall k v a, look d1 k v = Some a -> exists b, look d2 k v = Some b) ->
  (forall k v, opt_rel same_array (look d1 k v) (look d1' k v)) -> (forall k v, opt_rel same_array (look d2 k v) (look d2' k v)) ->
  same_tables (means d1 d2) (means d1' d2').
Proof.
  intros P P' C H1 H2 k. rewrite !dget_means.
  assert (forall k, In k (keys d1) <-> In k (keys d1')) as K.
  { intros k0. rewrite (look_keys d1 k0 P), (look_keys d1' k0 P'). split; intros (v & a & E); specialize (H1 k0 v); rewrite E in H1.
    - destruct (look d1' k0 v) eqn:E'; [eauto|destruct H1].
    - destruct (look d1 k0 v) eqn:E'; [eauto|destruct H1]. }
  destruct (dget d1 k) as [vs|] eqn:G.
  - assert (In k (keys d1')) as I by (apply K; exact (dget_Some_keys _ _ G)). destruct (keys_dget _ _ I) as [vs' G']. rewrite G'. cbn [opt_rel].
    split; [|split].
    + unfold keys. rewrite map_map. cbn [fst]. apply (proj2 P k vs). now apply dget_In in G.
    + unfold keys. rewrite map_map. cbn [fst]. apply (proj2 P' k vs'). now apply dget_In in G'.
    + intros v. rewrite (dget_vmap (fun v a => binop vdiv a (pick d2 k v))), (dget_vmap (fun v a => binop vdiv a (pick d2' k v))).
      pose proof (H1 k v) as S1. pose proof (H2 k v) as S2. pose proof (C k v) as Cv. unfold look in S1 at 1 2. unfold look in Cv at 1. rewrite G in S1, Cv. rewrite G' in S1. unfold dict in *.
      destruct (dget vs v) as [a|], (dget vs' v) as [a'|]; try (destruct S1; fail); [|exact I0 || exact Logic.I].
      destruct (Cv a eq_refl) as [b Eb]. unfold pick. unfold dict in *. rewrite Eb in S2 |- *. destruct (look d2' k v) as [b'|]; [|destruct S2].
      cbn in *. now apply same_binop.
  - destruct (dget d1' k) as [vs'|] eqn:G'; [|exact I]. exfalso. assert (In k (keys d1)) as I by (apply K; exact (dget_Some_keys _ _ G')).
    destruct (keys_dget _ _ I) as [? ?]. congruence.
Qed.

Theorem metric_tables_same metrics s s' d1 d2 d1' d2' mv : shaped s d1 d2 -> shaped s' d1' d2' ->
  (forall k v, entry (part SumWeightedStatistics s) k v <> None <-> entry (part SumWeights s) k v <> None) ->
  (forall ty k v, opt_rel same_array (entry (part ty s') k v) (entry (part ty s) k v)) ->
  (forall name m, In (name, m) metrics -> extensional m) ->
  metric_tables metrics s = Ok mv -> exists mv', metric_tables metrics s' = Ok mv' /\ items_rel same_vars mv mv'.
Proof.
  intros (-> & P1 & P2) (-> & P1' & P2') C H HM E. unfold metric_tables in *. cbn [part] in *.
  assert (forall (a b : option da), opt_rel same_array a b -> opt_rel same_array b a) as Sy by (intros [a|] [b|]; cbn; auto; apply same_array_sym).
  assert (forall k v, opt_rel same_array (look d1 k v) (look d1' k v)) as H1 by (intros k v; apply Sy; specialize (H SumWeightedStatistics k v); cbn [part] in H; now rewrite !entry_nest in H).
  assert (forall k v, opt_rel same_array (look d2 k v) (look d2' k v)) as H2 by (intros k v; apply Sy; specialize (H SumWeights k v); cbn [part] in H; now rewrite !entry_nest in H).
  assert (forall k v a, look d1 k v = Some a -> exists b, look d2 k v = Some b) as Co.
  { intros k v a L. specialize (C k v). rewrite !entry_nest, L in C. destruct (look d2 k v) as [b|]; [eauto|]. exfalso. apply (proj1 C); [discriminate|reflexivity]. }
  assert (forall k v a, look d1' k v = Some a -> exists b, look d2' k v = Some b) as Co'.
  { intros k v a L. specialize (H1 k v). specialize (H2 k v). rewrite L in H1. destruct (look d1 k v) as [x|] eqn:E1; [|destruct H1]. destruct (Co k v x E1) as [y Ey]. rewrite Ey in H2. destruct (look d2' k v); [eauto|destruct H2]. }
  rewrite (means_nest d1 d2 P1 Co) in E. rewrite (means_nest d1' d2' P1' Co'). cbn [bind] in *. rewrite nested_nest in *. cbn [bind] in *.
  eapply metrics_same; [exact HM| |exact E]. now apply same_means.
Qed.
