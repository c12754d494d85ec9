(** The pipeline's state against direct aggregation. *)
From Coq Require Import String ZArith Bool List Permutation Lia Arith.
Import ListNotations.
From Verif Require Import Prelude Values Model_XArray Spec_XArray Proofs_XArray Model_Tree Spec_Tree Proofs_Tree
  Model_TimeChunks Spec_TimeChunks Proofs_TimeChunks Model_MetricsBase
  Model_Aggregation Spec_Aggregation Spec_Aggregator Proofs_AggState Proofs_Aggregator Proofs_Aggregator2
  Model_Beam Spec_Beam Proofs_Beam Proofs_Beam2 Proofs_Beam3 Proofs_Beam4 Proofs_Beam5.
From Coq Require Import Reals.
Local Open Scope string_scope.
Local Open Scope list_scope.

Definition sel (ty : key_type) (xy : da * da) : da := match ty with SumWeightedStatistics => fst xy | SumWeights => snd xy end.

(** ** process *)
Lemma under_elements off k0 v0 xy ty k v i l :
  under (mkKey ty k v i l) (elements_of off k0 v0 xy) =
  if eq_dec (k0, v0) (k, v) then
    if eq_dec ((if memb "init_time" (dnames (fst xy)) then Some (off_init off) else None),
               (if memb "lead_time" (dnames (fst xy)) then Some (off_lead off) else None)) (i, l)
    then [sel ty xy] else []
  else [].
Proof.
  unfold elements_of, under. cbn [filter map fst snd].
  set (io := if memb "init_time" (dnames (fst xy)) then Some (off_init off) else None).
  set (lo := if memb "lead_time" (dnames (fst xy)) then Some (off_lead off) else None).
  assert (forall ty', (if eq_dec (mkKey ty' k0 v0 io lo) (mkKey ty k v i l) then true else false) =
     (match ty', ty with SumWeights, SumWeights => true | SumWeightedStatistics, SumWeightedStatistics => true | _, _ => false end
      && (if eq_dec (k0, v0) (k, v) then true else false) && (if eq_dec (io, lo) (i, l) then true else false))) as H.
  { intros ty'. destruct (eq_dec (mkKey ty' k0 v0 io lo) (mkKey ty k v i l)) as [E|E].
    - injection E as -> -> -> -> ->. destruct (eq_dec (k, v) (k, v)), (eq_dec (i, l) (i, l)), ty; try congruence; reflexivity.
    - destruct (eq_dec (k0, v0) (k, v)) as [E1|]; [|now rewrite andb_false_r]. destruct (eq_dec (io, lo) (i, l)) as [E2|]; [|now rewrite andb_false_r].
      injection E1 as <- <-. injection E2 as <- <-. destruct ty', ty; auto; congruence. }
  rewrite !H. destruct (eq_dec (k0, v0) (k, v)), (eq_dec (io, lo) (i, l)), ty; reflexivity.
Qed.

Definition emit (g : aggregator) off k (va : string * da) : result (list (key * da)) :=
  do r <- aggregate_stat_var g (snd va);
  Ok (match r with None => [] | Some xy => elements_of off k (fst va) xy end).
Definition emits (g : aggregator) off (stats : dict string (vars da)) : result (list (list (list (key * da)))) :=
  mapM (fun kv => mapM (emit g off (fst kv)) (snd kv)) stats.

Lemma under_vars g off k0 vs rs ty k v i l : NoDup (map fst vs) -> mapM (emit g off k0) vs = Ok rs ->
  under (mkKey ty k v i l) (concat rs) =
  match (if eq_dec k0 k then dget vs v else None) with
  | Some st => match aggregate_stat_var g st with Ok (Some xy) => under (mkKey ty k v i l) (elements_of off k v xy) | _ => [] end
  | None => []
  end.
Proof.
  revert rs. induction vs as [|[v0 st] vs IH]; intros rs Hn H; cbn [mapM] in H.
  - injection H as <-. simpl. now destruct (eq_dec k0 k).
  - destruct (emit g off k0 (v0, st)) as [r0|] eqn:E0; [|discriminate]. destruct (mapM (emit g off k0) vs) as [r|] eqn:Er; [|discriminate].
    cbn [bind] in H. injection H as <-. cbn [concat]. rewrite under_app. inversion Hn as [|? ? Hv Hn']; subst. rewrite (IH r Hn' eq_refl). clear IH.
    unfold emit in E0. cbn [fst snd] in *. destruct (aggregate_stat_var g st) as [o|] eqn:Ea; [|discriminate]. cbn [bind] in E0. injection E0 as <-.
    assert (k0 = k /\ v0 = v \/ (k0, v0) <> (k, v)) as [[-> ->]|Hne].
    { destruct (string_dec k0 k), (string_dec v0 v); [left; auto|right; congruence..]. }
    + destruct (eq_dec k k) as [_|]; [|congruence]. cbn [dget]. destruct (eq_dec v v) as [_|]; [|congruence]. rewrite Ea.
      assert (dget vs v = None) as ->; [|now rewrite app_nil_r; destruct o].
      destruct (dget vs v) eqn:E; auto. exfalso. apply Hv. apply dget_In in E. change v with (fst (v, d)). now apply in_map.
    + assert (under (mkKey ty k v i l) match o with Some xy => elements_of off k0 v0 xy | None => [] end = []) as ->.
      { destruct o; [|reflexivity]. rewrite under_elements. now destruct (eq_dec (k0, v0) (k, v)). }
      cbn [app]. destruct (eq_dec k0 k) as [->|]; auto. cbn [dget]. destruct (eq_dec v v0); [congruence|reflexivity].
Qed.
Lemma under_stats g off stats es ty k v i l : dicts stats -> emits g off stats = Ok es ->
  under (mkKey ty k v i l) (concat (concat es)) =
  match stat stats k v with
  | Some st => match aggregate_stat_var g st with Ok (Some xy) => under (mkKey ty k v i l) (elements_of off k v xy) | _ => [] end
  | None => []
  end.
Proof.
  unfold emits, dicts, stat. revert es. induction stats as [|[k0 vs] stats IH]; intros es [Hn Hd] H; cbn [mapM] in H.
  - injection H as <-. reflexivity.
  - cbn [fst snd] in H. destruct (mapM (emit g off k0) vs) as [rs|] eqn:E0; [|discriminate].
    destruct (mapM (fun kv => mapM (emit g off (fst kv)) (snd kv)) stats) as [r|] eqn:Er; [|discriminate].
    cbn [bind] in H. injection H as <-. cbn [concat]. rewrite concat_app, under_app. inversion Hn as [|? ? Hk Hn']; subst.
    rewrite (under_vars g off k0 vs rs ty k v i l) by (auto; apply (Hd k0); now left).
    rewrite (IH r) by (auto; split; auto; intros; apply (Hd k1); now right). clear IH.
    cbn [dget]. destruct (eq_dec k0 k) as [->|Hne].
    + destruct (eq_dec k k) as [_|]; [|congruence].
      assert (dget stats k = None) as ->; [|now rewrite app_nil_r].
      destruct (dget stats k) eqn:E; auto. exfalso. apply Hk. apply dget_In in E. change k with (fst (k, v0)). now apply in_map.
    + destruct (eq_dec k k0); [congruence|]. reflexivity.
Qed.
Lemma emits_Ok g off stats : (forall k vs v st, In (k, vs) stats -> In (v, st) vs -> exists r, aggregate_stat_var g st = Ok r) -> exists es, emits g off stats = Ok es.
Proof.
  intros H. unfold emits. apply mapM_total. intros [k vs] Hin. apply mapM_total. intros [v st] Hv. unfold emit. cbn [fst snd].
  destruct (H k vs v st Hin Hv) as [r ->]. cbn [bind]. eauto.
Qed.

(** ** Direct aggregation *)
Lemma direct_entry g full s ty k v : dicts full -> aggregate_statistics g (present full) = Ok s ->
  match stat full k v with
  | Some st => exists r, aggregate_stat_var g st = Ok r /\ entry (part ty s) k v = match r with Some xy => Some (sel ty xy) | None => None end
  | None => entry (part ty s) k v = None
  end.
Proof.
  intros [Hn Hd] H. apply agg_stats_Ok in H. destruct H as (L & HL & ->).
  assert (forall f, entry (nest (map (fun kr : string * list (string * (da * da)) => (fst kr, map (fun vp : string * (da * da) => (fst vp, f (snd vp))) (snd kr))) L)) k v =
     match dget L k with Some l => match dget l v with Some p => Some (f p) | None => None end | None => None end) as HE.
  { intros f. unfold entry, nest. rewrite !dget_map_val. destruct (dget L k) as [l|]; [|reflexivity]. unfold nest1. rewrite !dget_map_val. now destruct (dget l v). }
  assert (entry (part ty (Some (nest (map (fun kr => (fst kr, map (fun vp => (fst vp, fst (snd vp))) (snd kr))) L),
              nest (map (fun kr => (fst kr, map (fun vp => (fst vp, snd (snd vp))) (snd kr))) L)))) k v =
     match dget L k with Some l => match dget l v with Some p => Some (sel ty p) | None => None end | None => None end) as ->.
  { destruct ty; cbn [part]; apply HE. }
  clear HE. pose proof (items_rel_dget _ _ _ k HL) as Hk. unfold present in Hk. rewrite (dget_map_val (fun vs : vars da => map (fun va => (fst va, Some (snd va))) vs)) in Hk.
  unfold stat. unfold vars, dict in *. destruct (dget full k) as [vs|] eqn:Ek; destruct (dget L k) as [l|]; try contradiction; [|auto].
  apply dget_In in Ek. assert (NoDup (map fst vs)) as Nv by eauto.
  assert (NoDup (map fst (map (fun va : string * da => (fst va, Some (snd va))) vs))) as Nv' by (rewrite map_map; exact Nv).
  pose proof (kept_dget g _ l v Hk Nv') as Hv. rewrite (dget_map_val (fun a : da => Some a)) in Hv. destruct (dget vs v) as [st|].
  - destruct Hv as (r & E & Hv). exists r. split; auto. rewrite Hv. now destruct r.
  - now rewrite Hv.
Qed.
