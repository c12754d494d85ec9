(** What the pipeline's keys keep apart. *)
From Coq Require Import String ZArith Bool List Permutation Lia Arith.
Import ListNotations.
From Verif Require Import Prelude Values Model_XArray Spec_XArray Proofs_XArray Model_Tree
  Model_TimeChunks Model_MetricsBase Model_Aggregation Spec_Aggregator Proofs_Aggregator Proofs_Aggregator2
  Model_Beam Spec_Beam Proofs_Beam Proofs_Beam5 Proofs_Beam6 Proofs_Beam8 Proofs_Beam9.
Local Open Scope string_scope.
Local Open Scope list_scope.

Lemma process_elements metrics g off pt E : process metrics g off pt = Ok E ->
  exists sc, compute_unique_statistics metrics (fst pt) (snd pt) = Ok sc /\
  (forall k vs v st, In (k, vs) sc -> In (v, st) vs -> exists r, aggregate_stat_var g st = Ok r) /\
  forall kk a, In (kk, a) E <-> exists vs st xy, In (k_statistic kk, vs) sc /\ In (k_variable kk, st) vs /\ aggregate_stat_var g st = Ok (Some xy) /\
    a = sel (k_type kk) xy /\
    k_init kk = (if memb "init_time" (dnames (fst xy)) then Some (off_init off) else None) /\
    k_lead kk = (if memb "lead_time" (dnames (fst xy)) then Some (off_lead off) else None).
Proof.
  unfold process. destruct (compute_unique_statistics metrics (fst pt) (snd pt)) as [sc|]; [|discriminate]. cbn [bind]. intros H.
  change (mapM _ sc) with (emits g off sc) in H. destruct (emits g off sc) as [es|] eqn:Ee; [|discriminate]. cbn [bind] in H. injection H as <-.
  exists sc. split; [reflexivity|]. unfold emits in Ee. split.
  - intros k vs v st Hk Hv. destruct (mapM_defined _ _ _ Ee _ Hk) as (rs & _ & Er). cbn [fst snd] in Er. destruct (mapM_defined _ _ _ Er _ Hv) as (r & _ & E0).
    unfold emit in E0. cbn [snd] in E0. destruct (aggregate_stat_var g st); [eauto|discriminate].
  - intros kk a. rewrite in_concat. split.
    + intros (l & Hl & Hin). apply in_concat in Hl. destruct Hl as (rs & Hrs & Hl). destruct (mapM_In _ _ _ Ee rs Hrs) as ([k vs] & Hk & Er). cbn [fst snd] in Er.
      destruct (mapM_In _ _ _ Er l Hl) as ([v st] & Hv & E0). unfold emit in E0. cbn [fst snd] in E0. destruct (aggregate_stat_var g st) as [[xy|]|] eqn:Ea; try discriminate; cbn [bind] in E0; injection E0 as <-; [|destruct Hin].
      destruct Hin as [Hin|[Hin|[]]]; injection Hin as <- <-; cbn; exists vs, st, xy; repeat (split; auto).
    + intros (vs & st & xy & Hk & Hv & Ea & -> & Ei & El). destruct (mapM_defined _ _ _ Ee _ Hk) as (rs & Hrs & Er). cbn [fst snd] in Er.
      destruct (mapM_defined _ _ _ Er _ Hv) as (l & Hl & E0). exists l. split; [apply in_concat; eauto|]. unfold emit in E0. cbn [fst snd] in E0. rewrite Ea in E0. cbn [bind] in E0. injection E0 as <-.
      destruct kk as [ty k v i l']. cbn in *. subst. destruct ty; [left|right; left]; reflexivity.
Qed.

Theorem keys_separate tc pl tl metrics g out : pipeline_states tc pl tl metrics g out ->
  exists os elems, tc_iter_offsets tc = Ok os /\
    Forall2 (fun oc E => exists p t, tl (fst (snd oc)) (snd (snd oc)) None = Ok t /\ pl (fst (snd oc)) (snd (snd oc)) (Some t) = Ok p /\ process metrics g (fst oc) (p, t) = Ok E) os elems /\
    (concat elems = [] <-> out = []) /\
    forall s ty k v, In s out ->
      (entry (part ty s) k v = None <-> ~ exists i l a, In (mkKey ty k v i l, a) (concat elems)) /\
      forall a, entry (part ty s) k v = Some a -> exists sums,
        a = combine_data_arrays_by_coords (map snd sums) /\ NoDup (map fst sums) /\
        (forall kk, In kk (map fst sums) <-> exists i l x, kk = mkKey ty k v i l /\ In (kk, x) (concat elems)) /\
        (forall kk z, In (kk, z) sums -> exists sch, Permutation (inputs_of sch) (under kk (concat elems)) /\ run_schedule sch = Some z).
Proof.
  intros (os & elems & summed & grouped & groups & Ho & Hel & H1 & H2 & H3 & H4). exists os, elems. split; auto.
  apply mapM_Ok_Forall2 in Hel. split.
  { clear - Hel. induction Hel as [|oc E os elems H Hel IH]; [constructor|]. constructor; [|exact IH]. unfold load_predictions_and_targets in H. destruct (tl _ _ None) as [t|] eqn:Et; [|discriminate H]. cbn [bind] in H. destruct (pl _ _ (Some t)) as [p|] eqn:Ep; [|discriminate H]. cbn [bind] in H. exists p, t. auto. } split.
  { destruct (out_length _ _ _ _ _ H1 H2 H3 H4) as [L1 L2]. split; auto. intros ->. destruct (concat elems) as [|p l]; auto.
    destruct L2 as [s E]; [discriminate|]. discriminate. }
  intros s ty k v Hs. pose proof (out_entry _ _ _ _ _ H1 H2 H3 H4 s ty k v Hs) as [N S].
  assert (forall kk, occurs (concat elems) ty k v kk <-> exists i l x, kk = mkKey ty k v i l /\ In (kk, x) (concat elems)) as Hocc.
  { intros kk. unfold occurs. split.
    - intros [Hin He]. apply in_map_iff in Hin. destruct Hin as [[kk' x] [<- Hin]]. cbn [fst] in *. exists (k_init kk'), (k_lead kk'), x.
      destruct kk' as [t' k' v' i' l']. unfold drop_offsets, okey in He. cbn in *. injection He as -> -> ->. auto.
    - intros (i & l & x & -> & Hin). split; [|reflexivity]. apply in_map_iff. now exists (mkKey ty k v i l, x). }
  split.
  - split.
    + intros E (i & l & a & Hin). apply (N E (mkKey ty k v i l)). apply Hocc. eauto.
    + intros Hn. destruct (entry (part ty s) k v) as [a|]; auto. exfalso. destruct (S a eq_refl) as (_ & _ & _ & (kk & Hk) & _). apply Hocc in Hk.
      destruct Hk as (i & l & x & -> & Hin). apply Hn. eauto.
  - intros a Ha. destruct (S a Ha) as (ks & zs & -> & _ & Nk & Kin & HF). exists (combine ks zs).
    assert (length ks = length zs) as EL by (clear - HF; induction HF; simpl; auto).
    assert (map fst (combine ks zs) = ks /\ map snd (combine ks zs) = zs) as [E1 E2].
    { clear - EL. revert zs EL. induction ks as [|x ks IH]; intros [|z zs] EL; try discriminate; simpl; auto. destruct (IH zs) as [A B]; auto. now rewrite A, B. }
    rewrite E1, E2. split; auto. split; auto. split; [intros kk; now rewrite Kin, Hocc|].
    intros kk z Hin. destruct H1 as (_ & _ & H1). apply H1.
    clear - HF Hin. induction HF as [|k0 z0 ks zs H HF IH]; [destruct Hin|]. simpl in Hin. destruct Hin as [[= <- <-]|Hin]; auto.
Qed.
