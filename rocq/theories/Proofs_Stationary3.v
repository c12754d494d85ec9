(** The stationary bootstrap of one element. *)
From Coq Require Import String ZArith List Bool Reals Lia Lra.
Import ListNotations.
From Verif Require Import Prelude Values Model_XArray Spec_XArray Proofs_XArray Spec_Reduce Proofs_Reduce Model_Tree Model_MetricsBase Model_Aggregation
  Model_Ensemble Proofs_Ensemble Proofs_Ensemble2 Proofs_Deterministic Proofs_Beam9 Proofs_AggState
  Model_Baseline Model_Bootstrap Spec_Bootstrap Props_Bootstrap Model_Resample Spec_Resample Proofs_Resample Props_Resample Proofs_Baseline Proofs_TTest Props_Slices Model_Autodiff
  Model_Stationary Spec_Stationary Proofs_Stationary Proofs_Stationary2.
Local Open Scope R_scope.
Local Open Scope list_scope.

Lemma labelled_binop f lab a b : labelled lab a -> labelled lab b -> labelled lab (binop f a b).
Proof.
  intros A B d l. cbn [binop dims]. rewrite dget_merge. destruct (dget (dims a) d) as [l1|] eqn:E1.
  - destruct (dget (dims b) d) as [l2|] eqn:E2; intros [= <-]; [|now apply A]. rewrite (A _ _ E1), (B _ _ E2). apply inter_self.
  - intros H. now apply B.
Qed.
Lemma names_binop f a b d : In d (dnames (binop f a b)) <-> In d (dnames a) \/ In d (dnames b).
Proof. unfold dnames. cbn [binop dims]. apply names_merge. Qed.
Definition with_replicates (r : nat) (lab : string -> list label) (k : string) : list label := if eqb k REPLICATE_DIM then positions r else lab k.
Lemma labelled_sum d rows r lab x : d <> REPLICATE_DIM -> ~ In REPLICATE_DIM (dnames x) -> labelled lab x -> labelled (with_replicates r lab) (resampled_sum d rows r x).
Proof.
  intros N R L k l. rewrite dget_resampled_sum by auto. unfold with_replicates. destruct (eqb k REPLICATE_DIM); [congruence|]. destruct (eqb k d); [discriminate|]. apply L.
Qed.
Lemma names_sum d rows r x k : d <> REPLICATE_DIM -> ~ In REPLICATE_DIM (dnames x) ->
  (In k (dnames (resampled_sum d rows r x)) <-> k = REPLICATE_DIM \/ (k <> d /\ In k (dnames x))).
Proof.
  intros N R. unfold dnames. rewrite (names_dget (dims (resampled_sum d rows r x))), (names_dget (dims x)), dget_resampled_sum by auto.
  destruct (eqb k REPLICATE_DIM) eqn:E1; [apply eqb_true_iff in E1; split; [now left|discriminate]|]. apply eqb_false_iff in E1.
  destruct (eqb k d) eqn:E2; [apply eqb_true_iff in E2; split; [congruence|intros [?|[? _]]; congruence]|]. apply eqb_false_iff in E2. tauto.
Qed.
Definition ratio_array (d : string) (rows : list (list Z)) (r : nat) (p : da * da) : da :=
  binop vdiv (resampled_sum d rows r (fst p)) (resampled_sum d rows r (snd p)).

Section Scalar.
  Variable d : string.
  Variable r : nat.
  Variable given : option R.
  Variable resolution : option R.
  Variable size : nat.
  Variable arch : list val -> result (option R).
  Variable draw : nat -> (nat -> list R) * (nat -> list Z).
  Hypothesis Nd : d <> REPLICATE_DIM.

  Definition cache_ok (s : cache_state) : Prop := forall k rows, In (k, rows) (fst s) -> drawn_once draw (fst k) (snd k) rows.
  Lemma cached_ok k s rows s' : cache_ok s -> cached_indices size draw k s = Ok (rows, s') -> cache_ok s' /\ drawn_once draw (fst k) (snd k) rows.
  Proof.
    intros C. unfold cached_indices. destruct (cache_find k (fst s)) as [rows0|] eqn:E.
    - intros [= <- <-]. apply cache_find_In in E. split; [|now apply C]. intros k' rows'. cbn [fst]. intros [[= <- <-]|I]; [now apply C|].
      apply filter_In in I. now apply C.
    - destruct (draw (snd s)) as [rand randint] eqn:Ed. destruct (stationary_bootstrap_indices _ _ rand randint) as [rows0|] eqn:Es; [|discriminate]. cbn [bind]. intros [= <- <-].
      assert (drawn_once draw (fst k) (snd k) rows0) as G by (exists (snd s); now rewrite Ed). split; [|exact G].
      intros k' rows'. cbn [fst]. intros I. apply firstn_In in I. destruct I as [[= <- <-]|I]; [exact G|now apply C].
  Qed.
  Lemma once_range n b rows : drawn_once draw n b rows -> proper_draws n r draw -> (0 < n)%nat -> forall k, (k < r)%nat ->
    length (draws_of rows k) = n /\ forall i, In i (draws_of rows k) -> (i < n)%nat.
  Proof.
    intros [j H] P Hn k Hk. destruct (P j) as [P1 P2].
    assert (b <> 0) as Nb by (intros ->; destruct (C51_errors n 0 (fst (draw j)) (snd (draw j))) as [E _]; congruence).
    destruct (C51_indices n r b _ _ Hn Nb P1 P2) as (rows' & E & L & Rg & _). assert (rows' = rows) as -> by congruence.
    unfold draws_of. rewrite map_length. split; [exact L|]. intros i I. apply in_map_iff in I. destruct I as (row & <- & I). destruct (Rg row I) as [Lr Hr].
    assert (In (nth k row 0%Z) row) as K by (apply nth_In; lia). apply Hr in K. lia.
  Qed.

  Lemma scalar_spec (T : table) ls lab m F var t s v s' :
    proper_table T ->
    (forall name v0 ws w, entry T name v0 (ws, w) -> unit_array d ls ws /\ unit_array d ls w) ->
    (forall name ws w, entry T name var (ws, w) -> labelled lab ws /\ labelled lab w /\ ~ In REPLICATE_DIM (dnames ws) /\ ~ In REPLICATE_DIM (dnames w)) ->
    pointwise_metric m F -> cache_ok s -> dget (dims t) d = Some ls ->
    results_for_metric_scalar d r given resolution size arch draw m var t (nested_map fst T) (nested_map snd T) s = Ok (v, s') ->
    cache_ok s' /\ exists b rows ps,
      optimal_block_length d given resolution arch t = Ok b /\ drawn_once draw (length ls) b rows /\
      Forall2 (fun n p => entry T n var p) (keys (statistics m)) ps /\
      wf v /\ labelled (with_replicates r lab) v /\
      (forall k, In k (dnames v) <-> exists p, In p ps /\ (k = REPLICATE_DIM \/ k <> d /\ (In k (dnames (fst p)) \/ In k (dnames (snd p))))) /\
      forall e k, point_of (dims v) e -> e REPLICATE_DIM = LZ (Z.of_nat k) -> (forall i, In i (draws_of rows k) -> (i < length ls)%nat) ->
        get v e = F (map (fun p => vdiv (drawn_total (along (fst p) d e) (draws_of rows k)) (drawn_total (along (snd p) d e) (draws_of rows k))) ps).
  Proof.
    intros PT U LB PW C Dt H. unfold results_for_metric_scalar in H. rewrite Dt in H.
    destruct (optimal_block_length d given resolution arch t) as [b|] eqn:Eb; [|discriminate]. cbn [bind] in H.
    destruct (cached_indices size draw (length ls, b) s) as [[rows s1]|] eqn:Ec; [|discriminate]. cbn [bind fst snd] in H.
    assert (forall name vs v0 p, In (name, vs) T -> In (v0, p) vs -> unit_array d ls (fst p) /\ unit_array d ls (snd p)) as UI.
    { intros name vs v0 [ws w] I J. apply (U name v0). now apply (In_entry T name v0 vs). }
    rewrite (map_nested_table _ T fst (fun p => resampled_sum d rows r (fst p))) in H.
    2: { intros name vs v0 p I J. apply (sum_of_resampled_Ok d ls). apply (UI name vs v0 p I J). }
    cbn [bind] in H. rewrite (map_nested_table _ T snd (fun p => resampled_sum d rows r (snd p))) in H.
    2: { intros name vs v0 p I J. apply (sum_of_resampled_Ok d ls). apply (UI name vs v0 p I J). }
    cbn [bind] in H. rewrite (map_nested2_table _ T) in H by exact PT. cbn [bind] in H.
    destruct (values_from_mean_statistics m _) as [values|] eqn:Ev in H; [|discriminate]. cbn [bind] in H.
    unfold dgetE in H. destruct (dget values var) as [v'|] eqn:Eg in H; [|discriminate]. cbn [bind] in H. injection H as -> ->.
    destruct (cached_ok _ _ _ _ C Ec) as [C' O]. split; [exact C'|]. cbn [fst snd] in O.
    destruct (PW _ _ _ _ Ev Eg) as (xs & FX & K).
    assert (exists ps, Forall2 (fun n p => entry T n var p) (keys (statistics m)) ps /\ xs = map (ratio_array d rows r) ps) as (ps & FP & ->).
    { clear -FX. induction FX as [|n x ns xs H FX (ps & FP & ->)]; [exists []; split; [constructor|reflexivity]|]. apply entry_unmap in H. destruct H as (p & Hp & ->). exists (p :: ps). split; [now constructor|reflexivity]. }
    assert (forall p, In p ps -> exists n, entry T n var p) as EP.
    { clear -FP. induction FP as [|n p ns ps H FP IH]; [intros ? []|]. intros q [<-|I]; eauto. }
    assert (forall p, In p ps -> (unit_array d ls (fst p) /\ unit_array d ls (snd p)) /\ labelled lab (fst p) /\ labelled lab (snd p) /\ ~ In REPLICATE_DIM (dnames (fst p)) /\ ~ In REPLICATE_DIM (dnames (snd p))) as Q.
    { intros p I. destruct (EP p I) as [n Hn]. destruct p as [ws w]. cbn [fst snd]. split; [exact (U _ _ _ _ Hn)|exact (LB _ _ _ Hn)]. }
    exists b, rows, ps. split; [reflexivity|]. split; [exact O|]. split; [exact FP|].
    destruct (K (with_replicates r lab)) as (W & L & N & G).
    { intros x I. apply in_map_iff in I. destruct I as (p & <- & I). destruct (Q p I) as ((U1 & U2) & L1 & L2 & R1 & R2). split.
      - apply wf_binop; now apply (wf_resampled_sum d ls).
      - apply labelled_binop; now apply labelled_sum. }
    split; [exact W|]. split; [exact L|]. split.
    - intros k. rewrite N. split.
      + intros (x & I & Hk). apply in_map_iff in I. destruct I as (p & <- & I). destruct (Q p I) as (_ & _ & _ & R1 & R2). exists p. split; [exact I|].
        apply names_binop in Hk. rewrite !names_sum in Hk by auto. tauto.
      + intros (p & I & Hk). destruct (Q p I) as (_ & _ & _ & R1 & R2). exists (ratio_array d rows r p). split; [now apply in_map|]. apply names_binop. rewrite !names_sum by auto. tauto.
    - intros e k P Ek B. rewrite (G e P), map_map. f_equal. apply map_ext_in. intros p I. destruct (Q p I) as ((U1 & U2) & _ & _ & R1 & R2).
      unfold ratio_array. cbn [binop get]. rewrite !(get_resampled_sum d ls rows r _ e k) by auto. reflexivity.
  Qed.
End Scalar.
