(** C65: the stationary bootstrap. *)
From Coq Require Import String ZArith List Bool Lia Permutation Reals Lra.
Import ListNotations.
From Verif Require Import Prelude Values Model_XArray Spec_XArray Proofs_XArray Spec_Reduce Proofs_Reduce Model_Tree Model_MetricsBase Model_Aggregation
  Model_Ensemble Proofs_Ensemble Proofs_Ensemble2 Proofs_Deterministic Proofs_Beam9 Proofs_AggState Model_Deterministic
  Model_Baseline Model_Bootstrap Spec_Bootstrap Props_Bootstrap Model_Resample Spec_Resample Proofs_Resample Props_Resample Proofs_Baseline Proofs_TTest Props_Slices Model_Autodiff
  Spec_Autodiff Proofs_Autodiff Model_Stationary Spec_Stationary Proofs_Stationary Proofs_Stationary2 Proofs_Stationary3 Proofs_Stationary4 Proofs_Stationary5.
Local Open Scope R_scope.
Local Open Scope string_scope.
Local Open Scope list_scope.

(** ** Rounding of the block length *)
(** Rounding with resolution r gives a power 10^(z/r) with an integer z, off by at most half a step; what is such
    a power stays as it is; order is kept; and 1 and longer stays at least 1. *)
Theorem C65_rounding : forall r x, 0 < r -> 0 < x ->
  (exists z : Z, logarithmic_round x r = Rpower 10 (IZR z / r)) /\
  x / Rpower 10 (1 / (2 * r)) <= logarithmic_round x r <= x * Rpower 10 (1 / (2 * r)) /\
  (forall z : Z, x = Rpower 10 (IZR z / r) -> logarithmic_round x r = x) /\
  (forall y, x <= y -> logarithmic_round x r <= logarithmic_round y r) /\
  (1 <= x -> 1 <= logarithmic_round x r).
Proof.
  intros r x Hr Hx.
  assert (forall z : Z, x = Rpower 10 (IZR z / r) -> logarithmic_round x r = x) as Fix.
  { intros z E. unfold logarithmic_round. rewrite E at 1. rewrite log10_power. replace (IZR z / r * r) with (IZR z) by (field; lra). now rewrite round_integer. }
  assert (forall y, x <= y -> logarithmic_round x r <= logarithmic_round y r) as Mono.
  { intros y L. apply Rpower10_le. unfold Rdiv. apply Rmult_le_compat_r; [left; now apply Rinv_0_lt_compat|]. apply IZR_le, round_mono. apply Rmult_le_compat_r; [lra|]. now apply log10_le. }
  split; [eexists; reflexivity|]. split; [|split; [exact Fix|split; [exact Mono|]]].
  - unfold logarithmic_round. set (z := round_half_even (log10 x * r)). pose proof (round_near (log10 x * r)) as N. fold z in N.
    assert (IZR z - log10 x * r <= 1 / 2) as N1 by (eapply Rle_trans; [apply Rle_abs|exact N]).
    assert (log10 x * r - IZR z <= 1 / 2) as N2 by (rewrite Rabs_minus_sym in N; eapply Rle_trans; [apply Rle_abs|exact N]).
    assert (forall a b, a <= b * r + 1 / 2 -> a / r <= b + 1 / (2 * r)) as K.
    { intros a b H. apply (Rmult_le_reg_r r); [exact Hr|]. replace (a / r * r) with a by (field; lra). replace ((b + 1 / (2 * r)) * r) with (b * r + 1 / 2) by (field; lra). exact H. }
    assert (forall a b, b * r - 1 / 2 <= a -> b - 1 / (2 * r) <= a / r) as K'.
    { intros a b H. apply (Rmult_le_reg_r r); [exact Hr|]. replace (a / r * r) with a by (field; lra). replace ((b - 1 / (2 * r)) * r) with (b * r - 1 / 2) by (field; lra). exact H. }
    split.
    + apply Rle_trans with (Rpower 10 (log10 x - 1 / (2 * r))).
      * unfold Rminus. rewrite Rpower_plus, Rpower_Ropp, power_log10 by exact Hx. right. reflexivity.
      * apply Rpower10_le. apply K'. lra.
    + apply Rle_trans with (Rpower 10 (log10 x + 1 / (2 * r))); [apply Rpower10_le, K; lra|]. rewrite Rpower_plus, power_log10 by exact Hx. right. reflexivity.
  - intros H1. assert (logarithmic_round 1 r = 1) as E.
    { unfold logarithmic_round, log10. rewrite ln_1. replace (0 / ln 10 * r) with (IZR 0) by (field; pose proof ln10; lra). rewrite round_integer. unfold Rdiv. rewrite Rmult_0_l. apply Rpower_O. lra. }
    rewrite <- E. apply Rpower10_le. unfold Rdiv. apply Rmult_le_compat_r; [left; now apply Rinv_0_lt_compat|]. apply IZR_le, round_mono. apply Rmult_le_compat_r; [lra|]. apply log10_le; lra.
Qed.
Print Assumptions C65_rounding.

(** The automatic block length is at least 1 and, up to half a step of rounding, the larger of 1 and what arch
    suggests (1 if it suggests nan). *)
Theorem C65_block_length : forall d resolution arch a b,
  (forall r, resolution = Some r -> 0 < r) ->
  optimal_block_length d None resolution arch a = Ok b ->
  1 <= b /\
  exists series x, arch series = Ok x /\ let b1 := match x with Some y => Rmax 1 y | None => 1 end in
    match resolution with
    | None => b = b1
    | Some r => b1 / Rpower 10 (1 / (2 * r)) <= b <= b1 * Rpower 10 (1 / (2 * r))
    end.
Proof.
  intros d res arch a b Hr H. unfold optimal_block_length in H. destruct (dget (dims a) d) as [ls|]; [|discriminate]. destruct (Nat.ltb (length ls) 8); [discriminate|].
  destruct (squeezed a) as [xs|]; [|discriminate]. cbn [bind] in H. destruct (arch xs) as [x|] eqn:Ea; [|discriminate]. cbn [bind] in H. injection H as <-.
  assert (1 <= match x with Some y => Rmax 1 y | None => 1 end) as G by (destruct x; [apply Rmax_l|lra]).
  split.
  - unfold from_arch. destruct res as [r|]; [|exact G]. apply C65_rounding; [now apply Hr|lra|exact G].
  - exists xs, x. split; [exact Ea|]. cbv zeta. unfold from_arch. destruct res as [r|]; [|reflexivity]. apply C65_rounding; [now apply Hr|lra].
Qed.
Print Assumptions C65_block_length.

(** A given block length is used as it is, whatever the data; without one, fewer than 8 units are a ValueError. *)
Theorem C65_given_or_error : forall d given resolution arch a ls, dget (dims a) d = Some ls ->
  (forall b, given = Some b -> optimal_block_length d given resolution arch a = Ok b) /\
  (given = None -> (length ls < 8)%nat -> optimal_block_length d given resolution arch a = Err ValueError).
Proof.
  intros d given res arch a ls E. unfold optimal_block_length. split; [intros b ->; reflexivity|]. intros -> L. rewrite E. destruct (Nat.ltb_spec (length ls) 8); [reflexivity|lia].
Qed.
Print Assumptions C65_given_or_error.

(** ** The cache *)
Lemma filter_shorter {A} (f : A -> bool) l : (length (filter f l) <= length l)%nat.
Proof. induction l as [|x l IH]; [apply Nat.le_refl|]. cbn [filter length]. destruct (f x); cbn [length]; lia. Qed.
Lemma filter_absent k (c : cache) : ~ In k (map fst c) -> cache_without k c = c.
Proof.
  intros H. unfold cache_without. induction c as [|[k' v] c IH]; [reflexivity|]. cbn [filter map fst] in *.
  assert (key_eqb k k' = false) as -> by (apply key_eqb_false; intros ->; apply H; now left). cbn [negb]. f_equal. apply IH. intros I. apply H. now right.
Qed.
Lemma keys_without k (c : cache) : map fst (cache_without k c) = filter (fun k' => negb (key_eqb k k')) (map fst c).
Proof. unfold cache_without. induction c as [|[k' v] c IH]; [reflexivity|]. cbn [filter map fst]. destruct (negb (key_eqb k k')); cbn [map fst]; now rewrite IH. Qed.
Section Cache.
  Variable size : nat.
  Variable draw : nat -> (nat -> list R) * (nat -> list Z).
  Let indices (k : key) (j : nat) := stationary_bootstrap_indices (fst k) (snd k) (fst (draw j)) (snd (draw j)).
  Lemma step_inv k s rows s' : cached_indices size draw k s = Ok (rows, s') ->
    (forall k0 r0, In (k0, r0) (fst s) -> exists j, (j < snd s)%nat /\ indices k0 j = Ok r0) ->
    (length (fst s) <= size)%nat -> NoDup (map fst (fst s)) ->
    (exists j, (j <= snd s)%nat /\ indices k j = Ok rows) /\
    (forall k0 r0, In (k0, r0) (fst s') -> exists j, (j < snd s')%nat /\ indices k0 j = Ok r0) /\
    (length (fst s') <= size)%nat /\ NoDup (map fst (fst s')) /\ (snd s <= snd s' <= Datatypes.S (snd s))%nat.
  Proof.
    unfold cached_indices. destruct s as [c n]. cbn [fst snd]. intros H I L N. destruct (cache_find k c) as [r0|] eqn:E.
    - injection H as <- <-. cbn [fst snd]. pose proof (cache_find_In _ _ _ E) as Ik. destruct (I _ _ Ik) as (j & Lj & Hj). split; [exists j; split; [lia|exact Hj]|]. split; [|split; [|split]].
      + intros k0 r1 [[= <- <-]|J]; [eauto|]. apply filter_In in J. now apply I.
      + assert (length (cache_without k c) < length c)%nat; [|cbn; lia]. clear -Ik. unfold cache_without. induction c as [|[k' v] c IH]; [destruct Ik|]. cbn [filter fst length]. destruct Ik as [[= -> ->]|Ik].
        * assert (key_eqb k k = true) as -> by (now apply key_eqb_true). cbn [negb]. pose proof (filter_shorter (fun kv : key * list (list Z) => negb (key_eqb k (fst kv))) c). lia.
        * apply IH in Ik. destruct (negb _); cbn [length]; lia.
      + cbn [map fst]. constructor; [|rewrite keys_without; now apply NoDup_filter]. rewrite keys_without, filter_In. intros [_ Q]. assert (key_eqb k k = true) as Z by (now apply key_eqb_true). rewrite Z in Q. discriminate.
      + lia.
    - destruct (draw n) as [rand randint] eqn:Ed. destruct (stationary_bootstrap_indices _ _ rand randint) as [r0|] eqn:Er; [|discriminate]. cbn [bind] in H. injection H as <- <-. cbn [fst snd].
      assert (indices k n = Ok r0) as Q by (unfold indices; now rewrite Ed). split; [exists n; auto|]. split; [|split; [|split]].
      + intros k0 r1 J. apply firstn_In in J. destruct J as [[= <- <-]|J]; [exists n; auto|]. destruct (I _ _ J) as (j & Lj & Hj). exists j. split; [lia|exact Hj].
      + apply firstn_le_length.
      + rewrite <- firstn_map. apply NoDup_firstn. cbn [map fst]. constructor; [now apply cache_find_None|exact N].
      + lia.
  Qed.
  Lemma run_inv keys : forall s rows s', mapM_state (cached_indices size draw) keys s = Ok (rows, s') ->
    (forall k0 r0, In (k0, r0) (fst s) -> exists j, (j < snd s)%nat /\ indices k0 j = Ok r0) ->
    (length (fst s) <= size)%nat -> NoDup (map fst (fst s)) ->
    (forall i k r, nth_error keys i = Some k -> nth_error rows i = Some r -> exists j, (j <= snd s + i)%nat /\ indices k j = Ok r) /\
    length rows = length keys /\ (length (fst s') <= size)%nat /\ (snd s' <= snd s + length keys)%nat.
  Proof.
    induction keys as [|k keys IH]; intros s rows s' H I L N; cbn [mapM_state] in H.
    - injection H as <- <-. split; [intros [|i]; discriminate|]. cbn. split; [reflexivity|split; [exact L|lia]].
    - destruct (cached_indices size draw k s) as [[r0 s1]|] eqn:E; [|discriminate]. cbn [bind fst snd] in H. destruct (mapM_state _ keys s1) as [[rs s2]|] eqn:M; [|discriminate]. cbn [bind fst snd] in H. injection H as <- <-.
      destruct (step_inv _ _ _ _ E I L N) as ((j & Lj & Hj) & I1 & L1 & N1 & Q). destruct (IH _ _ _ M I1 L1 N1) as (A & B & C & D). split; [|cbn [length]; split; [lia|split; [exact C|lia]]].
      intros [|i] k0 r1 E1 E2; cbn in E1, E2; [injection E1 as <-; injection E2 as <-; exists j; split; [lia|exact Hj]|]. destruct (A i k0 r1 E1 E2) as (j' & Lj' & Hj'). exists j'. split; [lia|exact Hj'].
  Qed.
  Lemma run_kept (ks : list key) : (length ks <= size)%nat -> forall keys s rows s', incl keys ks ->
    mapM_state (cached_indices size draw) keys s = Ok (rows, s') -> NoDup (map fst (fst s)) -> incl (map fst (fst s)) ks -> snd s = length (fst s) ->
    (forall k r, cache_find k (fst s) = Some r -> cache_find k (fst s') = Some r) /\
    (forall i k r, nth_error keys i = Some k -> nth_error rows i = Some r -> cache_find k (fst s') = Some r) /\
    NoDup (map fst (fst s')) /\ incl (map fst (fst s')) ks /\ snd s' = length (fst s').
  Proof.
    intros LS. induction keys as [|k keys IH]; intros s rows s' IK H N IC C; cbn [mapM_state] in H.
    - injection H as <- <-. split; [auto|]. split; [intros [|i]; discriminate|auto].
    - destruct (cached_indices size draw k s) as [[r0 s1]|] eqn:E; [|discriminate]. cbn [bind fst snd] in H. destruct (mapM_state _ keys s1) as [[rs s2]|] eqn:M; [|discriminate]. cbn [bind fst snd] in H. injection H as <- <-.
      assert ((forall k0 r1, cache_find k0 (fst s) = Some r1 -> cache_find k0 (fst s1) = Some r1) /\ cache_find k (fst s1) = Some r0 /\ NoDup (map fst (fst s1)) /\ incl (map fst (fst s1)) ks /\ snd s1 = length (fst s1)) as (A1 & A2 & A3 & A4 & A5).
      { unfold cached_indices in E. destruct s as [c n]. cbn [fst snd] in *. destruct (cache_find k c) as [r1|] eqn:F.
        - injection E as <- <-. cbn [fst snd]. assert (key_eqb k k = true) as Z by (now apply key_eqb_true).
          assert (In k (map fst c)) as Ik by (apply in_map_iff; exists (k, r1); split; [reflexivity|now apply cache_find_In]). repeat split.
          + intros k0 r2 G. cbn [cache_find]. destruct (key_eqb k0 k) eqn:Q; [apply key_eqb_true in Q; subst; congruence|]. clear -G Q. unfold cache_without. induction c as [|[k' v] c IH]; [discriminate|]. cbn [filter cache_find fst] in *.
            destruct (key_eqb k k') eqn:Q'; cbn [negb]; [|cbn [cache_find]; destruct (key_eqb k0 k'); auto]. apply key_eqb_true in Q'. subst k'. rewrite Q in G. auto.
          + cbn [cache_find]. now rewrite Z.
          + cbn [map fst]. constructor; [|rewrite keys_without; now apply NoDup_filter]. rewrite keys_without, filter_In, Z. intros [_ Q]. discriminate.
          + cbn [map fst]. intros x [<-|Hx]; [now apply IC|]. rewrite keys_without in Hx. apply filter_In in Hx. now apply IC.
          + cbn [length]. rewrite C. clear -Ik N. induction c as [|[k' v] c IH]; [destruct Ik|]. cbn [cache_without filter fst length map] in *. apply NoDup_cons_iff in N. destruct N as [N1 N2]. destruct (key_eqb k k') eqn:Q; cbn [negb length].
            * apply key_eqb_true in Q. subst k'. fold (cache_without k c). now rewrite filter_absent.
            * apply key_eqb_false in Q. f_equal. apply IH; auto. destruct Ik; congruence.
        - destruct (draw n) as [rand randint]. destruct (stationary_bootstrap_indices _ _ rand randint) as [r1|] eqn:Er; [|discriminate]. cbn [bind] in E. injection E as <- <-. cbn [fst snd].
          apply cache_find_None in F. assert (NoDup (map fst ((k, r1) :: c))) as N1 by (cbn [map fst]; constructor; auto).
          assert (incl (map fst ((k, r1) :: c)) ks) as I1 by (cbn [map fst]; intros x [<-|Hx]; [apply IK; now left|now apply IC]).
          assert (length ((k, r1) :: c) <= length ks)%nat as LL by (rewrite <- (map_length fst); now apply NoDup_incl_length).
          rewrite firstn_all2 by lia. split; [|split; [|split; [exact N1|split; [exact I1|cbn [length]; lia]]]].
          + intros k0 r2 G. cbn [cache_find]. destruct (key_eqb k0 k) eqn:Q; [|exact G]. apply key_eqb_true in Q. subst. apply cache_find_In in G. exfalso. apply F. apply in_map_iff. exists (k, r2). auto.
          + cbn [cache_find]. assert (key_eqb k k = true) as -> by (now apply key_eqb_true). reflexivity. }
      assert (incl keys ks) as IK' by (intros x Hx; apply IK; now right). destruct (IH _ _ _ IK' M A3 A4 A5) as (B1 & B2 & B3 & B4 & B5). split; [auto|]. split; [|auto].
      intros [|i] k0 r1 E1 E2; cbn in E1, E2; [injection E1 as <-; injection E2 as <-; auto|now apply (B2 i)].
  Qed.
End Cache.
(** Whatever the sequence of requests and the size of the cache: every answer is what stationary_bootstrap_indices
    draws for the requested number of units and block length, never indices drawn for another request's; at most
    [size] answers are kept; indices are drawn at most once per request.  If the cache is large enough for all
    different requests, then equal requests get equal answers and indices are drawn once for each. *)
Theorem C65_cache : forall size draw (requests : list (nat * R)) answers c drawn,
  mapM_state (cached_indices size draw) requests ([], O) = Ok (answers, (c, drawn)) ->
  (length answers = length requests /\ (length c <= size)%nat /\ (drawn <= length requests)%nat /\
   forall i n b rows, nth_error requests i = Some (n, b) -> nth_error answers i = Some rows ->
     exists j, (j <= i)%nat /\ stationary_bootstrap_indices n b (fst (draw j)) (snd (draw j)) = Ok rows) /\
  forall different, (length different <= size)%nat -> incl requests different ->
    (drawn <= length different)%nat /\
    forall i i' q rows rows', nth_error requests i = Some q -> nth_error requests i' = Some q ->
      nth_error answers i = Some rows -> nth_error answers i' = Some rows' -> rows = rows'.
Proof.
  intros size draw keys rows c n H. split.
  - destruct (run_inv size draw keys _ _ _ H) as (A & B & C & D); [intros k0 r0 []|cbn; lia|constructor|]. cbn [fst snd] in *. split; [exact B|]. split; [exact C|]. split; [exact D|].
    intros i m b r E1 E2. exact (A i (m, b) r E1 E2).
  - intros ks LS IK. destruct (run_kept size draw ks LS keys _ _ _ IK H) as (_ & A & N & I & L); [constructor|intros x []|reflexivity|]. cbn [fst snd] in *. split.
    + rewrite L, <- (map_length fst). now apply NoDup_incl_length.
    + intros i i' q r r' E1 E2 E3 E4. pose proof (A _ _ _ E1 E3). pose proof (A _ _ _ E2 E4). congruence.
Qed.
Print Assumptions C65_cache.
