From Coq Require Import String ZArith QArith Qcanon List Bool Reals Qreals Lra Lia Permutation Sorted.
Import ListNotations.
From Verif Require Import Prelude Values Model_XArray Spec_XArray Proofs_XArray Model_MetricsBase Model_Deterministic Model_Ensemble Spec_Reduce Proofs_Ensemble2
  Model_Bootstrap Proofs_Bootstrap Spec_Binning Spec_Calendar Spec_Loaders Spec_Climatology Proofs_Climatology Model_Intervals Spec_Intervals Spec_Statistic Props_EnsMean.
Local Open Scope R_scope.
Local Open Scope string_scope.
Local Open Scope list_scope.

(** ** Quantiles *)
Lemma sorted_unique xs ys : Permutation xs ys -> StronglySorted Rle xs -> StronglySorted Rle ys -> xs = ys.
Proof.
  revert ys. induction xs as [|x xs IH]; intros ys P S1 S2.
  - apply Permutation_nil in P. now subst.
  - destruct ys as [|y ys]; [apply Permutation_sym, Permutation_nil in P; discriminate|].
    inversion S1 as [|? ? S1' F1]; subst. inversion S2 as [|? ? S2' F2]; subst. rewrite Forall_forall in F1, F2.
    assert (x = y) as ->.
    { assert (In y (x :: xs)) as I1 by (apply (Permutation_in _ (Permutation_sym P)); now left). assert (In x (y :: ys)) as I2 by (apply (Permutation_in _ P); now left).
      destruct I1 as [->|I1]; auto. destruct I2 as [->|I2]; auto. pose proof (F1 _ I1). pose proof (F2 _ I2). lra. }
    f_equal. apply IH; auto. now apply Permutation_cons_inv in P.
Qed.
Lemma sorted_sort xs ys : Permutation xs ys -> StronglySorted Rle ys -> sort xs = ys.
Proof. intros P S. apply sorted_unique; auto; [|apply sort_sorted]. rewrite <- sort_perm. exact P. Qed.
Lemma quantile_is q xs x : quantile_of q xs x <-> xs <> [] /\ (0 <= q * (INR (length xs) - 1) <= INR (length xs) - 1) /\ x = sorted_quantile q (sort xs).
Proof.
  rewrite sorted_quantile_at. split.
  - intros (ys & k & P & S & L & h). cbv zeta. pose proof (Permutation_length P) as PL. rewrite (sorted_sort _ _ P S).
    assert (xs <> []) as N by (intros ->; destruct ys; [cbn in L; lia|discriminate]). split; auto.
    assert (INR (length ys) - 1 = INR (length ys - 1)) as EL by (rewrite minus_INR by lia; cbn; lra). rewrite PL. rewrite EL in h |- *.
    destruct h as [[h ->]|(L' & [h1 h2] & ->)].
    + rewrite h. split; [|symmetry; now apply at_position_nth]. split; [apply pos_INR|apply le_INR; lia].
    + set (H := q * INR (length ys - 1)) in *. assert (INR k + 1 <= INR (length ys - 1)) by (rewrite <- S_INR; apply le_INR; lia). pose proof (pos_INR k). split; [lra|].
      destruct (Rlt_dec H (INR k + 1)) as [Hl|Hl].
      * unfold at_position. rewrite frac_spec, (Int_part_unique H (Z.of_nat k)) by (rewrite <- INR_IZR_INZ; lra). rewrite Nat2Z.id, <- INR_IZR_INZ.
        replace (Nat.min (Datatypes.S k) (length ys - 1)) with (Datatypes.S k) by lia. ring.
      * assert (H = INR (Datatypes.S k)) as -> by (rewrite S_INR; lra). rewrite at_position_nth by lia. rewrite S_INR. ring.
  - intros (N & Hh & ->). pose proof (sort_perm xs) as P. pose proof (sort_sorted xs) as S. pose proof (Permutation_length P) as PL.
    assert (length xs <> 0)%nat as LN by (destruct xs; [contradiction|discriminate]).
    assert (INR (length xs) - 1 = INR (length xs - 1)) as EL by (rewrite minus_INR by lia; cbn; lra). rewrite EL in Hh.
    destruct (floor_nat _ _ Hh) as [Lo E]. exists (sort xs), (Z.to_nat (Int_part (q * INR (length xs - 1)))). rewrite <- PL. rewrite EL. set (h := q * INR (length xs - 1)) in *.
    split; [exact P|]. split; [exact S|]. split; [lia|]. cbv zeta. pose proof (Int_part_spec h) as [I1 I2]. rewrite E in I1, I2. set (k := Z.to_nat (Int_part h)) in *.
    destruct (Req_dec h (INR k)) as [Q|Q].
    + left. split; auto. rewrite Q. apply at_position_nth. lia.
    + right. assert (Datatypes.S k < length xs)%nat as L2. { destruct (Nat.eq_dec k (length xs - 1)) as [W|W]; [|lia]. exfalso. rewrite <- W in Hh. lra. }
      split; [exact L2|]. split; [lra|]. unfold at_position. fold k. rewrite frac_spec, E, <- PL. replace (Nat.min (Datatypes.S k) (length xs - 1)) with (Datatypes.S k) by lia. ring.
Qed.
Lemma position_range q n : 0 <= q <= 1 -> (0 < n)%nat -> 0 <= q * (INR n - 1) <= INR n - 1.
Proof. intros Hq Hn. assert (1 <= INR n) by (change 1 with (INR 1); apply le_INR; lia). nra. Qed.
Lemma quantile_exists q xs : 0 <= q <= 1 -> xs <> [] -> quantile_of q xs (sorted_quantile q (sort xs)).
Proof. intros Hq N. apply quantile_is. split; auto. split; auto. apply position_range; auto. destruct xs; [contradiction|cbn; lia]. Qed.
Lemma quantile_unique q xs x y : quantile_of q xs x -> quantile_of q xs y -> x = y.
Proof. rewrite !quantile_is. intros (_ & _ & ->) (_ & _ & ->). reflexivity. Qed.

Lemma numbers_valid vs xs : ensemble_of true vs xs -> numbers vs = xs.
Proof.
  unfold ensemble_of, valid. revert xs. induction vs as [|v vs IH]; intros xs H; cbn [filter] in H.
  - destruct xs; [reflexivity|discriminate].
  - destruct v; cbn [isnan negb] in H.
    + destruct xs as [|x xs]; [discriminate|]. cbn [map] in H. injection H as -> H. cbn [numbers flat_map app]. f_equal. now apply IH.
    + now apply IH.
    + destruct xs; discriminate.
    + destruct xs; discriminate.
Qed.
Lemma list_quantile_value q vs xs x : ensemble_of true vs xs -> quantile_of q xs x -> list_quantile q vs = Fin x.
Proof.
  intros H Q. apply quantile_is in Q. destruct Q as (N & _ & ->). unfold list_quantile. rewrite (numbers_valid _ _ H).
  destruct (sort xs) eqn:E; [|reflexivity]. pose proof (sort_perm xs) as P. rewrite E in P. apply Permutation_sym, Permutation_nil in P. contradiction.
Qed.
Lemma list_quantile_none q vs : ensemble_of true vs [] -> list_quantile q vs = NaN.
Proof. intros H. unfold list_quantile. now rewrite (numbers_valid _ _ H). Qed.
Lemma quantile_get q d a r e : wf a -> quantile q d a = Ok r -> get r e = list_quantile (qr q) (along a d e).
Proof.
  intros W H. unfold quantile in H. destruct (_ || _); [discriminate|]. destruct (reduce _ _ a) as [b|] eqn:E; [|discriminate]. cbn [bind] in H. injection H as <-. cbn [get].
  apply (reduce_along _ _ _ _ e (proj1 W) E).
Qed.
Lemma quantile_Ok q d a : (exists r, quantile q d a = Ok r) <-> 0 <= qr q <= 1 /\ In d (dnames a).
Proof.
  unfold quantile. split.
  - intros [r H]. destruct (Rltb (qr q) 0) eqn:E1; [discriminate|]. destruct (Rltb 1 (qr q)) eqn:E2; [discriminate|]. cbn [orb] in H. apply Rltb_false in E1, E2.
    split; [lra|]. destruct (reduce _ _ a) as [b|] eqn:E; [|discriminate]. apply reduce_Ok in E. apply E. now left.
  - intros [[H1 H2] I]. replace (Rltb (qr q) 0) with false by (symmetry; apply Rltb_false; lra). replace (Rltb 1 (qr q)) with false by (symmetry; apply Rltb_false; lra). cbn [orb].
    unfold reduce. assert (subsetb [d] (dnames a) = true) as -> by (unfold subsetb; cbn [forallb]; rewrite (proj2 (memb_In d (dnames a)) I); reflexivity). cbn [bind]. eauto.
Qed.
Lemma quantile_err q d a x : quantile q d a = Err x -> x = ValueError.
Proof. unfold quantile. destruct (_ || _); [congruence|]. unfold reduce. destruct (subsetb _ _); cbn [bind]; congruence. Qed.
Lemma sel_quantile_get q c r e : sel_quantile q c = Ok r -> get r e = get c (upd e "quantile" (LQ q)).
Proof. unfold sel_quantile. destruct (dget _ _); [|discriminate]. destruct (memb _ _); [|discriminate]. intros [= <-]. reflexivity. Qed.
Lemma sel_quantile_Ok q c : (exists r, sel_quantile q c = Ok r) <-> In (LQ q) (labels_of (dims c) "quantile").
Proof.
  unfold sel_quantile, labels_of. destruct (dget _ _) as [ls|]; [|split; [intros [? K]; discriminate|intros []]]. destruct (memb (LQ q) ls) eqn:M.
  - apply memb_In in M. split; eauto.
  - apply memb_false in M. split; [intros [? K]; discriminate|contradiction].
Qed.
Lemma sel_quantile_err q c x : sel_quantile q c = Err x -> x = KeyError.
Proof. unfold sel_quantile. destruct (dget _ _); [destruct (memb _ _)|]; congruence. Qed.

(** ** Statistics with a climatology that can fail *)
Lemma statistic_clim_r name f clim p t v pv tv cv st : NoDup (keys p) -> dget p v = Some pv -> dget t v = Some tv -> dget clim v = Some cv ->
  statistic_value (climatology_statistic_r name f clim) p t v st -> exists c, align_climatology pv cv = Ok c /\ f pv tv c = Ok st.
Proof.
  intros N Hp Ht Hc (raw & H & G). cbn [compute climatology_statistic_r] in H. destruct (mapM (fun k => dgetE clim k) (keys p)) as [cs|]; [|discriminate]. cbn [bind] in H.
  apply dget_In in G. apply mapM_Ok_Forall2 in H. assert (forall l r, Forall2 (fun kv y => (do tv <- dgetE t (fst kv); do cv <- dgetE clim (fst kv); do c <- align_climatology (snd kv) cv; do r <- f (snd kv) tv c; Ok (fst kv, r)) = Ok y) l r ->
    In (v, st) r -> exists kv, In kv l /\ (do tv <- dgetE t (fst kv); do cv <- dgetE clim (fst kv); do c <- align_climatology (snd kv) cv; do r <- f (snd kv) tv c; Ok (fst kv, r)) = Ok (v, st)) as K.
  { clear. induction 1 as [|kv y l r HF _ IH]; intros I; [destruct I|]. destruct I as [->|I]; [exists kv; split; auto; now left|]. destruct (IH I) as (kv' & I' & E). exists kv'. split; auto. now right. }
  destruct (K _ _ H G) as ([k a] & I & E). cbn [fst snd] in E. unfold dgetE in E. destruct (dget t k) as [tv'|] eqn:Et; [|discriminate]. cbn [bind] in E. destruct (dget clim k) as [cv'|] eqn:Ec; [|discriminate]. cbn [bind] in E.
  destruct (align_climatology a cv') as [c|] eqn:A; [|discriminate]. cbn [bind] in E. destruct (f a tv' c) as [r|] eqn:F; [|discriminate]. cbn [bind] in E. injection E as -> ->.
  apply In_dget in I; auto. exists c. assert (a = pv) as <- by congruence. assert (tv' = tv) as <- by congruence. assert (cv' = cv) as <- by congruence. auto.
Qed.
(** The times do not depend on a dimension the forecast does not have. *)
Lemma forecast_time_upd p e T n l : wf p -> coords_local p -> ~ In n (dnames p) -> forecast_time p e T -> forecast_time p (upd e n l) T.
Proof.
  intros W HL N. assert (forall k x, coord_at p k e x -> coord_at p k (upd e n l) x) as K.
  { intros k x [[I ->]|[I (c & G & ->)]].
    - left. split; auto. rewrite upd_other; auto. intros ->. contradiction.
    - right. split; auto. exists c. split; auto. destruct (HL _ _ G) as [I' L]. apply L. intros d Hd. rewrite upd_other; auto. intros ->. apply N, I', Hd. }
  intros [H|(H & i & j & H1 & H2 & ->)]; [left; now apply K|]. right. split; auto. exists i, j. split; [now apply K|]. split; [now apply K|reflexivity].
Qed.
