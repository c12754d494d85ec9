(** C63: WassersteinDistance is the earth mover's distance of the two ensembles. *)
From Coq Require Import String List Bool Reals Lra Permutation Lia ZArith.
Import ListNotations.
From Verif Require Import Prelude Values Model_XArray Spec_XArray Proofs_XArray Model_MetricsBase Model_Binning Proofs_Means Spec_Reduce Spec_Statistic
  Model_Ensemble Model_Bootstrap Spec_Wasserstein Model_Wasserstein Proofs_Wasserstein.
Local Open Scope R_scope.
Local Open Scope string_scope.
Local Open Scope list_scope.

(** The distance at the point [e] for the variable [v] is [w]. *)
Definition distance_at (d : string) (p t : vars da) (v : string) (e : env) (w : val) : Prop :=
  exists st, statistic_value (WassersteinDistance d) p t v st /\ point_of (dims st) e /\ get st e = w.
(** The members at [e] are the numbers [us]. *)
Definition members_are (d : string) (p : vars da) (v : string) (e : env) (us : list R) : Prop :=
  exists a, dget p v = Some a /\ along a d e = map Fin us.

Lemma no_point (D : dimlist) (e : env) : existsb (fun nl => Nat.eqb (length (snd nl)) 0) D = true -> ~ point_of D e.
Proof.
  intros H P. apply existsb_exists in H. destruct H as ([n ls] & I & E). cbn [snd] in E. apply Nat.eqb_eq in E. specialize (P n ls I). destruct ls; [destruct P|discriminate E].
Qed.
Lemma var_Ok d p t st : wasserstein_var d p t = Ok st ->
  In d (dnames p) /\ In d (dnames t) /\
  dims st = merge_dims inter_labels (keep (fun n => negb (eqb n d)) (dims p)) (keep (fun n => negb (eqb n d)) (dims t)) /\
  forall e, point_of (dims st) e -> labels_of (dims p) d <> [] /\ labels_of (dims t) d <> [] /\ wasserstein_distance (along p d e) (along t d e) = Ok (get st e).
Proof.
  unfold wasserstein_var. destruct (memb d (dnames p)) eqn:Ep; [|discriminate]. destruct (memb d (dnames t)) eqn:Et; [|discriminate]. cbn [negb].
  destruct (forallb _ _); [|discriminate]. cbv zeta. set (D := merge_dims _ _ _). intros H. apply memb_In in Ep, Et. split; [exact Ep|]. split; [exact Et|].
  destruct (existsb _ D) eqn:Ee; [injection H as <-; split; [reflexivity|]; intros e He; now apply (no_point D e) in Ee|].
  destruct (Nat.eqb (length (labels_of (dims p) d)) 0) eqn:Lp; [discriminate|]. destruct (Nat.eqb (length (labels_of (dims t) d)) 0) eqn:Lt; [discriminate|]. cbn [orb] in H. injection H as <-.
  split; [reflexivity|]. intros e _. apply Nat.eqb_neq in Lp, Lt. cbn [get]. unfold members. fold (along p d e). fold (along t d e).
  split; [now intros E; rewrite E in Lp|]. split; [now intros E; rewrite E in Lt|]. unfold along. destruct (labels_of (dims p) d); [now elim Lp|]. destruct (labels_of (dims t) d); [now elim Lt|]. reflexivity.
Qed.
Lemma at_real d p t v e us vs w : NoDup (keys p) -> members_are d p v e us -> members_are d t v e vs -> distance_at d p t v e w ->
  us <> [] /\ vs <> [] /\ w = Fin (distance us vs).
Proof.
  intros N (pv & Hp & Mu) (tv & Ht & Mv) (st & H & P & <-). apply (per_variable_value _ _ p t v pv tv st N Hp Ht) in H. cbv beta in H.
  destruct (wasserstein_var d pv tv) as [st'|] eqn:E; [|discriminate]. injection H as ->. apply var_Ok in E. destruct E as (_ & _ & _ & K). destruct (K e P) as (Lp & Lt & G).
  assert (us <> []) as Hu. { intros ->. apply Lp. apply (f_equal (@length val)) in Mu. unfold along in Mu. rewrite !map_length in Mu. now apply length_zero_iff_nil. }
  assert (vs <> []) as Hv. { intros ->. apply Lt. apply (f_equal (@length val)) in Mv. unfold along in Mv. rewrite !map_length in Mv. now apply length_zero_iff_nil. }
  rewrite Mu, Mv, (wasserstein_Fin us vs Hu Hv) in G. injection G as G. auto.
Qed.

Section Points.
  Variables (d : string) (p t : vars da) (v : string) (e : env) (us vs : list R) (w : val).
  Hypothesis Np : NoDup (keys p).
  Hypothesis Mu : members_are d p v e us.
  Hypothesis Mv : members_are d t v e vs.
  Hypothesis Hw : distance_at d p t v e w.

  (** Ensembles of one size: the cheapest way of matching the members one to one.  In general:
      the cheapest matching of equal parts of the members. *)
  Theorem C63_matching : exists x, w = Fin x /\
    (length us = length vs -> cheapest_matching x us vs) /\
    cheapest_matching x (parts (length vs) us) (parts (length us) vs).
  Proof.
    destruct (at_real _ _ _ _ _ _ _ _ Np Mu Mv Hw) as (Hu & Hv & ->). eexists. split; [reflexivity|]. split; [intros; now apply distance_primal|now apply distance_parts].
  Qed.
  (** The largest difference of the means of a function with slopes between -1 and 1. *)
  Theorem C63_dual : exists x, w = Fin x /\ largest_mean_difference x us vs.
  Proof. destruct (at_real _ _ _ _ _ _ _ _ Np Mu Mv Hw) as (Hu & Hv & ->). eexists. split; [reflexivity|]. now apply distance_dual. Qed.
  (** Zero exactly for the same distribution, symmetric, triangle inequality. *)
  Theorem C63_metric : exists x, w = Fin x /\ 0 <= x /\ (x = 0 <-> same_distribution us vs) /\
    (forall w', NoDup (keys t) -> distance_at d t p v e w' -> w' = w) /\
    (forall z zs x1 x2, NoDup (keys z) -> members_are d z v e zs ->
       distance_at d p z v e (Fin x1) -> distance_at d z t v e (Fin x2) -> x <= x1 + x2).
  Proof.
    destruct (at_real _ _ _ _ _ _ _ _ Np Mu Mv Hw) as (Hu & Hv & ->). eexists. split; [reflexivity|]. split; [apply distance_nonneg|]. split; [now apply distance_zero|]. split.
    - intros w' Nt H. destruct (at_real _ _ _ _ _ _ _ _ Nt Mv Mu H) as (_ & _ & ->). f_equal. now apply distance_sym.
    - intros z zs x1 x2 Nz Mz H1 H2. destruct (at_real _ _ _ _ _ _ _ _ Np Mu Mz H1) as (_ & Hz & [= ->]). destruct (at_real _ _ _ _ _ _ _ _ Nz Mz Mv H2) as (_ & _ & [= ->]). now apply distance_triangle.
  Qed.
  (** At least the difference of the ensemble means; the shift if one ensemble is the other one
      shifted; the mean absolute error of the members for a single target. *)
  Theorem C63_simple : exists x, w = Fin x /\ Rabs (mean us - mean vs) <= x /\
    (forall c, vs = map (fun u => u + c) us -> x = Rabs c) /\
    (forall y, vs = [y] -> x = mean (map (fun u => Rabs (u - y)) us)).
  Proof.
    destruct (at_real _ _ _ _ _ _ _ _ Np Mu Mv Hw) as (Hu & Hv & ->). eexists. split; [reflexivity|].
    assert (forall l l', l <> [] -> l' <> [] -> mean l - mean l' <= distance l l') as K.
    { intros l l' Hl Hl'. pose proof (dual_upper (fun x => x) l l' Hl Hl' (fun x y => Rle_refl _)) as H. now rewrite !map_id in H. }
    assert (Rabs (mean us - mean vs) <= distance us vs) as Hm.
    { unfold Rabs. destruct (Rcase_abs _); [|now apply K]. rewrite (distance_sym us vs Hu Hv). specialize (K vs us Hv Hu). lra. }
    split; [exact Hm|]. split.
    - intros c ->. assert (INR (length us) <> 0) as Hn by (apply not_0_INR; destruct us; [congruence|discriminate]). apply Rle_antisym.
      + eapply Rle_trans; [apply matching_lower; [exact Hu|now rewrite map_length]|]. unfold carrying_cost.
        assert (map (fun xy => Rabs (fst xy - snd xy)) (combine us (map (fun u => u + c) us)) = repeat (Rabs c) (length us)) as ->.
        { generalize us. intros l. induction l as [|u l IH]; [reflexivity|]. cbn [map combine repeat length fst snd]. rewrite IH. f_equal. replace (u - (u + c)) with (- c) by ring. apply Rabs_Ropp. }
        unfold mean. rewrite repeat_length, rsum_repeat. apply Req_le. now field.
      + eapply Rle_trans; [|exact Hm]. apply Req_le. rewrite <- (Rabs_Ropp c). f_equal. unfold mean. rewrite map_length.
        assert (rsum (map (fun u => u + c) us) = rsum us + INR (length us) * c) as ->; [|now field].
        generalize us. intros l. induction l as [|u l IH]; [cbn; lra|]. change (length (u :: l)) with (S (length l)). rewrite S_INR. change (u + c + rsum (map (fun u => u + c) l) = u + rsum l + (INR (length l) + 1) * c). rewrite IH. lra.
    - intros y ->. assert (INR (length us) <> 0) as Hn by (apply not_0_INR; destruct us; [congruence|discriminate]). apply Rle_antisym.
      + destruct (dual_attained us [y] Hu ltac:(discriminate)) as (f & L & <-). unfold mean at 2. cbn [map length]. replace (rsum [f y] / INR 1) with (f y) by (cbn; field).
        unfold mean. rewrite !map_length. apply (Rmult_le_reg_r (INR (length us))); [pose proof (pos_INR (length us)); lra|].
        replace ((rsum (map f us) / INR (length us) - f y) * INR (length us)) with (rsum (map f us) - INR (length us) * f y) by (now field).
        replace (rsum (map (fun u => Rabs (u - y)) us) / INR (length us) * INR (length us)) with (rsum (map (fun u => Rabs (u - y)) us)) by (now field).
        generalize us. intros l. induction l as [|u l IH]; [cbn; lra|]. change (length (u :: l)) with (S (length l)). rewrite S_INR. cbn [map].
        change (f u + rsum (map f l) - (INR (length l) + 1) * f y <= Rabs (u - y) + rsum (map (fun u => Rabs (u - y)) l)). pose proof (L u y). pose proof (Rle_abs (f u - f y)). lra.
      + assert (lipschitz (fun x => Rabs (x - y))) as L. { intros a b. eapply Rle_trans; [apply Rabs_triang_inv2|]. apply Req_le. f_equal. ring. }
        pose proof (dual_upper _ us [y] Hu ltac:(discriminate) L) as H. unfold mean at 2 in H. cbn [map length] in H. rewrite Rminus_eq_0, Rabs_R0 in H. cbn [rsum fold_right INR] in H. lra.
  Qed.
End Points.
Print Assumptions C63_matching.

(** A missing member of either ensemble makes the distance missing. *)
Theorem C63_missing : forall d p t v e pv tv w, NoDup (keys p) -> dget p v = Some pv -> dget t v = Some tv ->
  distance_at d p t v e w -> In NaN (along pv d e ++ along tv d e) -> w = NaN.
Proof.
  intros d p t v e pv tv w N Hp Ht (st & H & P & <-) I. apply (per_variable_value _ _ p t v pv tv st N Hp Ht) in H. cbv beta in H.
  destruct (wasserstein_var d pv tv) as [st'|] eqn:E; [|discriminate]. injection H as ->. apply var_Ok in E. destruct E as (_ & _ & _ & K). destruct (K e P) as (Lp & Lt & G).
  rewrite wasserstein_NaN in G; [congruence| | |exact I]; unfold along; [destruct (labels_of (dims pv) d)|destruct (labels_of (dims tv) d)]; congruence || discriminate.
Qed.

(** The other dimensions of both arrays; shared ones have the same labels. *)
Definition points_of_both (d : string) (pv tv : da) : dimlist :=
  merge_dims inter_labels (keep (fun n => negb (eqb n d)) (dims pv)) (keep (fun n => negb (eqb n d)) (dims tv)).
(** The distance is computed exactly if both arrays have the ensemble dimension, agree on the
    labels of the other dimensions they share, and have members if there is any point; otherwise
    ValueError.  The sizes of the ensembles may differ. *)
Theorem C63_defined : forall d v pv tv, wf pv -> wf tv ->
  let ok := In d (dnames pv) /\ In d (dnames tv) /\
    (forall n ls ls', n <> d -> dget (dims pv) n = Some ls -> dget (dims tv) n = Some ls' -> ls = ls') /\
    ((exists e, point_of (points_of_both d pv tv) e) -> labels_of (dims pv) d <> [] /\ labels_of (dims tv) d <> []) in
  (ok -> exists st, statistic_value (WassersteinDistance d) [(v, pv)] [(v, tv)] v st /\ dims st = points_of_both d pv tv) /\
  (~ ok -> compute (WassersteinDistance d) [(v, pv)] [(v, tv)] = Err ValueError).
Proof.
  intros d v pv tv Wp Wt ok.
  assert (forall r, wasserstein_var d pv tv = r -> compute (WassersteinDistance d) [(v, pv)] [(v, tv)] = match r with Ok st => Ok [(v, st)] | Err k => Err k end) as C.
  { intros r <-. cbn [compute WassersteinDistance per_variable_statistic per_variable_compute dget fst snd]. destruct (eq_dec v v); [|contradiction]. destruct (wasserstein_var d pv tv); reflexivity. }
  assert (forallb (fun nl => match dget (keep (fun n => negb (eqb n d)) (dims tv)) (fst nl) with Some ls => labels_same (snd nl) ls | None => true end) (keep (fun n => negb (eqb n d)) (dims pv)) = true <->
          (forall n ls ls', n <> d -> dget (dims pv) n = Some ls -> dget (dims tv) n = Some ls' -> ls = ls')) as Hl.
  { rewrite forallb_forall. split.
    - intros H n ls ls' Hn Hp Ht. specialize (H (n, ls)). cbn [fst snd] in H. rewrite dget_keep in H. assert (negb (eqb n d) = true) as Eb by (apply negb_true_iff, eqb_false_iff; exact Hn).
      rewrite Eb, Ht in H. unfold labels_same in H. destruct (list_eq_dec eq_dec ls ls') as [|ne]; [auto|]. discriminate H. apply filter_In. split; [now apply dget_In|exact Eb].
    - intros H [n ls] I. cbn [fst snd]. apply filter_In in I. destruct I as [I Eb]. cbn [fst] in Eb. rewrite dget_keep, Eb. destruct (dget (dims tv) n) as [ls'|] eqn:Ht; [|reflexivity].
      unfold labels_same. destruct (list_eq_dec eq_dec ls ls') as [|ne]; [reflexivity|]. elim ne. apply (H n); auto; [now apply eqb_false_iff, negb_true_iff|]. apply In_dget; [apply Wp|exact I]. }
  assert (existsb (fun nl => Nat.eqb (length (snd nl)) 0) (points_of_both d pv tv) = false <-> exists e, point_of (points_of_both d pv tv) e) as He.
  { split.
    - intros H. assert (NoDup (map fst (points_of_both d pv tv))) as ND by (apply NoDup_merge; apply keep_NoDup; [apply Wp|apply Wt]).
      exists (fun n => hd (LZ 0) (labels_of (points_of_both d pv tv) n)). intros n ls I. unfold labels_of. rewrite (In_dget _ n ls ND I). destruct ls as [|l ls]; [|now left].
      assert (existsb (fun nl => Nat.eqb (length (snd nl)) 0) (points_of_both d pv tv) = true); [|congruence]. apply existsb_exists. exists (n, []). split; [exact I|reflexivity].
    - intros [e P]. destruct (existsb _ _) eqn:E; [|reflexivity]. now apply (no_point _ e) in E. }
  assert (forall (l : list label), Nat.eqb (length l) 0 = false <-> l <> []) as Hz by (intros [|]; cbn; split; congruence || discriminate).
  split.
  - intros (Ip & It & Hs & Hm). assert (exists st, wasserstein_var d pv tv = Ok st /\ dims st = points_of_both d pv tv) as (st & E & D).
    { unfold wasserstein_var. rewrite (proj2 (memb_In _ _) Ip), (proj2 (memb_In _ _) It). cbn [negb]. rewrite (proj2 Hl Hs). fold (points_of_both d pv tv). cbv zeta.
      destruct (existsb _ (points_of_both d pv tv)) eqn:Ee; [eexists; split; reflexivity|]. destruct (Hm (proj1 He eq_refl)) as [H1 H2]. rewrite (proj2 (Hz _) H1), (proj2 (Hz _) H2). eexists; split; reflexivity. }
    exists st. split; [|exact D]. exists [(v, st)]. rewrite (C _ E). split; [reflexivity|]. cbn [dget fst snd]. now destruct (eq_dec v v).
  - intros Hn. apply (C (Err ValueError)). unfold wasserstein_var. destruct (memb d (dnames pv)) eqn:Ep; [|reflexivity]. destruct (memb d (dnames tv)) eqn:Et; [|reflexivity]. cbn [negb]. cbv zeta. fold (points_of_both d pv tv).
    apply memb_In in Ep, Et. match goal with |- (if ?b then _ else _) = _ => destruct b eqn:Eb end; [|reflexivity]. pose proof (proj1 Hl eq_refl) as Eb'. clear Eb; rename Eb' into Eb. destruct (existsb _ (points_of_both d pv tv)) eqn:Ee.
    + elim Hn. split; [exact Ep|]. split; [exact Et|]. split; [exact Eb|]. intros [e P]. now apply (no_point _ e) in Ee.
    + destruct (Nat.eqb (length (labels_of (dims pv) d)) 0) eqn:L1; [reflexivity|]. destruct (Nat.eqb (length (labels_of (dims tv) d)) 0) eqn:L2; [reflexivity|].
      elim Hn. split; [exact Ep|]. split; [exact Et|]. split; [exact Eb|]. intros _. split; now apply Hz.
Qed.
Print Assumptions C63_defined.

(** Three members 0, 3, 6 against two members 1, 5: the distance is 4/3. *)
Definition ens (xs : list R) : da :=
  mkDa [("number", map (fun k => LZ (Z.of_nat k)) (seq 0 (length xs)))] (fun e => match e "number" with LZ z => Fin (nth (Z.to_nat z) xs 0) | _ => NaN end) [].
Lemma ens_along xs e : along (ens xs) "number" e = map Fin xs.
Proof.
  assert (forall ys, map (fun x => Fin (nth (Z.to_nat (Z.of_nat x)) (ys ++ xs) 0)) (seq (length ys) (length xs)) = map Fin xs) as H.
  { induction xs as [|x xs IH]; [reflexivity|]. intros ys. cbn [length seq map]. rewrite Nat2Z.id, nth_middle. f_equal. specialize (IH (ys ++ [x])). rewrite <- app_assoc, app_length in IH. cbn [length app] in IH. rewrite Nat.add_1_r in IH. exact IH. }
  specialize (H []). cbn [app length] in H. unfold along. change (labels_of (dims (ens xs)) "number") with (map (fun k => LZ (Z.of_nat k)) (seq 0 (length xs))). rewrite map_map. exact H.
Qed.
Example C63_example : NoDup (keys [("t", ens [0; 3; 6])]) /\ members_are "number" [("t", ens [0; 3; 6])] "t" env0 [0; 3; 6] /\
  members_are "number" [("t", ens [1; 5])] "t" env0 [1; 5] /\ distance_at "number" [("t", ens [0; 3; 6])] [("t", ens [1; 5])] "t" env0 (Fin (4 / 3)).
Proof.
  split; [repeat constructor; intros []|]. split; [eexists; split; [reflexivity|apply ens_along]|]. split; [eexists; split; [reflexivity|apply ens_along]|].
  eexists. split; [eexists; split; reflexivity|]. split; [intros n ls []|].
  change (match wasserstein_distance (along (ens [0; 3; 6]) "number" env0) (along (ens [1; 5]) "number" env0) with Ok v => v | Err _ => NaN end = Fin (4 / 3)).
  rewrite !ens_along, wasserstein_Fin by discriminate. f_equal. unfold distance. assert (sort ([0; 3; 6] ++ [1; 5]) = [0; 1; 3; 5; 6]) as ->.
  { cbn. repeat match goal with |- context [Rltb ?a ?b] => (rewrite (proj2 (Rltb_true a b)) by lra) || (rewrite (proj2 (Rltb_false a b)) by lra); cbn end. reflexivity. }
  unfold over, share_below. cbn [pairs map fst snd rsum fold_right filter].
  repeat match goal with |- context [Rleb ?a ?b] => (rewrite (proj2 (Rleb_true a b)) by lra) || (rewrite (proj2 (Rleb_false a b)) by lra) end. cbn [length INR].
  unfold Rabs. repeat match goal with |- context [Rcase_abs ?x] => destruct (Rcase_abs x) end; lra.
Qed.
