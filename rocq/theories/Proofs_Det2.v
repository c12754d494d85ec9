(** Proofs about the remaining deterministic statistics and the ranked probability score (C56, C57). *)
From Coq Require Import String List Bool Reals Lra Permutation ZArith.
Import ListNotations.
From Verif Require Import Prelude Values Model_XArray Spec_XArray Proofs_XArray Model_MetricsBase Spec_Aggregator Proofs_Aggregator Model_Calendar Model_Deterministic
  Proofs_Deterministic Model_Categorical Spec_Reduce Proofs_Reduce Proofs_Categorical.
Local Open Scope R_scope.
Local Open Scope string_scope.
Local Open Scope list_scope.

Lemma filter_all {A} (f : A -> bool) l : (forall x, In x l -> f x = true) -> filter f l = l.
Proof. induction l as [|a l IH]; intros H; simpl; [reflexivity|]. rewrite (H a) by (simpl; auto). f_equal. apply IH. intros x Hx. apply H. simpl; auto. Qed.
Lemma exceedance_get th p t e : get (exceedance_var th p t) e =
  if isnan (vsub (get p e) (get t e)) then NaN else if isnan (get th e) then NaN else b2v (vltb (get th e) (vabs (vsub (get p e) (get t e)))).
Proof.
  unfold exceedance_var, da_where_nan, notnull. cbn [binop da_map get]. rewrite !vtruthy_b2v.
  assert (isnan (vabs (vsub (get p e) (get t e))) = isnan (vsub (get p e) (get t e))) as -> by (destruct (vsub (get p e) (get t e)); reflexivity).
  destruct (isnan (get th e)) eqn:E1, (isnan (vsub (get p e) (get t e))); reflexivity.
Qed.

Lemma rps_value d p t r e ls x y : wf p -> wf t -> rps_var d p t = Ok r ->
  labels_of (dims p) d = ls -> labels_of (dims t) d = ls ->
  (forall l, In l ls -> get p (upd e d l) = Fin (x l) /\ get t (upd e d l) = Fin (y l)) ->
  get r e = Fin (rsum (map (fun l => (x l - y l) ^ 2) ls)).
Proof.
  intros Wp Wt H Lp Lt Hv. unfold rps_var in H.
  assert (NoDup (dnames (da_map (fun x => if isnan x then Fin 0 else x) (da_map vsq (binop vsub p t))))) as HN by (apply wf_map, wf_map, wf_binop; assumption).
  rewrite (da_sum_along d _ r e HN H). unfold along. cbn [da_map dims binop get].
  assert (labels_of (merge_dims inter_labels (dims p) (dims t)) d = ls) as ->.
  { unfold labels_of in *. rewrite dget_merge. destruct (dget (dims p) d) as [l1|] eqn:E1, (dget (dims t) d) as [l2|] eqn:E2; subst; auto.
    unfold inter_labels. apply filter_all. intros l Hl. now apply memb_In. }
  rewrite <- vsum_Fin. f_equal. apply map_ext_in. intros l Hl. destruct (Hv l Hl) as [-> ->]. unfold vsub. cbn [vneg vadd]. unfold vsq. cbn [vmul isnan]. f_equal. ring.
Qed.
Lemma rsum_sq_nonneg {A} (f : A -> R) l : 0 <= rsum (map (fun a => f a ^ 2) l).
Proof. induction l as [|a l IH]; [simpl; lra|]. cbn [map]. pose proof (pow2_ge_0 (f a)). change (rsum (f a ^ 2 :: map (fun a => f a ^ 2) l)) with (f a ^ 2 + rsum (map (fun a => f a ^ 2) l)). lra. Qed.
Lemma rsum_sq_zero {A} (f : A -> R) l : rsum (map (fun a => f a ^ 2) l) = 0 <-> forall a, In a l -> f a = 0.
Proof.
  induction l as [|a l IH]; [split; [intros _ ? []|reflexivity]|]. cbn [map].
  change (rsum (f a ^ 2 :: map (fun a => f a ^ 2) l)) with (f a ^ 2 + rsum (map (fun a => f a ^ 2) l)).
  pose proof (pow2_ge_0 (f a)) as K. pose proof (rsum_sq_nonneg f l) as Hp. split.
  - intros H. assert (f a ^ 2 = 0) as Z by lra. intros b [<-|Hb]; [|apply IH; auto; lra]. replace (f a ^ 2) with (f a * f a) in Z by ring. apply Rmult_integral in Z. tauto.
  - intros H. rewrite (proj2 IH) by (intros b Hb; apply H; simpl; auto). rewrite (H a) by (simpl; auto). ring.
Qed.

Lemma eps_pos : 0 < 1 / 1000000. Proof. lra. Qed.
Lemma relative_get pm tm e a b : get pm e = Fin a -> get tm e = Fin b -> b + 1 / 1000000 <> 0 ->
  get (relative pm tm) e = Fin (Rabs ((a + 1 / 1000000) / (b + 1 / 1000000) - 1)).
Proof.
  intros H1 H2 H3. unfold relative, epsilon. cbn [da_map binop get]. rewrite H1, H2. cbn [vadd]. rewrite vdiv_Fin by exact H3. reflexivity.
Qed.

Lemma envs_length ds : forall e1 e2, length (envs ds e1) = length (envs ds e2).
Proof.
  induction ds as [|[k ls] ds IH]; intros e1 e2; [reflexivity|]. cbn [envs]. induction ls as [|l ls IHl]; cbn [flat_map]; [reflexivity|].
  rewrite !app_length. rewrite IHl. f_equal. apply IH.
Qed.
Lemma da_mean_get D a m e s : wf a -> da_mean D a = Ok m -> (forall q, In q (sum_points D a e) -> get a q = Fin (s q)) ->
  sum_points D a e <> [] -> get m e = Fin (rsum (map s (sum_points D a e)) / INR (length (sum_points D a e))).
Proof.
  intros W H Hs Hne. unfold da_mean in H. destruct (da_sum D a) as [x|] eqn:E; [|discriminate]. cbn [bind] in H. injection H as <-.
  apply da_sum_Ok in E. destruct E as (_ & G & _). cbn [da_map get]. rewrite G. rewrite (map_ext_in _ _ _ Hs), vsum_Fin.
  assert (da_count D a = INR (length (sum_points D a e))) as ->.
  { unfold da_count, sum_points. f_equal. apply envs_length. }
  apply vdiv_Fin. destruct (sum_points D a e); [contradiction|]. cbn [length]. rewrite S_INR. pose proof (pos_INR (length l)). lra.
Qed.

Lemma filter_none {A} (f : A -> bool) l : (forall x, In x l -> f x = false) -> filter f l = [].
Proof. induction l as [|a l IH]; intros H; simpl; [reflexivity|]. rewrite (H a) by (simpl; auto). apply IH. intros x Hx. apply H. simpl; auto. Qed.
Lemma merge_filter (ds : dimlist) f : NoDup (map fst ds) -> merge_dims inter_labels ds (filter f ds) = ds.
Proof.
  intros HN. unfold merge_dims.
  rewrite (filter_none _ (filter f ds)).
  2:{ intros q Hq. apply filter_In in Hq. destruct Hq as [Hq _]. apply negb_false_iff. apply memb_In. now apply in_map. }
  rewrite app_nil_r. transitivity (map (fun q : string * list label => q) ds); [|apply map_id]. apply map_ext_in. intros [k ls] Hin. cbn [fst snd].
  destruct (@dget string (list label) _ (filter f ds) k) as [l2|] eqn:E; [|reflexivity]. f_equal.
  apply dget_In in E. apply filter_In in E. destruct E as [E _]. assert (l2 = ls) as ->.
  { apply (In_dget _ _ _ HN) in E. apply (In_dget _ _ _ HN) in Hin. congruence. }
  unfold inter_labels. apply filter_all. intros x Hx. now apply memb_In.
Qed.
Lemma keep_filter (p : string -> bool) (f : string * list label -> bool) ds : (forall q, In q ds -> p (fst q) = true -> f q = true) -> keep p (filter f ds) = keep p ds.
Proof.
  intros H. unfold keep. induction ds as [|q ds IH]; [reflexivity|]. simpl. destruct (f q) eqn:E; simpl; [destruct (p (fst q)); [f_equal|]; apply IH; intros; apply H; simpl; auto|].
  destruct (p (fst q)) eqn:E2; [rewrite (H q) in E by (simpl; auto); discriminate|]. apply IH. intros; apply H; simpl; auto.
Qed.

(** RelativeIntensity, no mask. *)
Theorem relative_intensity_plain D p t r e x y : wf p -> wf t -> dget (aux t) "mask" = None ->
  relative_intensity_var D p t = Ok r ->
  (forall q, In q (sum_points D p e) -> get p q = Fin (x q)) -> (forall q, In q (sum_points D t e) -> get t q = Fin (y q)) ->
  sum_points D p e <> [] -> sum_points D t e <> [] ->
  let mean f P := rsum (map f P) / INR (length P) in
  let a := mean x (sum_points D p e) in let b := mean y (sum_points D t e) in
  b + 1 / 1000000 <> 0 -> get r e = Fin (Rabs ((a + 1 / 1000000) / (b + 1 / 1000000) - 1)).
Proof.
  intros Wp Wt Hm H Hx Hy N1 N2 mean a b Hb. unfold relative_intensity_var in H. rewrite Hm in H.
  destruct (da_mean D p) as [pm|] eqn:E1; [|discriminate]. cbn [bind] in H. destruct (da_mean D t) as [tm|] eqn:E2; [|discriminate]. cbn [bind] in H. injection H as <-.
  apply relative_get; auto.
  - now apply (da_mean_get D p pm e x).
  - now apply (da_mean_get D t tm e y).
Qed.

(** With a mask on the targets: unmasked points only. *)
Theorem relative_intensity_masked D p t c r e x y : wf t -> dims p = dims t -> dget (aux t) "mask" = Some c ->
  relative_intensity_var D p t = Ok r ->
  let P := filter (fun q => label_is_one (c_get c q)) (sum_points D t e) in
  (forall q, In q P -> get p q = Fin (x q) /\ get t q = Fin (y q)) ->
  let n := INR (length P) in
  (P = [] -> get r e = Fin 0) /\
  (P <> [] -> rsum (map y P) / n + 1 / 1000000 <> 0 ->
    get r e = Fin (Rabs ((rsum (map x P) / n + 1 / 1000000) / (rsum (map y P) / n + 1 / 1000000) - 1))) /\
  exists m, dget (aux r) "mask" = Some m /\ c_get m e = LZ (match P with [] => 0 | _ => 1 end)%Z.
Proof.
  intros Wt Hd Hm H P HP n. unfold relative_intensity_var in H. rewrite Hm in H. set (m := mask_array t c) in *.
  destruct (da_sum D m) as [count|] eqn:Ec; [|discriminate]. cbn [bind] in H.
  destruct (da_sum D (where_zero p m)) as [ps|] eqn:Ep; [|discriminate]. cbn [bind] in H.
  destruct (da_sum D (where_zero t m)) as [ts|] eqn:Et; [|discriminate]. cbn [bind] in H. injection H as <-.
  apply da_sum_Ok in Ec. destruct Ec as (_ & Gc & Dc). apply da_sum_Ok in Ep. destruct Ep as (_ & Gp & _). apply da_sum_Ok in Et. destruct Et as (_ & Gt & _).
  assert (forall e, sum_points D m e = sum_points D t e) as Em.
  { intros e0. unfold sum_points, m, mask_array. cbn [dims]. rewrite keep_filter; [reflexivity|]. intros q Hq Hb. cbn beta in Hb. apply memb_In in Hb. specialize (Dc _ Hb).
    unfold dnames, m, mask_array in Dc. cbn [dims] in Dc. apply in_map_iff in Dc. destruct Dc as (q' & E & Hq'). apply filter_In in Hq'. destruct Hq' as [_ Hq']. now rewrite <- E. }
  assert (forall a, dims a = dims t -> forall e, sum_points D (where_zero a m) e = sum_points D t e) as Ez.
  { intros a Ha e0. unfold sum_points, where_zero, m, mask_array. cbn [binop dims]. rewrite Ha. rewrite merge_filter; [reflexivity|apply Wt]. }
  assert (get count e = Fin n) as Hc.
  { rewrite Gc, Em. unfold m, mask_array. cbn [get]. unfold n, P. generalize (sum_points D t e). intros l. clear. induction l as [|q l IH]; [reflexivity|].
    cbn [map filter]. unfold vsum. cbn [fold_right]. fold (vsum (map (fun e => b2v (label_is_one (c_get c e))) l)). rewrite IH. unfold b2v. destruct (label_is_one (c_get c q)); cbn [vadd length]; rewrite ?S_INR; f_equal; lra. }
  assert (forall (a : da) (z : env -> R), dims a = dims t -> (forall q, In q P -> get a q = Fin (z q)) -> vsum (map (get (where_zero a m)) (sum_points D (where_zero a m) e)) = Fin (rsum (map z P))) as Hz.
  { intros a z Ha Hin. rewrite Ez by exact Ha. unfold where_zero, m, mask_array. cbn [binop get]. unfold P in *. revert Hin. generalize (sum_points D t e). clear. intros l Hin. induction l as [|q l IH]; [reflexivity|].
    cbn [map filter] in *. unfold vsum. cbn [fold_right]. rewrite vtruthy_b2v. fold (vsum (map (fun e => if vtruthy (b2v (label_is_one (c_get c e))) then get a e else Fin 0) l)).
    destruct (label_is_one (c_get c q)); cbn [map].
    - rewrite (Hin q) by (simpl; auto). rewrite IH by (intros; apply Hin; simpl; auto). reflexivity.
    - rewrite IH by exact Hin. cbn [vadd]. f_equal. lra. }
  assert (n = 0 <-> P = []) as Hn.
  { unfold n. destruct P as [|q P']; [split; reflexivity|]. cbn [length]. rewrite S_INR. pose proof (pos_INR (length P')). split; [intros; lra|discriminate]. }
  assert (0 <= n) as Hn0 by apply pos_INR.
  assert (forall s v, get s e = Fin v -> get (binop (fun x n => if vltb (Fin 0) n then x else Fin 0) (binop vdiv s count) count) e = if Req_EM_T n 0 then Fin 0 else Fin (v / n)) as Hsafe.
  { intros s v Hs. cbn [binop get]. rewrite Hs, Hc. cbn [vltb]. destruct (Req_EM_T n 0) as [E|E].
    - rewrite (proj2 (Rltb_false 0 n)) by lra. reflexivity.
    - rewrite (proj2 (Rltb_true 0 n)) by lra. now apply vdiv_Fin. }
  assert (get ps e = Fin (rsum (map x P))) as Hps by (rewrite Gp; apply Hz; [exact Hd|intros q Hq; now apply HP]).
  assert (get ts e = Fin (rsum (map y P))) as Hts by (rewrite Gt; apply Hz; [reflexivity|intros q Hq; now apply HP]).
  pose proof (Hsafe ps _ Hps) as Sp. pose proof (Hsafe ts _ Hts) as St.
  split; [|split].
  - intros E. apply Hn in E. destruct (Req_EM_T n 0); [|contradiction]. etransitivity; [apply (relative_get _ _ e 0 0 Sp St); lra|]. f_equal.
    replace ((0 + 1 / 1000000) / (0 + 1 / 1000000) - 1) with 0 by (field; lra). apply Rabs_R0.
  - intros E Hne. destruct (Req_EM_T n 0) as [E0|]; [apply Hn in E0; contradiction|]. exact (relative_get _ _ e _ _ Sp St Hne).
  - eexists. cbn [aux]. rewrite dget_dset. destruct (eq_dec "mask" "mask"); [|contradiction]. split; [reflexivity|]. cbn [c_get]. rewrite Hc. cbn [vltb]. f_equal.
    destruct P as [|q P'] eqn:EP.
    + rewrite (proj2 (Rltb_false 0 n)); [reflexivity|]. rewrite (proj2 Hn eq_refl). lra.
    + rewrite (proj2 (Rltb_true 0 n)); [reflexivity|]. assert (n <> 0) by (intros E0; apply Hn in E0; discriminate). lra.
Qed.

(** WindVectorSquaredError *)
Lemma wind_compute_spec p t : forall us vs ns acc out, length us = length vs -> length vs = length ns -> wind_compute us vs ns p t acc = Ok out -> NoDup ns ->
  (forall v, In v (keys out) <-> In v (keys acc) \/ In v ns) /\ (forall v, ~ In v ns -> dget out v = dget acc v) /\
  forall i u v n, nth_error us i = Some u -> nth_error vs i = Some v -> nth_error ns i = Some n ->
    exists pu pv tu tv, dget p u = Some pu /\ dget p v = Some pv /\ dget t u = Some tu /\ dget t v = Some tv /\ dget out n = Some (wind_var pu pv tu tv).
Proof.
  induction us as [|u us IH]; intros vs ns acc out L1 L2 H Hn.
  - destruct vs; [|discriminate]. destruct ns; [|discriminate]. cbn in H. injection H as <-. split; [simpl; tauto|]. split; [auto|]. intros [|i] ? ? ? E; discriminate E.
  - destruct vs as [|v vs]; [discriminate|]. destruct ns as [|n ns]; [discriminate|]. cbn [wind_compute] in H. unfold dgetE in H.
    destruct (dget p u) as [pu|] eqn:E1; cbn [bind] in H; [|discriminate]. destruct (dget p v) as [pv|] eqn:E2; cbn [bind] in H; [|discriminate].
    destruct (dget t u) as [tu|] eqn:E3; cbn [bind] in H; [|discriminate]. destruct (dget t v) as [tv|] eqn:E4; cbn [bind] in H; [|discriminate].
    apply NoDup_cons_iff in Hn. destruct Hn as [Hv Hn]. cbn [length] in *.
    destruct (IH vs ns _ out ltac:(congruence) ltac:(congruence) H Hn) as (K1 & K2 & K3). split; [|split].
    + intros k. rewrite K1, In_keys_dset. simpl. intuition congruence.
    + intros k Hk. rewrite K2 by (simpl in Hk; tauto). rewrite dget_dset. destruct (eq_dec k n) as [->|]; [|reflexivity]. exfalso. apply Hk. now left.
    + intros [|i] u' v' n' F1 F2 F3; cbn [nth_error] in *.
      * injection F1 as <-. injection F2 as <-. injection F3 as <-. exists pu, pv, tu, tv. do 4 (split; auto).
        rewrite K2 by exact Hv. rewrite dget_dset. destruct (eq_dec n n); [reflexivity|contradiction].
      * eapply K3; eauto.
Qed.
