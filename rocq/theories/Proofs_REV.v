(** Proofs about the relative economic value (C31). *)
From Coq Require Import String ZArith QArith Qcanon Qreals List Bool Reals Lra Permutation Lia.
Import ListNotations.
From Verif Require Import Prelude Values Model_XArray Spec_XArray Proofs_XArray Model_Tree Spec_Tree Model_MetricsBase Model_Aggregation
  Spec_Aggregator Proofs_Aggregator Proofs_Aggregator2 Spec_Metrics Proofs_Metrics Spec_Means Proofs_Means Model_Calendar Model_Deterministic Proofs_Deterministic
  Model_Categorical Proofs_Categorical Model_Wrappers Spec_Wrappers Proofs_Wrappers Proofs_Transforms Props_Wrappers Props_Transforms Proofs_Beam Model_Latency Proofs_Latency Proofs_Det2 Model_REV Spec_REV.
Local Open Scope R_scope.
Local Open Scope string_scope.
Local Open Scope list_scope.

(** ** Metrics that know the variable's name *)
Lemma named_spec stats f vals r :
  values_from_mean_statistics (named_metric stats f) vals = Ok r ->
  forall v x, dget r v = Some x ->
    exists per_var, map fst per_var = keys stats /\
      (forall s a, In (s, a) per_var -> exists t, dget vals s = Some t /\ dget t v = Some a) /\ f v per_var = Ok x.
Proof.
  intros H. cbn [named_metric values_from_mean_statistics] in H.
  destruct (mapM (fun s => dgetE vals s) (keys stats)) as [tables|] eqn:E; cbn [bind] in H; [|discriminate].
  destruct tables as [|t0 ts]; [discriminate|].
  set (per_var := fun v => mapM (fun s => do t <- dgetE vals s; do x <- dgetE t v; Ok (s, x)) (keys stats)) in *.
  assert (mapM (fun v => do x <- (do pv <- per_var v; f v pv); Ok (v, x)) (filter (fun v => forallb (fun t => memb v (keys t)) ts) (keys t0)) = Ok r) as H'.
  { rewrite <- H. apply mapM_ext. intros v _. cbn beta. fold (per_var v). destruct (per_var v); reflexivity. }
  clear H. destruct (mapM_named _ _ _ H') as [Hk Hv]. intros v x Hx. apply dget_In in Hx. specialize (Hv v x Hx).
  destruct (per_var v) as [pv|] eqn:Ep; [|discriminate]. cbn [bind] in Hv. exists pv.
  assert (mapM (fun s => do x <- (do t <- dgetE vals s; dgetE t v); Ok (s, x)) (keys stats) = Ok pv) as Ep'.
  { rewrite <- Ep. apply mapM_ext. intros s _. unfold dgetE. destruct (dget vals s); reflexivity. }
  destruct (mapM_named _ _ _ Ep') as [K1 K2]. split; [exact K1|]. split; [|exact Hv]. intros s a Hsa. specialize (K2 s a Hsa). unfold dgetE in K2.
  destruct (dget vals s) as [t|]; [|discriminate]. exists t. split; auto. cbn [bind] in K2. destruct (dget t v); congruence.
Qed.
Lemma value_of_named g p t stats F v a :
  (forall s raw, In s (map snd stats) -> compute s p t = Ok raw -> NoDup (keys raw)) ->
  (forall s s', In s (map snd stats) -> In s' (map snd stats) -> unique_name s = unique_name s' -> compute s p t = compute s' p t) ->
  NoDup (map fst stats) ->
  metric_value g p t (named_metric stats F) v a ->
  exists per_var, F v per_var = Ok a /\
    Forall2 (fun ks sa => fst ks = fst sa /\
      exists raw st, compute (snd ks) p t = Ok raw /\ dget raw v = Some st /\ mean_array g st (snd sa)) stats per_var.
Proof.
  intros Hnd Hid0 Hns (vs & H & Hv).
  set (M := [("metric", named_metric stats F)]) in *.
  assert (registered M = map snd stats) as HR by (unfold registered, M; simpl; apply app_nil_r).
  assert (forall s' raw, In s' (registered M) -> compute s' p t = Ok raw -> NoDup (keys raw)) as Hout.
  { intros s' raw. rewrite HR. apply Hnd. }
  assert (names_identify M p t) as Hid.
  { intros s1 s2. rewrite HR. apply Hid0. }
  destruct (evaluate_each g p t _ _ Hout Hid H) as [_ K]. destruct (K _ _ (or_introl eq_refl)) as (v' & means & [[= <-]|[]] & HF & Hval).
  change (statistics (named_metric stats F)) with stats in HF.
  destruct (named_spec stats F means vs Hval v a Hv) as (per_var & Hk & Hpv & HFv). exists per_var. split; auto.
  assert (forall stats1 per1, incl stats1 stats -> map fst per1 = map fst stats1 -> incl per1 per_var ->
    Forall2 (fun ks sa => fst ks = fst sa /\
      exists raw st, compute (snd ks) p t = Ok raw /\ dget raw v = Some st /\ mean_array g st (snd sa)) stats1 per1) as G.
  { induction stats1 as [|[k s] stats1 IH]; intros per1 Hi Hk1 Hi2; destruct per1 as [|[k' m] per1]; try discriminate; constructor.
    - simpl in Hk1. injection Hk1 as -> Hk1. simpl. split; auto.
      destruct (Hpv k m (Hi2 _ (or_introl eq_refl))) as (tb & Htb & Hm).
      pose proof (items_rel_dget _ _ _ k HF) as HD. rewrite Htb in HD.
      assert (dget stats k = Some s) as Es by (apply In_dget; auto; apply Hi; now left). rewrite Es in HD.
      eapply own_mean_mean_array; eauto. intros raw. apply Hnd. apply in_map_iff. exists (k, s). split; auto. apply Hi; now left.
    - simpl in Hk1. injection Hk1 as _ Hk1. apply IH; auto; intros z Hz; [apply Hi|apply Hi2]; now right. }
  apply G; auto; apply incl_refl.
Qed.

(** ** Decisions *)
Definition binarized (ts : list Qc) (x : da) : da :=
  da_where_nan (binop (fun a b => b2v (vltb b a)) x (threshold_array "threshold" (threshold_values ts))) (notnull x).
Lemma threshold_values_fst ts : map fst (threshold_values ts) = map LQ ts.
Proof. unfold threshold_values. rewrite map_map. apply map_ext. reflexivity. Qed.
Lemma dget_threshold_values ts q : In q ts -> dget (threshold_values ts) (LQ q) = Some (Fin (Q2R (this q))).
Proof.
  induction ts as [|q0 ts IH]; [intros []|]. intros H. cbn [threshold_values map dget]. destruct (eq_dec (LQ q) (LQ q0)) as [E|N].
  - assert (q = q0) as -> by congruence. reflexivity.
  - apply IH. destruct H as [->|H]; [congruence|exact H].
Qed.
Lemma binarized_good ts x : NoDup (map LQ ts) -> good x -> good (binarized ts x).
Proof.
  intros N G. unfold binarized, da_where_nan. apply good_binop; [|apply good_map, G]. apply good_binop; [exact G|]. split; [|constructor].
  apply wf_threshold_array. rewrite threshold_values_fst. exact N.
Qed.
Lemma binarized_decisions ts x : wf x -> ~ In "threshold" (dnames x) -> decisions ts x (binarized ts x).
Proof.
  intros W N. pose proof (fun e => C33_binary (fun _ => "") "predictions" (TList (threshold_values ts)) "threshold" (Some "s")
    (mkTransform "predictions" "threshold=s" (fun name a => binarize name a (TList (threshold_values ts)) "threshold")) "v" x
    (threshold_array "threshold" (threshold_values ts)) (binarized ts x) e eq_refl (threshold_array_for "v" "threshold" (threshold_values ts)) eq_refl) as H.
  split.
  - destruct ts as [|q ts].
    + unfold binarized. cbn [da_where_nan binop notnull da_map dims threshold_array threshold_values map].
      assert (merge_dims inter_labels (dims x) [("threshold", [])] = dims x ++ [("threshold", [])]) as ->.
      { unfold merge_dims. rewrite (map_ext_in _ (fun p => p)); [rewrite map_id|].
        - f_equal. cbn [filter fst]. destruct (memb "threshold" (map fst (dims x))) eqn:M; [apply memb_In in M; contradiction|reflexivity].
        - intros [k l] I. cbn [dget fst snd]. destruct (eq_dec k "threshold") as [->|]; [|reflexivity]. exfalso. apply N. apply (in_map fst _ _ I). }
      rewrite <- (filter_all (fun q => negb (eqb (fst q) "threshold")) (dims x)) at 2.
      * rewrite <- (app_nil_r (filter _ (dims x))). change (@nil (string * list label)) with (filter (fun q => negb (eqb (fst q) "threshold")) [("threshold", @nil label)]). rewrite <- filter_app.
        apply merge_filter. rewrite map_app. apply NoDup_app_intro; [apply W|repeat constructor; intros []|]. intros k I [<-|[]]. contradiction.
      * intros [k l] I. cbn [fst]. apply negb_true_iff. apply eqb_false_iff. intros ->. apply N. apply (in_map fst _ _ I).
    + destruct (H (upd env0 "threshold" (LQ q))) as (_ & _ & _ & D); [left; rewrite upd_same; reflexivity|]. rewrite (D _ eq_refl W N). rewrite threshold_values_fst. reflexivity.
  - intros e q E I. destruct (H e) as (A & B & _); [cbn [listed]; rewrite E, threshold_values_fst; apply in_map, I|].
    assert (get (threshold_array "threshold" (threshold_values ts)) e = Fin (Q2R (this q))) as Et by (cbn [threshold_array get]; rewrite E, dget_threshold_values by exact I; reflexivity).
    rewrite Et in B. destruct (get x e) eqn:Ex; cbn [isnan]; try (rewrite B by discriminate; destruct (vltb _ _); reflexivity). apply A. reflexivity.
Qed.
