(** Proofs about the relative economic value, continued: from the metric to the table. *)
From Coq Require Import String ZArith QArith Qcanon Qreals List Bool Reals Lra Permutation Lia.
Import ListNotations.
From Verif Require Import Prelude Values Model_XArray Spec_XArray Proofs_XArray Model_Tree Spec_Tree Model_MetricsBase Model_Aggregation
  Spec_Aggregator Proofs_Aggregator Proofs_Aggregator2 Spec_Metrics Proofs_Metrics Spec_Means Proofs_Means Model_Calendar Model_Deterministic Proofs_Deterministic
  Model_Categorical Proofs_Categorical Model_Wrappers Spec_Wrappers Proofs_Wrappers Proofs_Transforms Props_Wrappers Proofs_Loaders Spec_Beam Proofs_Beam Model_Latency Proofs_Latency Proofs_Det2 Model_REV Spec_REV Proofs_REV Proofs_REV2.
Local Open Scope R_scope.
Local Open Scope string_scope.
Local Open Scope list_scope.

Lemma binarized_aux ts x : NoDup (keys (aux x)) -> aux (binarized ts x) = aux x.
Proof.
  intros N. unfold binarized, da_where_nan. cbn [binop aux notnull da_map dims threshold_array].
  assert (forall ds, merge_aux ds (aux x) [] = aux x) as E by (intros ds; unfold merge_aux; cbn [filter dget]; rewrite app_nil_r; apply filter_all; reflexivity).
  rewrite E. apply merge_aux_self, N.
Qed.

Lemma rev_thresholds_of a ts sfx : rev_thresholds a = Ok (ts, sfx) -> thresholds_of a ts.
Proof.
  unfold rev_thresholds, thresholds_of. destruct (ra_ensemble_size a) as [n|], (ra_thresholds a) as [q|]; try discriminate.
  - intros [= <- _]. left. eauto.
  - destruct (ra_suffix a); [|discriminate]. destruct (forallb _ _); [|discriminate]. intros [= <- _]. right. auto.
Qed.
Lemma thresholds_of_fun a ts ts' : thresholds_of a ts -> thresholds_of a ts' -> ts = ts'.
Proof. intros [(n & A & B & ->)|[A B]] [(n' & A' & B' & ->)|[A' B']]; congruence. Qed.

Lemma dget_map_label {A B} (f : A -> B) (d : list (label * A)) l : dget (map (fun lr => (fst lr, f (snd lr))) d) l = option_map f (dget d l).
Proof. induction d as [|[k x] d IH]; [reflexivity|]. cbn [map dget fst snd]. destruct (eq_dec l k); auto. Qed.
Lemma rev_parts g a m ts p t v pv tv arr : RelativeEconomicValue a = Ok m -> thresholds_of a ts ->
  dget p v = Some pv -> dget t v = Some tv -> NoDup (keys p) -> metric_value g p t m v arr ->
  exists T N F M, rev_values a v [("TruePositives", T); ("TrueNegatives", N); ("FalsePositives", F); ("FalseNegatives", M)] = Ok arr /\
    mean_array g (contingency (fun x y => x && y) (binarized ts pv) tv) T /\
    mean_array g (contingency (fun x y => x && negb y) (binarized ts pv) tv) F /\
    mean_array g (contingency (fun x y => negb x && y) (binarized ts pv) tv) M.
Proof.
  intros Hm Hts Hp Ht Hn H. unfold RelativeEconomicValue in Hm. destruct (rev_thresholds a) as [[ts' sfx]|] eqn:E; [|discriminate]. cbn [bind fst snd] in Hm.
  rewrite <- (thresholds_of_fun _ _ _ Hts (rev_thresholds_of _ _ _ E)) in Hm. destruct (rev_optimal_ok a); [|discriminate].
  set (b := mkTransform "predictions" ("threshold" ++ "=" ++ sfx)%string (fun name x => binarize name x (TList (threshold_values ts)) "threshold")) in *.
  assert (m = WrappedMetric (named_metric [tp_; tn_; fp_; fn_] (rev_values a)) [b] None) as -> by (injection Hm as <-; reflexivity). clear Hm.
  set (p' := map (fun kv => (fst kv, binarized ts (snd kv))) p).
  assert (transformed "predictions" [b] p p') as T1.
  { exists p'. split; [|reflexivity]. left. split; [left; reflexivity|]. unfold each_variable, p'. clear. induction p as [|[k x] p IH]; constructor; auto. }
  assert (transformed "targets" [b] t t) as T2 by (exists t; split; [right; split; [intros [|]; discriminate|reflexivity]|reflexivity]).
  assert (forall s raw, In s (map snd [tp_; tn_; fp_; fn_]) -> compute s p' t = Ok raw -> NoDup (keys raw)) as Hnd.
  { intros s raw [<-|[<-|[<-|[<-|[]]]]]; apply per_var_outputs. }
  assert (forall s s', In s (map snd [tp_; tn_; fp_; fn_]) -> In s' (map snd [tp_; tn_; fp_; fn_]) -> unique_name s = unique_name s' -> compute s p' t = compute s' p' t) as Hid.
  { intros s s' [<-|[<-|[<-|[<-|[]]]]] [<-|[<-|[<-|[<-|[]]]]]; cbn; intros; try discriminate; reflexivity. }
  rewrite (C33_metric g _ [b] None p t p' t v arr T1 T2) in H.
  2: { unfold names_identify, registered. cbn [map flat_map fst snd named_metric statistics]. intros s s'. rewrite !app_nil_r. apply Hid. }
  2: { unfold registered. cbn [map flat_map fst snd named_metric statistics]. intros s raw. rewrite app_nil_r. apply Hnd. }
  apply value_of_named in H; auto; [|repeat constructor; cbn; intuition discriminate].
  destruct H as (pvs & HF & HA). inversion HA as [|? [k1 T] ? ? [K1 H1] HA1]; subst. inversion HA1 as [|? [k2 N] ? ? [K2 H2] HA2]; subst. inversion HA2 as [|? [k3 F] ? ? [K3 H3] HA3]; subst. inversion HA3 as [|? [k4 M] ? ? [K4 H4] HA4]; subst. inversion HA4; subst.
  cbn [fst] in K1, K2, K3, K4. subst. exists T, N, F, M. split; [exact HF|].
  assert (dget p' v = Some (binarized ts pv)) as Hp' by (unfold p'; rewrite dget_map_val, Hp; reflexivity).
  assert (forall name f mm, (exists raw st, compute (per_variable_statistic name (fun p t => Ok (Some (contingency f p t)))) p' t = Ok raw /\ dget raw v = Some st /\ mean_array g st mm) -> mean_array g (contingency f (binarized ts pv) tv) mm) as G.
  { intros name f mm (raw & st & R1 & R2 & R3). assert (NoDup (keys p')) as Np by (unfold p', keys in *; rewrite map_map; exact Hn). destruct (per_variable_statistic_spec _ _ _ _ _ Np R1) as [_ S].
    apply S in R2. destruct R2 as (x & y & Ex & Ey & [= <-]). rewrite Hp' in Ex. rewrite Ht in Ey. injection Ex as <-. injection Ey as <-. exact R3. }
  split; [|split]; [eapply (G "TruePositives")|eapply (G "FalsePositives")|eapply (G "FalseNegatives")]; eassumption.
Qed.

(** The values. *)
Section Value.
  Variables (g : aggregator) (a : rev_args) (ts : list Qc) (v : string) (pv tv arr T N F M : da).
  Variables (s : env -> R) (ws : list da) (wrs : list (env -> R)) (ms : list da) (bs : list (env -> bool)).
  Let y := binarized ts pv.
  Let st := contingency (fun x y => x && y) y tv.
  Let u := point_weight g st wrs bs.
  Hypothesis Gp : good pv.
  Hypothesis Gt : good tv.
  Hypothesis Npt : ~ In "threshold" (dnames pv).
  Hypothesis NL : NoDup (LQ 0 :: map LQ ts ++ [LQ 1]).
  Hypothesis W : weighted_input g st s ws wrs ms bs.
  Hypothesis ML : mask_local st.
  Hypothesis Hu : forall q, 0 <= u q.
  Hypothesis HT : mean_array g (contingency (fun x y => x && y) y tv) T.
  Hypothesis HF : mean_array g (contingency (fun x y => x && negb y) y tv) F.
  Hypothesis HM : mean_array g (contingency (fun x y => negb x && y) y tv) M.
  Let yes (f : bool -> bool -> bool) (q : env) : R := if f (vtruthy (get y q)) (vtruthy (get tv q)) then 1 else 0.

  Lemma NLts : NoDup (map LQ ts).
  Proof. inversion NL as [|? ? _ H]; subst. apply NoDup_remove_1 in H. rewrite app_nil_r in H. exact H. Qed.
  Lemma y_good : good y.
  Proof. apply binarized_good; [exact NLts|exact Gp]. Qed.
  Lemma other_input f : weighted_input g (contingency f y tv) (yes f) ws wrs ms bs.
  Proof.
    eapply same_weighted; [exact W|apply contingency_sample; [apply y_good|exact Gt]|]. intros q Hq Hc. pose proof (wi_finite _ _ _ _ _ _ _ W q Hq Hc) as Hf. unfold st in Hf. rewrite contingency_get in *.
    destruct (isnan (vmul (get y q) (get tv q))); [discriminate|]. reflexivity.
  Qed.
  Lemma other_local f : mask_local (contingency f y tv).
  Proof.
    destruct (contingency_sample (fun x y => x && y) f y tv y_good Gt) as (D & A & _). unfold mask_local, dnames in *. rewrite D, A. exact ML.
  Qed.
  Lemma mean_shapes f m : mean_array g (contingency f y tv) m -> wf m /\ aux m = [] /\ dims m = keep (fun d => negb (memb d (reduce_dims g))) (ijoint (st :: ws ++ ms)).
  Proof.
    intros H. destruct (mean_shape g _ _ ws wrs ms bs m (other_input f) (other_local f) H) as (A & B & C). split; [exact A|]. split; [exact B|]. rewrite C. reflexivity.
  Qed.
  Lemma means e : point_of (dims T) e -> exists P, reduced_points (st :: ws ++ ms) (reduce_dims g) e P /\ (forall q, In q P -> point_of (dims st) q) /\
    forall f m, mean_array g (contingency f y tv) m ->
      (rsum (map u P) = 0 -> get m e = NaN) /\ (rsum (map u P) <> 0 -> get m e = Fin (wavg P u (yes f))).
  Proof.
    intros He. destruct (joint_means g st s ws wrs ms bs T e W HT He) as (P & HP & HQ & HJ). exists P. split; [exact HP|]. split; [exact HQ|]. intros f m Hm.
    assert (same_sample st (contingency f y tv)) as SS by (apply contingency_sample; [apply y_good|exact Gt]).
    destruct (HJ (contingency f y tv) (yes f) m SS) as (_ & A & B); [|exact Hm|split; auto].
    intros q Hq Hc. pose proof (wi_finite _ _ _ _ _ _ _ W q Hq Hc) as Hf. unfold st in Hf. rewrite contingency_get in *.
    destruct (isnan (vmul (get y q) (get tv q))); [discriminate|]. reflexivity.
  Qed.

  Hypothesis Ntt : ~ In "threshold" (dnames tv).
  Hypothesis Nwt : forall w, In w (ws ++ ms) -> ~ In "threshold" (dnames w).
  Hypothesis Hopt : ra_optimal a = None.
  Hypothesis NR : NoDup (map fst (ra_ratios a)).
  Hypothesis NC : forall w, In w (pv :: tv :: ws ++ ms) -> ~ In "cost_loss_ratio" (dnames w).
  Hypothesis HV : rev_values a v [("TruePositives", T); ("TrueNegatives", N); ("FalsePositives", F); ("FalseNegatives", M)] = Ok arr.

  Lemma st_dims d : dget (dims st) d = dget (merge_dims inter_labels (dims y) (dims tv)) d.
  Proof. destruct (contingency_shape (fun x y => x && y) y tv y_good Gt) as (D & _). unfold st. rewrite D. reflexivity. Qed.
  Lemma y_dims : dims y = dims pv ++ [("threshold", map LQ ts)].
  Proof. apply (binarized_decisions ts pv (proj1 Gp) Npt). Qed.
  Lemma st_threshold : dget (dims st) "threshold" = Some (map LQ ts).
  Proof.
    rewrite st_dims, dget_merge, y_dims. rewrite Proofs_Loaders.dget_app. assert (dget (dims pv) "threshold" = None) as -> by (apply dget_None; exact Npt). cbn [dget]. destruct (eq_dec "threshold" "threshold"); [|contradiction].
    destruct (dget (dims tv) "threshold") eqn:E; [exfalso; apply Ntt, (dget_Some_keys _ _ E)|reflexivity].
  Qed.
  Lemma joint_threshold : dget (ijoint (st :: ws ++ ms)) "threshold" = Some (map LQ ts).
  Proof.
    unfold ijoint. cbn [map fold_left]. assert (forall l acc, (forall w, In w l -> ~ In "threshold" (dnames w)) -> dget (fold_left (merge_dims inter_labels) (map dims l) acc) "threshold" = dget acc "threshold") as G.
    { induction l as [|w l IH]; intros acc H; [reflexivity|]. cbn [map fold_left]. rewrite IH by (intros; apply H; right; auto). rewrite dget_merge.
      assert (dget (dims w) "threshold" = None) as -> by (apply dget_None; apply H; left; reflexivity). destruct (dget acc "threshold"); reflexivity. }
    rewrite G by exact Nwt. rewrite dget_merge. cbn [dget]. apply st_threshold.
  Qed.

  (** The share of the points with [f decision event] in [P]. *)
  Let share (l : label) (f : bool -> bool -> bool) (q : env) : R := if f (acts l (get pv q)) (vtruthy (get tv q)) then 1 else 0.
  Lemma acts_listed q0 x : In q0 ts -> acts (LQ q0) x = vltb (Fin (Q2R (this q0))) x.
  Proof.
    intros I. unfold acts. inversion NL as [|? ? Q1 Q2]; subst. destruct (eqb (LQ q0) (LQ 0)) eqn:E0; [apply eqb_true_iff in E0; exfalso; apply Q1; rewrite <- E0; apply in_app_iff; left; apply in_map, I|].
    destruct (eqb (LQ q0) (LQ 1)) eqn:E1; [|reflexivity]. apply eqb_true_iff in E1. exfalso. apply NoDup_remove_2 in Q2. apply Q2. rewrite app_nil_r, <- E1. apply in_map, I.
  Qed.
  Lemma share_listed q0 q f : In q0 ts -> q "threshold" = LQ q0 -> point_of (dims st) q -> u q <> 0 -> yes f q = share (LQ q0) f q.
  Proof.
    intros I E Hq Hne. unfold yes, share. rewrite (acts_listed q0 _ I).
    assert (counted g st q = true) as Hc by (unfold u, point_weight in Hne; destruct (counted g st q); [reflexivity|exfalso; apply Hne; reflexivity]).
    pose proof (wi_finite _ _ _ _ _ _ _ W q Hq Hc) as Hf. unfold st in Hf. rewrite contingency_get in Hf.
    destruct (binarized_decisions ts pv (proj1 Gp) Npt) as [_ Dy]. specialize (Dy q q0 E I). fold y in Dy.
    destruct (isnan (get pv q)) eqn:En; [rewrite Dy in Hf; discriminate|]. rewrite Dy.
    assert ((if vltb (Fin (Q2R (this q0))) (get pv q) then Fin 1 else Fin 0) = b2v (vltb (Fin (Q2R (this q0))) (get pv q))) as -> by (destruct (vltb _ _); reflexivity). rewrite vtruthy_b2v. reflexivity.
  Qed.

  Lemma rev_main : wf arr /\ dget (dims arr) "cost_loss_ratio" = Some (map fst (ra_ratios a)) /\ dget (dims arr) "threshold" = Some (LQ 0 :: map LQ ts ++ [LQ 1]) /\ ts <> [] /\
    ~ In "threshold" (reduce_dims g) /\
    (forall d, d <> "cost_loss_ratio" -> d <> "threshold" -> dget (dims arr) d = dget (keep (fun d => negb (memb d (reduce_dims g))) (ijoint (st :: ws ++ ms))) d) /\
    forall e, point_of (dims arr) e -> exists P r, dget (ra_ratios a) (e "cost_loss_ratio") = Some r /\
      reduced_points (st :: ws ++ ms) (reduce_dims g) (sample_point ts e) P /\
      (forall q, In q P -> point_of (dims st) q) /\
      (rsum (map u P) = 0 -> get arr e = NaN) /\
      (rsum (map u P) <> 0 -> economic_value r (wavg P u (share (e "threshold") (fun x y => x && y))) (wavg P u (share (e "threshold") (fun x y => x && negb y))) (wavg P u (share (e "threshold") (fun x y => negb x && y))) (get arr e)).
  Proof.
    pose proof HV as H. unfold rev_values in H. cbn [dgetE dget] in H. change (dgetE [("TruePositives", T); ("TrueNegatives", N); ("FalsePositives", F); ("FalseNegatives", M)] "TruePositives") with (@Ok da T) in H.
    change (dgetE [("TruePositives", T); ("TrueNegatives", N); ("FalsePositives", F); ("FalseNegatives", M)] "FalsePositives") with (@Ok da F) in H.
    change (dgetE [("TruePositives", T); ("TrueNegatives", N); ("FalsePositives", F); ("FalseNegatives", M)] "FalseNegatives") with (@Ok da M) in H. cbn [bind] in H. rewrite Hopt in H.
    destruct (add_constant_thresholds T F M) as [[[T' F'] M']|] eqn:HC; [|discriminate]. cbn [bind] in H. injection H as <-.
    destruct (mean_shapes _ _ HT) as (WT & XT & DT). destruct (mean_shapes _ _ HF) as (WF & XF & DF). destruct (mean_shapes _ _ HM) as (WM & XM & DM).
    assert (~ In "threshold" (reduce_dims g)) as Nred.
    { intros I. unfold add_constant_thresholds, isel_first in HC. rewrite DT in HC. rewrite dget_keep in HC. rewrite (proj2 (memb_In _ _) I) in HC. discriminate. }
    assert (dget (dims T) "threshold" = Some (map LQ ts)) as LT.
    { rewrite DT, dget_keep. rewrite (proj2 (memb_false _ _) Nred). exact joint_threshold. }
    assert (NoDup (l0 :: labels_of (dims T) "threshold" ++ [l1])) as NL' by (unfold labels_of; rewrite LT; exact NL).
    destruct (constants_spec T F M T' F' M' WT WF WM XT XF XM ltac:(congruence) ltac:(congruence) NL' HC) as (first & rest & Lf & WT' & WF' & WM' & XT' & XF' & XM' & DT' & DF' & DM' & Dt & Dk & HG).
    rewrite LT in Lf. assert (exists q0 ts0, ts = q0 :: ts0) as (q0 & ts0 & Ets) by (clear -Lf; destruct ts as [|q0 ts0]; [discriminate|eauto]). assert (first :: rest = map LQ ts) as Lf' by congruence. assert (first = LQ q0) as Ef by (rewrite Ets in Lf'; cbn [map] in Lf'; congruence). clear Lf. rewrite Lf' in Dt.
    assert (~ In "cost_loss_ratio" (dnames T')) as NCT.
    { unfold dnames. rewrite DT'. intros I. apply keys_dget in I. destruct I as [l G]. rewrite Dk in G by discriminate. apply dget_Some_keys in G. rewrite DT in G. apply keep_names in G. destruct G as [G _]. apply ij_names in G. destruct G as (w & [<-|I] & J).
      - apply keys_dget in J. destruct J as [l' J]. rewrite st_dims, dget_merge, y_dims in J. assert (dget (dims pv) "cost_loss_ratio" = None) as Z1 by (apply dget_None; apply NC; left; reflexivity). assert (dget (dims tv) "cost_loss_ratio" = None) as Z2 by (apply dget_None; apply NC; right; left; reflexivity).
        rewrite Proofs_Loaders.dget_app, Z1 in J. rewrite Z2 in J. discriminate.
      - apply (NC w); [right; right; exact I|exact J]. }
    assert (map fst (map (fun lr => (fst lr, Fin (snd lr))) (ra_ratios a)) = map fst (ra_ratios a)) as FR by (rewrite map_map; apply map_ext; reflexivity).
    destruct (rev_formula_shape (map (fun lr => (fst lr, Fin (snd lr))) (ra_ratios a)) T' F' M') as [WR DR]; try assumption; try congruence.
    rewrite FR in DR. split; [exact WR|]. rewrite DR. split; [reflexivity|]. split; [cbn [dget]; destruct (eq_dec "threshold" "cost_loss_ratio"); [discriminate|]; rewrite DT'; exact Dt|]. split; [rewrite Ets; discriminate|]. split; [exact Nred|]. split.
    { intros d N1 N2. cbn [dget]. destruct (eq_dec d "cost_loss_ratio"); [contradiction|]. rewrite DT', Dk by exact N2. rewrite DT. reflexivity. }
    intros e He. assert (point_of (cdims (dims T)) e) as He' by (intros d l I; apply (He d l); right; rewrite DT'; exact I). assert (In (e "cost_loss_ratio") (map fst (ra_ratios a))) as Hr by (apply (He "cost_loss_ratio"); left; reflexivity).
    destruct (HG e He') as (HO & HI & H0 & H1 & HL). rewrite Lf' in *. apply keys_dget in Hr. destruct Hr as [r Hr].
    assert (get (threshold_array "cost_loss_ratio" (map (fun lr => (fst lr, Fin (snd lr))) (ra_ratios a))) e = Fin r) as Gr by (cbn [threshold_array get]; rewrite (dget_map_label (fun x => Fin x)), Hr; reflexivity).
    assert (point_of (dims T) (sample_point ts e)) as HP0.
    { intros d l I. apply In_dget in I; [|apply WT]. unfold sample_point. destruct (string_dec d "threshold") as [->|Nd].
      - rewrite LT in I. injection I as <-. destruct (memb (e "threshold") (map LQ ts)) eqn:Em; [apply memb_In, Em|]. rewrite Ets. rewrite upd_same. left. reflexivity.
      - assert (In (e d) l) as K by (apply (HO d l); apply dget_In; rewrite others_dget by exact Nd; exact I). destruct (memb _ _); [exact K|]. rewrite Ets. rewrite upd_other by auto. exact K. }
    destruct (means (sample_point ts e) HP0) as (P & HP & HPQ & HMn). exists P, r. split; [exact Hr|]. split; [exact HP|]. split; [exact HPQ|].
    assert (forall q, In q P -> q "threshold" = sample_point ts e "threshold") as Hqt.
    { intros q Hq. apply (proj2 HP) in Hq. apply Hq. intros [K _]. exact (Nred K). }
    rewrite rev_formula_get, Gr.
    destruct (HMn _ _ HT) as [ZT VT]. destruct (HMn _ _ HF) as [ZF VF]. destruct (HMn _ _ HM) as [ZM VM].
    assert (forall f f', (forall q, In q P -> u q <> 0 -> yes f q = f' q) -> wavg P u (yes f) = wavg P u f') as WE by (intros f f' K; apply wavg_ext; auto).
    destruct HI as [HI|HI]; [|apply in_app_iff in HI; destruct HI as [HI|[HI|[]]]].
    - symmetry in HI. destruct (H0 HI) as (GT & GF & GM). rewrite GT, GF, GM. assert (sample_point ts e = upd e "threshold" first) as SP.
      { unfold sample_point. destruct (memb (e "threshold") (map LQ ts)) eqn:Em; [|rewrite Ets, Ef; reflexivity]. exfalso. apply memb_In in Em. inversion NL as [|? ? Q1 Q2]; subst. apply Q1. apply in_app_iff. left. change (LQ 0) with l0. rewrite <- HI. exact Em. }
      rewrite <- SP. split.
      + intros Z. rewrite (ZT Z). apply rev_value_NaN. left. reflexivity.
      + intros Z. rewrite (VT Z), (VM Z). cbn [vadd]. change (vsub (Fin 1) (Fin ?x)) with (Fin (1 + - x)).
        rewrite <- wavg_add by auto.
        assert (acts (e "threshold") = fun _ => true) as EA by (rewrite HI; reflexivity).
        assert (wavg P u (fun q => yes (fun x y => x && y) q + yes (fun x y => negb x && y) q) = wavg P u (share (e "threshold") (fun x y => x && y))) as E1.
        { apply wavg_ext; auto. intros q _ _. unfold yes, share. rewrite EA. destruct (vtruthy (get y q)), (vtruthy (get tv q)); cbn; lra. }
        assert (wavg P u (share (e "threshold") (fun x y => x && negb y)) = 1 + - wavg P u (share (e "threshold") (fun x y => x && y))) as E2.
        { rewrite <- (wavg_const P u Hu Z 1). unfold share. rewrite EA. rewrite <- wavg_opp by auto. rewrite <- wavg_add by auto. apply wavg_ext; auto. intros q _ _. destruct (vtruthy (get tv q)); cbn; lra. }
        assert (wavg P u (share (e "threshold") (fun x y => negb x && y)) = 0) as E3.
        { rewrite <- (wavg_const P u Hu Z 0). apply wavg_ext; auto. intros q _ _. unfold share. rewrite EA. reflexivity. }
        rewrite E1, E2, E3. apply rev_value_Fin.
    - destruct (HL HI) as (GT & GF & GM). rewrite GT, GF, GM. assert (sample_point ts e = e) as SP by (unfold sample_point; rewrite (proj2 (memb_In _ _) HI); reflexivity). rewrite SP in *.
      split.
      + intros Z. rewrite (ZT Z). apply rev_value_NaN. left. reflexivity.
      + intros Z. rewrite (VT Z), (VF Z), (VM Z). apply in_map_iff in HI. destruct HI as (qt & Eq & HI).
        assert (forall f, wavg P u (yes f) = wavg P u (share (e "threshold") f)) as ES.
        { intros f. apply WE. intros q Hq Hne. rewrite <- Eq. apply share_listed; auto. rewrite (Hqt q Hq). symmetry. exact Eq. }
        rewrite !ES. apply rev_value_Fin.
    - symmetry in HI. destruct (H1 HI) as (GT & GF & GM). rewrite GT, GF, GM. assert (sample_point ts e = upd e "threshold" first) as SP.
      { unfold sample_point. destruct (memb (e "threshold") (map LQ ts)) eqn:Em; [|rewrite Ets, Ef; reflexivity]. exfalso. apply memb_In in Em. inversion NL as [|? ? Q1 Q2]; subst. apply NoDup_remove_2 in Q2. apply Q2. rewrite app_nil_r. change (LQ 1) with l1. rewrite <- HI. exact Em. }
      rewrite <- SP. split.
      + intros Z. rewrite (ZT Z). apply rev_value_NaN. right. reflexivity.
      + intros Z. rewrite (VT Z), (VM Z). cbn [vadd]. rewrite <- wavg_add by auto.
        assert (acts (e "threshold") = fun _ => false) as EA by (rewrite HI; reflexivity).
        assert (wavg P u (fun q => yes (fun x y => x && y) q + yes (fun x y => negb x && y) q) = wavg P u (share (e "threshold") (fun x y => negb x && y))) as E1.
        { apply wavg_ext; auto. intros q _ _. unfold yes, share. rewrite EA. destruct (vtruthy (get y q)), (vtruthy (get tv q)); cbn; lra. }
        assert (forall f, wavg P u (share (e "threshold") (fun x y => x && f y)) = 0) as E2.
        { intros f. rewrite <- (wavg_const P u Hu Z 0). apply wavg_ext; auto. intros q _ _. unfold share. rewrite EA. reflexivity. }
        rewrite E1. rewrite (E2 (fun y => y)), (E2 negb). apply rev_value_Fin.
  Qed.
End Value.
