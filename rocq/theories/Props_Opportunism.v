(** C61: the Opportunism metric is a product of the fractions of its (un)confident,
    (un)covered and (un)distant forecasts. *)
From Coq Require Import String List Bool ZArith Lia QArith Qcanon Reals Lra.
Import ListNotations.
From Verif Require Import Prelude Values Model_XArray Spec_XArray Proofs_XArray Model_Tree Model_MetricsBase Model_Deterministic Model_Ensemble Model_Aggregation Spec_Aggregator Spec_Metrics Spec_Means Proofs_Means Spec_Statistic Spec_Reduce Proofs_Metrics Proofs_Aggregator
  Model_Bootstrap Spec_Binning Spec_Calendar Spec_Loaders Spec_Climatology Proofs_Climatology Model_Intervals Spec_Intervals Proofs_Intervals Props_EnsMean Props_Climatology Props_Intervals.
Local Open Scope string_scope.
Local Open Scope R_scope.
Local Open Scope list_scope.

(** A wanted share: the fraction itself, or what it leaves. *)
Definition share (yes : bool) (x : R) : R := if yes then x else 1 - x.
(** A factor of the product: 1 if the question is not asked. *)
Definition factor (wanted : option bool) (x : R) : R := match wanted with Some yes => share yes x | None => 1 end.

Section Metric.
  Variables (fmt : Qc -> string) (d : string) (clim : vars da).
  Variables conf_lo conf_hi cov_lo cov_hi jac_lo jac_hi conf_threshold jac_threshold : Qc.
  Let opportunism b k j := Opportunism fmt d clim b k j conf_lo conf_hi cov_lo cov_hi jac_lo jac_hi conf_threshold jac_threshold.
  Let confident := Confident fmt d clim conf_lo conf_hi conf_threshold.
  Let covered := Covered fmt d cov_lo cov_hi.
  Let distant := JaccardDistant fmt d clim jac_threshold jac_lo jac_hi.

  Lemma clim_r_outputs name f c (p t : vars da) raw : NoDup (keys p) -> compute (climatology_statistic_r name f c) p t = Ok raw -> NoDup (keys raw).
  Proof.
    intros N H. cbn [compute climatology_statistic_r] in H. destruct (mapM (fun k => dgetE c k) (keys p)); [|discriminate]. cbn [bind] in H.
    assert (keys raw = keys p) as ->; auto. clear N. revert raw H. induction p as [|[k pa] p IH]; intros raw H; cbn [mapM fst snd] in H.
    - injection H as <-. reflexivity.
    - destruct (dgetE t k); [|discriminate]. cbn [bind] in H. destruct (dgetE c k); [|discriminate]. cbn [bind] in H.
      destruct (align_climatology pa _); [|discriminate]. cbn [bind] in H. destruct (f pa _ _); [|discriminate]. cbn [bind] in H.
      destruct (mapM _ p) as [r|] eqn:E; [|discriminate]. cbn [bind] in H. injection H as <-. change (k :: keys r = k :: keys p). f_equal. eapply IH; eauto.
  Qed.
  Lemma outputs s p t raw : In s [confident; covered; distant] -> NoDup (keys p) -> compute s p t = Ok raw -> NoDup (keys raw).
  Proof.
    intros [<-|[<-|[<-|[]]]] N H; [eapply clim_r_outputs; eauto|eapply per_var_outputs; exact H|eapply clim_r_outputs; eauto].
  Qed.
  Lemma names s s' : In s [confident; covered; distant] -> In s' [confident; covered; distant] -> unique_name s = unique_name s' -> s = s'.
  Proof. intros [<-|[<-|[<-|[]]]] [<-|[<-|[<-|[]]]] H; try reflexivity; discriminate H. Qed.
  Lemma mean_unique g st m m' : mean_array g st m -> mean_array g st m' -> m = m'.
  Proof. intros (x & y & E & ->) (x' & y' & E' & ->). rewrite E in E'. now injection E' as <- <-. Qed.
  Lemma stat_mean g p t s v st a : In s [confident; covered; distant] -> NoDup (keys p) ->
    (exists raw st, compute s p t = Ok raw /\ dget raw v = Some st /\ mean_array g st a) -> metric_value g p t (metric_of_statistic s) v st -> a = st.
  Proof.
    intros Hs N (raw & x & Hc & Hd & Hm) H. destruct (value_of_statistic g p t s v st) as (raw' & x' & Hc' & Hd' & Hm'); auto.
    { intros r. now apply outputs. }
    rewrite Hc in Hc'. injection Hc' as <-. rewrite Hd in Hd'. injection Hd' as <-. eapply mean_unique; eauto.
  Qed.

  (** The value is the product of the shares of confident, covered and distant forecasts (or
      of what they leave); the questions not asked do not count. *)
  Theorem C61_product : forall g p t v b k j a c cov jac e x y z, NoDup (keys p) ->
    metric_value g p t (opportunism b k j) v a ->
    metric_value g p t (metric_of_statistic confident) v c ->
    (k <> None -> metric_value g p t (metric_of_statistic covered) v cov /\ get cov e = Fin y) ->
    (j <> None -> metric_value g p t (metric_of_statistic distant) v jac /\ get jac e = Fin z) ->
    get c e = Fin x ->
    get a e = Fin (share b x * factor k y * factor j z).
  Proof.
    intros g p t v b k j a c cov jac e x y z N Ha Hc Hk Hj Ec. unfold opportunism, Opportunism in Ha. fold confident covered distant in Ha.
    set (stats := ("Confident", confident) :: _) in Ha.
    assert (forall s, In s (map snd stats) -> In s [confident; covered; distant]) as I.
    { intros s. unfold stats. destruct k, j; cbn [map snd app In]; tauto. }
    apply value_of_metric in Ha.
    - destruct Ha as (pv & HF & F). unfold stats in F. inversion F as [|[n0 s0] [m0 a0] tl1 tl2 [En H1] F']; subst; clear F. cbn [fst snd] in *. subst m0.
      pose proof (stat_mean _ _ _ _ _ _ _ (or_introl eq_refl) N H1 Hc) as ->.
      assert (forall bb, get (yes_no bb c) e = Fin (share bb x)) as G1 by (intros []; cbn [yes_no share complement da_map get]; rewrite Ec; reflexivity).
      assert (k <> None -> forall bb, get (yes_no bb cov) e = Fin (share bb y)) as G2 by (intros Ks; destruct (Hk Ks) as [_ Ek]; intros []; cbn [yes_no share complement da_map get]; rewrite Ek; reflexivity).
      assert (j <> None -> forall bb, get (yes_no bb jac) e = Fin (share bb z)) as G3 by (intros Js; destruct (Hj Js) as [_ Ej]; intros []; cbn [yes_no share complement da_map get]; rewrite Ej; reflexivity).
      assert (k <> None -> metric_value g p t (metric_of_statistic covered) v cov) as Mk by (intros Ks; apply Hk; exact Ks).
      assert (j <> None -> metric_value g p t (metric_of_statistic distant) v jac) as Mj by (intros Js; apply Hj; exact Js).
      destruct k as [k|], j as [j|]; cbn [app] in F'.
      + inversion F' as [|? [m1 a1] ? ? [E1 H2] F2]; subst. inversion F2 as [|? [m2 a2] ? ? [E2 H3] F3]; subst. inversion F3; subst. cbn [fst snd] in *. subst m1 m2.
        pose proof (stat_mean _ _ _ _ _ _ _ (or_intror (or_introl eq_refl)) N H2 (Mk ltac:(discriminate))) as ->. pose proof (stat_mean _ _ _ _ _ _ _ (or_intror (or_intror (or_introl eq_refl))) N H3 (Mj ltac:(discriminate))) as ->.
        cbn in HF. injection HF as <-. cbn [get binop]. rewrite G1, (G2 ltac:(discriminate)), (G3 ltac:(discriminate)). reflexivity.
      + inversion F' as [|? [m1 a1] ? ? [E1 H2] F2]; subst. inversion F2; subst. cbn [fst snd] in *. subst m1.
        pose proof (stat_mean _ _ _ _ _ _ _ (or_intror (or_introl eq_refl)) N H2 (Mk ltac:(discriminate))) as ->.
        cbn in HF. injection HF as <-. cbn [get binop]. rewrite G1, (G2 ltac:(discriminate)). cbn [vmul factor]. f_equal. ring.
      + inversion F' as [|? [m1 a1] ? ? [E1 H2] F2]; subst. inversion F2; subst. cbn [fst snd] in *. subst m1.
        pose proof (stat_mean _ _ _ _ _ _ _ (or_intror (or_intror (or_introl eq_refl))) N H2 (Mj ltac:(discriminate))) as ->.
        cbn in HF. injection HF as <-. cbn [get binop]. rewrite G1, (G3 ltac:(discriminate)). cbn [vmul factor]. f_equal. ring.
      + inversion F'; subst. cbn in HF. injection HF as <-. rewrite G1. cbn [factor]. f_equal. ring.
    - intros s raw Hs. apply outputs; auto.
    - intros s s' Hs Hs' E. now rewrite (names s s' (I _ Hs) (I _ Hs') E).
    - unfold stats. destruct k, j; cbn [map fst app]; repeat constructor; cbn [In]; intuition discriminate.
  Qed.

  (** With fractions between 0 and 1 the value is between 0 and each of its factors. *)
  Theorem C61_range : forall g p t v b k j a c cov jac e x y z r, NoDup (keys p) ->
    metric_value g p t (opportunism b k j) v a ->
    metric_value g p t (metric_of_statistic confident) v c ->
    metric_value g p t (metric_of_statistic covered) v cov ->
    metric_value g p t (metric_of_statistic distant) v jac ->
    get c e = Fin x -> get cov e = Fin y -> get jac e = Fin z -> 0 <= x <= 1 -> 0 <= y <= 1 -> 0 <= z <= 1 ->
    get a e = Fin r -> 0 <= r /\ r <= share b x /\ r <= factor k y /\ r <= factor j z.
  Proof.
    intros g p t v b k j a c cov jac e x y z r N Ha Hc Hk Hj Ec Ek Ej X Y Z Er.
    pose proof (C61_product g p t v b k j a c cov jac e x y z N Ha Hc (fun _ => conj Hk Ek) (fun _ => conj Hj Ej) Ec) as P. rewrite P in Er.
    assert (r = share b x * factor k y * factor j z) as -> by congruence. clear - X Y Z.
    assert (0 <= share b x <= 1) as H1 by (destruct b; cbn [share]; lra).
    assert (0 <= factor k y <= 1) as H2 by (destruct k as [[]|]; cbn [factor share]; lra).
    assert (0 <= factor j z <= 1) as H3 by (destruct j as [[]|]; cbn [factor share]; lra).
    set (u := share b x) in *. set (w := factor k y) in *. set (q := factor j z) in *. clearbody u w q.
    assert (0 <= u * w) by (apply Rmult_le_pos; lra). assert (u * w <= u) by (rewrite <- (Rmult_1_r u) at 2; apply Rmult_le_compat_l; lra).
    assert (u * w <= w) by (rewrite <- (Rmult_1_l w) at 2; apply Rmult_le_compat_r; lra).
    assert (0 <= u * w * q) by (apply Rmult_le_pos; lra). assert (u * w * q <= u * w) by (rewrite <- (Rmult_1_r (u * w)) at 2; apply Rmult_le_compat_l; lra).
    assert (u * w * q <= q) by (rewrite <- (Rmult_1_l q) at 2; apply Rmult_le_compat_r; lra). lra.
  Qed.
  (** The yes and no variants of a question add up to the metric without the question. *)
  Theorem C61_split : forall g p t v b k j a1 a2 a c cov jac e x y z, NoDup (keys p) ->
    metric_value g p t (metric_of_statistic confident) v c ->
    metric_value g p t (metric_of_statistic covered) v cov ->
    metric_value g p t (metric_of_statistic distant) v jac ->
    get c e = Fin x -> get cov e = Fin y -> get jac e = Fin z ->
    (metric_value g p t (opportunism b (Some true) j) v a1 -> metric_value g p t (opportunism b (Some false) j) v a2 ->
     metric_value g p t (opportunism b None j) v a -> vadd (get a1 e) (get a2 e) = get a e) /\
    (metric_value g p t (opportunism b k (Some true)) v a1 -> metric_value g p t (opportunism b k (Some false)) v a2 ->
     metric_value g p t (opportunism b k None) v a -> vadd (get a1 e) (get a2 e) = get a e) /\
    (metric_value g p t (opportunism true None None) v a1 -> metric_value g p t (opportunism false None None) v a2 ->
     vadd (get a1 e) (get a2 e) = Fin 1).
  Proof.
    intros g p t v b k j a1 a2 a c cov jac e x y z N Hc Hk Hj Ec Ek Ej.
    assert (forall b k j a, metric_value g p t (opportunism b k j) v a -> get a e = Fin (share b x * factor k y * factor j z)) as P.
    { intros. eapply C61_product; eauto. }
    split; [|split].
    - intros H1 H2 H3. rewrite (P _ _ _ _ H1), (P _ _ _ _ H2), (P _ _ _ _ H3). cbn [vadd factor share]. f_equal. ring.
    - intros H1 H2 H3. rewrite (P _ _ _ _ H1), (P _ _ _ _ H2), (P _ _ _ _ H3). cbn [vadd factor share]. f_equal. ring.
    - intros H1 H2. rewrite (P _ _ _ _ H1), (P _ _ _ _ H2). cbn [vadd factor share]. f_equal. ring.
  Qed.
End Metric.
Print Assumptions C61_product.
Print Assumptions C61_range.
Print Assumptions C61_split.

(** ** The two-forecast example *)
Definition two_times : list label := [LZ 0; LZ 1].
Definition is0 (e : env) (d : string) : bool := eqb (e d) (LZ 0).
(** At time 0 all members are 0, at time 1 they are 0 and 40. *)
Definition two_pred : da := mkDa [("valid_time", two_times); ("number", [LZ 0; LZ 1])]
  (fun e => Fin (if is0 e "valid_time" then 0 else if is0 e "number" then 0 else 40)) [].
(** Observed are 0 and 100. *)
Definition two_obs : da := mkDa [("valid_time", two_times)] (fun e => Fin (if is0 e "valid_time" then 0 else 100)) [].
(** The climatological interval is [0, 10] at both times. *)
Definition two_clim : da := mkDa [("time", two_times); ("quantile", [LQ q1; LQ q3])] (fun e => Fin (if eqb (e "quantile") (LQ q1) then 0 else 10)) [].
Definition at_t (T : Z) : env := upd env0 "valid_time" (LZ T).
Lemma two_quantiles_at T y : (T = 0 /\ y = 0 \/ T = 1 /\ y = 40)%Z ->
  quantiles_at "number" q1 q3 [("t", two_pred)] [("t", two_obs)] [("t", two_clim)] "t" two_pred two_obs two_clim (at_t T) [0; IZR y]
  (0 + 1 / 4 * (IZR y - 0)) (0 + 3 / 4 * (IZR y - 0)) 0 10.
Proof.
  intros HT. assert (0 <= IZR y) as H by (destruct HT as [[_ ->]|[_ ->]]; lra). constructor; try reflexivity.
  - repeat constructor; intros [].
  - split; [repeat constructor; cbn; intuition discriminate|]. split; [intros d ls [[= <- <-]|[[= <- <-]|[]]]; repeat constructor; cbn; intuition discriminate|].
    intros e e' K. cbn [get two_pred]. unfold is0. rewrite (K "number") by (right; now left). rewrite (K "valid_time") by (now left). reflexivity.
  - intros k c K. discriminate.
  - split; [repeat constructor; cbn; intuition discriminate|]. split; [intros d ls [[= <- <-]|[[= <- <-]|[]]]; repeat constructor; cbn; intuition discriminate|].
    intros e e' K. cbn [get two_clim]. rewrite (K "quantile") by (right; now left). reflexivity.
  - cbn. intuition discriminate.
  - destruct HT as [[-> ->]|[-> ->]]; reflexivity.
  - rewrite qr_q1. apply pair_quantile; auto; lra.
  - rewrite qr_q3. apply pair_quantile; auto; lra.
  - exists T, (upd (upd (at_t T) "quantile" (LQ q1)) "time" (LZ T)), (upd (upd (at_t T) "quantile" (LQ q3)) "time" (LZ T)).
    split; [left; left; split; [now left|reflexivity]|].
    assert (forall q, climatology_point two_clim (upd (at_t T) "quantile" (LQ q)) T (upd (upd (at_t T) "quantile" (LQ q)) "time" (LZ T))) as C.
    { intros q. apply cp_time; [left; now left|apply upd_same|]. intros d Hd. apply upd_other. intros ->. apply Hd. now left. }
    split; [apply C|]. split; [apply C|]. split; reflexivity.
Qed.
Lemma two_levels : levels_ok "number" q1 q3 two_pred.
Proof. split; [rewrite qr_q1; lra|]. split; [rewrite qr_q3; lra|]. right. now left. Qed.
Definition two_agg : aggregator := mkAgg ["valid_time"] [] [] false false.
Lemma own_two s f p t : compute s p t = Ok [("t", mkDa [("valid_time", two_times)] f [])] ->
  exists m, own_mean two_agg p t s [("t", m)] /\ forall x y, f (at_t 0) = Fin x -> f (at_t 1) = Fin y -> get m env0 = Fin ((x + y) / 2).
Proof.
  intros H. eexists. split.
  - apply own_mean_iff; [intros r; rewrite H; intros [= <-]; repeat constructor; intros []|]. eexists. split; [exact H|]. eexists [(_, (_, _))]. split; [|reflexivity].
    eexists [Some (_, _)]. split; [constructor; [reflexivity|constructor]|]. reflexivity.
  - intros x y Hx Hy. cbn -[vdiv vadd vmul at_t env0]. change (upd env0 "valid_time" (LZ 0)) with (at_t 0). change (upd env0 "valid_time" (LZ 1)) with (at_t 1). rewrite Hx, Hy.
    cbn [vmul vadd]. rewrite vdiv_Fin by lra. f_equal. field.
Qed.
Lemma eval_two s1 s2 f1 f2 F G p t : unique_name s1 <> unique_name s2 ->
  compute s1 p t = Ok [("t", mkDa [("valid_time", two_times)] f1 [])] ->
  compute s2 p t = Ok [("t", mkDa [("valid_time", two_times)] f2 [])] ->
  (forall c k, F [("Confident", c); ("Covered", k)] = Ok (G c k)) ->
  exists a, metric_value two_agg p t (per_variable_metric [("Confident", s1); ("Covered", s2)] F) "t" a.
Proof.
  intros Hn H1 H2 HF. destruct (own_two _ _ _ _ H1) as (m1 & O1 & _), (own_two _ _ _ _ H2) as (m2 & O2 & _).
  set (M := [("metric", per_variable_metric [("Confident", s1); ("Covered", s2)] F)]).
  assert (forall s v, In s (registered M) -> compute s p t = Ok v -> NoDup (keys v)) as Hout.
  { intros s v [Es|[Es|[]]]; rewrite <- Es; cbn [snd]; [rewrite H1|rewrite H2]; intros [= <-]; repeat constructor; intros []. }
  assert (names_identify M p t) as Hid.
  { intros s s' [<-|[<-|[]]] [<-|[<-|[]]] E; cbn [snd] in *; congruence. }
  assert (values_from_mean_statistics (per_variable_metric [("Confident", s1); ("Covered", s2)] F) [("Confident", [("t", m1)]); ("Covered", [("t", m2)])] = Ok [("t", G m1 m2)]) as V.
  { cbn. rewrite HF. reflexivity. }
  assert (items_rel (own_mean two_agg p t) [("Confident", s1); ("Covered", s2)] [("Confident", [("t", m1)]); ("Covered", [("t", m2)])]) as IR by (repeat constructor; auto).
  destruct (evaluate_conv two_agg p t M Hout Hid) as [mv E].
  { intros n m [[= <- <-]|[]]. eexists _, _. split; [exact IR|exact V]. }
  destruct (evaluate_each two_agg p t M mv Hout Hid E) as [K1 K2]. destruct (K2 _ _ (or_introl eq_refl)) as (v & means & I & IR' & V').
  assert (means = [("Confident", [("t", m1)]); ("Covered", [("t", m2)])]) as ->.
  { inversion IR' as [|? [k1 a1] ? ? [E1 O1'] IR2]; subst. inversion IR2 as [|? [k2 a2] ? ? [E2 O2'] IR3]; subst. inversion IR3; subst. cbn [fst snd] in *. subst k1 k2.
    assert (a1 = [("t", m1)]) as -> by (eapply own_mean_fun; [|exact O1'|exact O1]; intros r Hr; apply (Hout s1); [now left|exact Hr]).
    assert (a2 = [("t", m2)]) as -> by (eapply own_mean_fun; [|exact O2'|exact O2]; intros r Hr; apply (Hout s2); [right; now left|exact Hr]). reflexivity. }
  rewrite V in V'. injection V' as <-. exists (G m1 m2). exists [("t", G m1 m2)]. split; [|reflexivity]. fold M. rewrite E. f_equal.
  destruct mv as [|[n0 v0] [|]]; try discriminate. destruct I as [[= -> ->]|[]]. reflexivity.
Qed.

Lemma level_ok q r : qr q = r -> 0 <= r <= 1 -> Rltb (qr q) 0 || Rltb 1 (qr q) = false.
Proof. intros -> H. rewrite (proj2 (Rltb_false _ _)) by lra. rewrite (proj2 (Rltb_false _ _)) by lra. reflexivity. Qed.
Lemma two_computed threshold : exists f1 f2,
  compute (Confident ex_fmt "number" [("t", two_clim)] q1 q3 threshold) [("t", two_pred)] [("t", two_obs)] = Ok [("t", mkDa [("valid_time", two_times)] f1 [])] /\
  compute (Covered ex_fmt "number" q1 q3) [("t", two_pred)] [("t", two_obs)] = Ok [("t", mkDa [("valid_time", two_times)] f2 [])].
Proof.
  assert (Rltb (qr q1) 0 || Rltb 1 (qr q1) = false) as L1 by (apply (level_ok _ (1 / 4)); [apply qr_q1|lra]).
  assert (Rltb (qr q3) 0 || Rltb 1 (qr q3) = false) as L3 by (apply (level_ok _ (3 / 4)); [apply qr_q3|lra]).
  eexists _, _. split.
  - cbn [compute Confident climatology_statistic_r]. unfold confident_var, quantile. rewrite L1, L3. reflexivity.
  - cbn [compute Covered per_variable_statistic]. unfold covered_var, quantile. rewrite L1, L3. reflexivity.
Qed.

Lemma single_value_exists s f p t : compute s p t = Ok [("t", mkDa [("valid_time", two_times)] f [])] ->
  exists m, metric_value two_agg p t (metric_of_statistic s) "t" m /\ forall x y, f (at_t 0) = Fin x -> f (at_t 1) = Fin y -> get m env0 = Fin ((x + y) / 2).
Proof.
  intros H. destruct (own_two _ _ _ _ H) as (m & O & G). exists m. split; [|exact G].
  set (M := [("metric", metric_of_statistic s)]).
  assert (forall s' v, In s' (registered M) -> compute s' p t = Ok v -> NoDup (keys v)) as Hout.
  { intros s' v [Es|[]]; rewrite <- Es; cbn [snd]. rewrite H. intros [= <-]; repeat constructor; intros []. }
  assert (names_identify M p t) as Hid by (intros s1 s' [<-|[]] [<-|[]] E; reflexivity).
  destruct (evaluate_conv two_agg p t M Hout Hid) as [mv E].
  { intros n m' [[= <- <-]|[]]. exists [("self", [("t", m)])], [("t", m)]. split; [constructor; [split; [reflexivity|exact O]|constructor]|]. reflexivity. }
  destruct (evaluate_each two_agg p t M mv Hout Hid E) as [K1 K2]. destruct (K2 _ _ (or_introl eq_refl)) as (v & means & I & IR' & V').
  inversion IR' as [|? [k1 a1] ? ? [E1 O1'] IR2]; subst. inversion IR2; subst. cbn [fst snd] in *. subst k1.
  assert (a1 = [("t", m)]) as -> by (eapply own_mean_fun; [|exact O1'|exact O]; intros r Hr; apply (Hout s); [now left|exact Hr]).
  assert (v = [("t", m)]) as -> by (cbn in V'; congruence).
  exists [("t", m)]. split; [|reflexivity]. fold M. rewrite E. f_equal. destruct mv as [|[n0 v0] [|]]; try discriminate. destruct I as [[= -> ->]|[]]. reflexivity.
Qed.
(** Finding: documented as the "fraction of forecast that is (un)confident, (un)covered, and
    (un)jaccard-distant", the metric multiplies the separate fractions.  Of the two forecasts
    below the first is confident and covered, the second neither: the fraction of forecasts
    that are confident and covered is 1/2, the metric gives 1/4. *)
Theorem C61_joint_refuted : exists st1 st2 a,
  statistic_value (Confident ex_fmt "number" [("t", two_clim)] q1 q3 (Q2Qc (1 # 2))) [("t", two_pred)] [("t", two_obs)] "t" st1 /\
  statistic_value (Covered ex_fmt "number" q1 q3) [("t", two_pred)] [("t", two_obs)] "t" st2 /\
  dims st1 = [("valid_time", [LZ 0; LZ 1])] /\ dims st2 = dims st1 /\
  get st1 (at_t 0) = Fin 1 /\ get st2 (at_t 0) = Fin 1 /\ get st1 (at_t 1) = Fin 0 /\ get st2 (at_t 1) = Fin 0 /\
  metric_value (mkAgg ["valid_time"] [] [] false false) [("t", two_pred)] [("t", two_obs)]
    (Opportunism ex_fmt "number" [("t", two_clim)] true (Some true) None q1 q3 q1 q3 q1 q3 (Q2Qc (1 # 2)) (Q2Qc (3 # 4))) "t" a /\
  get a env0 = Fin (1 / 4).
Proof.
  destruct (two_computed (Q2Qc (1 # 2))) as (f1 & f2 & C1 & C2).
  exists (mkDa [("valid_time", two_times)] f1 []), (mkDa [("valid_time", two_times)] f2 []).
  set (s1 := Confident _ _ _ _ _ _) in *. set (s2 := Covered _ _ _ _) in *.
  assert (statistic_value s1 [("t", two_pred)] [("t", two_obs)] "t" (mkDa [("valid_time", two_times)] f1 [])) as V1 by (eexists; split; [exact C1|reflexivity]).
  assert (statistic_value s2 [("t", two_pred)] [("t", two_obs)] "t" (mkDa [("valid_time", two_times)] f2 [])) as V2 by (eexists; split; [exact C2|reflexivity]).
  assert (qr (Q2Qc (1 # 2)) = 1 / 2) as H12 by (unfold qr; cbn; unfold Q2R; cbn; lra).
  pose proof (two_quantiles_at 0 0 (or_introl (conj eq_refl eq_refl))) as Q0. pose proof (two_quantiles_at 1 40 (or_intror (conj eq_refl eq_refl))) as Q1.
  assert (f1 (at_t 0) = Fin 1) as A1.
  { destruct (C60_confident _ _ _ _ _ _ _ _ _ _ _ _ _ _ _ _ _ _ _ Q0 V1) as [[_ K]|[K _]]; [exact K|]. exfalso. apply K. rewrite H12. lra. }
  assert (f1 (at_t 1) = Fin 0) as A2.
  { destruct (C60_confident _ _ _ _ _ _ _ _ _ _ _ _ _ _ _ _ _ _ _ Q1 V1) as [[K _]|[_ K]]; [|exact K]. exfalso. rewrite H12 in K. lra. }
  assert (f2 (at_t 0) = Fin 1) as B1.
  { destruct Q0 as [N Hp Ht Hc W L Wc Nq Hx Hl Hh _]. destruct (C60_covered _ _ _ _ _ _ _ _ _ _ _ _ 0 _ _ N Hp Ht W V2 Hx eq_refl Hl Hh) as [[_ K]|[K _]]; [exact K|]. exfalso. apply K. lra. }
  assert (f2 (at_t 1) = Fin 0) as B2.
  { destruct Q1 as [N Hp Ht Hc W L Wc Nq Hx Hl Hh _]. destruct (C60_covered _ _ _ _ _ _ _ _ _ _ _ _ 100 _ _ N Hp Ht W V2 Hx eq_refl Hl Hh) as [[K _]|[_ K]]; [|exact K]. exfalso. lra. }
  destruct (eval_two s1 s2 f1 f2
    (fun s => do confident <- dgetE s "Confident"; let v0 := yes_no true confident in do v1 <- (do covered <- dgetE s "Covered"; Ok (binop vmul v0 (yes_no true covered))); Ok v1)
    (fun c k => binop vmul c k) [("t", two_pred)] [("t", two_obs)]) as [a Ha]; [intros E; discriminate E|exact C1|exact C2|reflexivity|].
  exists a. do 8 (split; [assumption || reflexivity|]). split; [exact Ha|].
  apply value_of_metric in Ha.
  - destruct Ha as (pv & HF & F). inversion F as [|? [n1 a1] ? ? [E1 (r1 & t1 & R1 & D1 & M1)] F2]; subst. inversion F2 as [|? [n2 a2] ? ? [E2 (r2 & t2 & R2 & D2 & M2)] F3]; subst. inversion F3; subst.
    cbn [fst snd] in *. subst n1 n2. rewrite C1 in R1. rewrite C2 in R2. assert (r1 = [("t", mkDa [("valid_time", two_times)] f1 [])]) as -> by congruence. assert (r2 = [("t", mkDa [("valid_time", two_times)] f2 [])]) as -> by congruence.
    cbn [dget fst snd] in D1, D2. destruct (eq_dec "t" "t"); [|contradiction]. assert (t1 = mkDa [("valid_time", two_times)] f1 []) as -> by congruence. assert (t2 = mkDa [("valid_time", two_times)] f2 []) as -> by congruence.
    destruct M1 as (x1 & y1 & X1 & ->), M2 as (x2 & y2 & X2 & ->).
    assert (forall f x y u w, aggregate_stat_var two_agg (mkDa [("valid_time", two_times)] f []) = Ok (Some (x, y)) -> f (at_t 0) = Fin u -> f (at_t 1) = Fin w -> get (binop vdiv x y) env0 = Fin ((u + w) / 2)) as G.
    { clear. intros f x y u w H Hu Hw. cbn -[binop vdiv] in H. injection H as <- <-. cbn -[vdiv vadd vmul at_t env0]. change (upd env0 "valid_time" (LZ 0)) with (at_t 0). change (upd env0 "valid_time" (LZ 1)) with (at_t 1). rewrite Hu, Hw.
      cbn [vmul vadd]. rewrite vdiv_Fin by lra. f_equal. field. }
    pose proof (G _ _ _ _ _ X1 A1 A2) as G1. pose proof (G _ _ _ _ _ X2 B1 B2) as G2. cbn -[binop vdiv vmul] in HF. injection HF as <-. cbn [get binop] in G1, G2 |- *. rewrite G1, G2. cbn [vmul]. f_equal. field.
  - intros s r [<-|[<-|[]]]; cbn [snd]; [rewrite C1|rewrite C2]; intros [= <-]; repeat constructor; intros [].
  - intros s s' [<-|[<-|[]]] [<-|[<-|[]]] E; cbn [snd] in *; try reflexivity; discriminate E.
  - repeat constructor; cbn; intuition discriminate.
Qed.
Print Assumptions C61_joint_refuted.
(** The hypotheses of [C61_product] are met here: half of the forecasts are confident, half
    are covered. *)
Example C61_example : exists a c k,
  metric_value two_agg [("t", two_pred)] [("t", two_obs)]
    (Opportunism ex_fmt "number" [("t", two_clim)] true (Some true) None q1 q3 q1 q3 q1 q3 (Q2Qc (1 # 2)) (Q2Qc (3 # 4))) "t" a /\
  metric_value two_agg [("t", two_pred)] [("t", two_obs)] (metric_of_statistic (Confident ex_fmt "number" [("t", two_clim)] q1 q3 (Q2Qc (1 # 2)))) "t" c /\
  metric_value two_agg [("t", two_pred)] [("t", two_obs)] (metric_of_statistic (Covered ex_fmt "number" q1 q3)) "t" k /\
  get c env0 = Fin (1 / 2) /\ get k env0 = Fin (1 / 2) /\ get a env0 = Fin (1 / 2 * (1 / 2)).
Proof.
  destruct C61_joint_refuted as (st1 & st2 & a & V1 & V2 & D1 & D2 & A1 & B1 & A2 & B2 & Ha & G).
  destruct (two_computed (Q2Qc (1 # 2))) as (f1 & f2 & C1 & C2).
  destruct V1 as (r1 & R1 & E1), V2 as (r2 & R2 & E2). rewrite C1 in R1. rewrite C2 in R2.
  assert (r1 = [("t", mkDa [("valid_time", two_times)] f1 [])]) as -> by congruence. assert (r2 = [("t", mkDa [("valid_time", two_times)] f2 [])]) as -> by congruence.
  cbn [dget fst snd] in E1, E2. destruct (eq_dec "t" "t"); [|contradiction]. assert (st1 = mkDa [("valid_time", two_times)] f1 []) as -> by congruence. assert (st2 = mkDa [("valid_time", two_times)] f2 []) as -> by congruence.
  destruct (single_value_exists _ _ _ _ C1) as (c & Hc & Gc), (single_value_exists _ _ _ _ C2) as (k & Hk & Gk).
  exists a, c, k. split; [exact Ha|]. split; [exact Hc|]. split; [exact Hk|].
  assert (get c env0 = Fin (1 / 2)) as Ec by (rewrite (Gc 1 0 A1 A2); f_equal; field). assert (get k env0 = Fin (1 / 2)) as Ek by (rewrite (Gk 1 0 B1 B2); f_equal; field).
  split; [exact Ec|]. split; [exact Ek|].
  assert (NoDup (keys [("t", two_pred)])) as N by (repeat constructor; intros []).
  rewrite (C61_product _ _ _ _ _ _ _ _ _ _ _ _ _ _ _ _ _ _ _ c k k env0 (1 / 2) (1 / 2) 0 N Ha Hc (fun _ => conj Hk Ek) (fun K => False_ind _ (K eq_refl)) Ec). cbn [share factor]. f_equal. ring.
Qed.
