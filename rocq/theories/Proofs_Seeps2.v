(** SEEPS of a variable, from the climatology to the masked score (C26). *)
From Coq Require Import String List Bool Reals Lra Permutation ZArith FunctionalExtensionality.
Import ListNotations.
From Verif Require Import Prelude Values Model_XArray Spec_XArray Proofs_XArray Model_MetricsBase Model_Aggregation
  Spec_Aggregator Proofs_Aggregator Model_Calendar Model_Deterministic Proofs_Deterministic Model_Categorical Spec_Reduce Proofs_Reduce Spec_Categorical Proofs_Categorical Proofs_Means Proofs_Seeps.
Local Open Scope R_scope.
Local Open Scope string_scope.
Local Open Scope list_scope.

Lemma coord_of_facts p n d f : wf p -> times_ok p -> In n ["init_time"; "lead_time"] -> coord_of p n = Some (d, f) ->
  NoDup (map fst d) /\ (forall k ls, In (k, ls) d -> In (k, ls) (dims p)) /\
  (forall e e', (forall k, In k (map fst d) -> e k = e' k) -> f e = f e') /\
  (forall e, time_at p n e = Some (time_value (f e))).
Proof.
  intros W T Hn H. unfold coord_of in H. unfold time_at. destruct (dget (dims p) n) as [ls|] eqn:E.
  - injection H as <- <-. split; [repeat constructor; auto|]. split; [intros k l [[= <- <-]|[]]; now apply dget_In|]. split; [|reflexivity].
    intros e e' H. apply H. now left.
  - destruct (dget (aux p) n) as [c|] eqn:Ec; [|discriminate]. injection H as <- <-. destruct (T n c Hn Ec) as [T1 T2]. split; [apply NoDup_map_filter, W|].
    split; [intros k ls Hk; apply filter_In in Hk; tauto|]. split; [|reflexivity]. intros e e' H. apply T2. intros k Hk. apply H.
    specialize (T1 k Hk). unfold dnames in T1. apply in_map_iff in T1. destruct T1 as ([k' ls] & E1 & Hin). cbn [fst] in E1. subst k'.
    apply in_map_iff. exists (k, ls). split; auto. apply filter_In. split; auto. cbn [fst]. now apply memb_In.
Qed.

Lemma wet_facts p wc wet : wf p -> wf wc -> times_ok p -> seeps_wet p wc = Ok wet ->
  wf wet /\ (forall n, In n (dnames wet) -> In n (dnames p) \/ In n (dnames wc)) /\
  (forall e, point_of (dims p) e -> point_outside ["dayofyear"; "hour"] wc e -> point_of (dims wet) e) /\
  (forall e, wet_threshold_at wc p e (get wet e)).
Proof.
  intros Wp Wc T H. unfold seeps_wet, seeps_valid_time in H.
  destruct (coord_of p "init_time") as [[d1 f1]|] eqn:E1; [|discriminate]. destruct (coord_of p "lead_time") as [[d2 f2]|] eqn:E2; [|discriminate]. cbn [bind] in H.
  apply coord_of_facts in E1; auto; [|simpl; auto]. apply coord_of_facts in E2; auto; [|simpl; auto].
  destruct E1 as (N1 & L1 & F1 & T1), E2 as (N2 & L2 & F2 & T2).
  set (ids := merge_dims inter_labels d1 d2) in *. unfold sel_points in H. destruct (forallb _ _); [|discriminate]. injection H as <-.
  assert (NoDup (map fst ids)) as NI by (now apply NoDup_merge).
  assert (forall k, In k (map fst ids) <-> In k (map fst d1) \/ In k (map fst d2)) as NM by (intros k; apply names_merge).
  assert (forall k, In k (map fst ids) -> In k (dnames p)) as IP.
  { intros k Hk. apply NM in Hk. unfold dnames. destruct Hk as [Hk|Hk]; apply in_map_iff in Hk; destruct Hk as (q & <- & Hq); apply in_map; destruct q; auto. }
  set (idx := [("dayofyear", fun e => LZ (dayofyear (time_value (LZ (time_value (f1 e) + time_value (f2 e)))))); ("hour", fun e => LZ (hour_of (time_value (LZ (time_value (f1 e) + time_value (f2 e))))))]).
  assert (forall e, (fun d => match dget idx d with Some f => f e | None => e d end) = upd (upd e "dayofyear" (LZ (dayofyear (time_value (f1 e) + time_value (f2 e))))) "hour" (LZ (hour_of (time_value (f1 e) + time_value (f2 e))))) as EV.
  { intros e. extensionality k. unfold idx, upd. cbn [dget]. destruct (string_dec k "hour") as [->|N]; [reflexivity|]. destruct (eq_dec k "dayofyear") as [->|N']; [reflexivity|].
    destruct (eq_dec k "hour"); [congruence|]. destruct (string_dec k "dayofyear"); congruence. }
  split; [split; [|split]|split; [|split]].
  - unfold dnames. cbn [dims]. rewrite map_app. apply NoDup_app_intro; [exact NI|apply NoDup_map_filter, Wc|].
    intros k Hk Hk'. apply in_map_iff in Hk'. destruct Hk' as (q & <- & Hq). apply filter_In in Hq. destruct Hq as [_ Hq]. apply andb_true_iff in Hq. destruct Hq as [_ Hq].
    apply negb_true_iff, memb_false in Hq. contradiction.
  - intros k ls Hin. cbn [dims] in Hin. apply in_app_iff in Hin. destruct Hin as [Hin|Hin].
    + unfold ids, merge_dims in Hin. apply in_app_iff in Hin. destruct Hin as [Hin|Hin].
      * apply in_map_iff in Hin. destruct Hin as ([k' l'] & E & Hin). cbn [fst snd] in E. apply L1 in Hin. apply (proj1 (proj2 Wp)) in Hin.
        destruct (dget d2 k'); injection E as <- <-; [now apply NoDup_filter|exact Hin].
      * apply filter_In in Hin. destruct Hin as [Hin _]. apply L2 in Hin. now apply (proj1 (proj2 Wp)) in Hin.
    + apply filter_In in Hin. destruct Hin as [Hin _]. now apply (proj1 (proj2 Wc)) in Hin.
  - intros e e' He. cbn [get]. unfold dnames in He. cbn [dims] in He. rewrite map_app in He.
    change (get wc (fun d => match dget idx d with Some f => f e | None => e d end) = get wc (fun d => match dget idx d with Some f => f e' | None => e' d end)). rewrite !EV.
    assert (f1 e = f1 e') as -> by (apply F1; intros k Hk; apply He; apply in_app_iff; left; apply NM; auto).
    assert (f2 e = f2 e') as -> by (apply F2; intros k Hk; apply He; apply in_app_iff; left; apply NM; auto).
    apply Wc. intros k Hk. unfold upd. destruct (string_dec k "hour"); [reflexivity|]. destruct (string_dec k "dayofyear"); [reflexivity|]. apply He. apply in_app_iff.
    destruct (in_dec string_dec k (map fst ids)) as [Hi|Hi]; [now left|right]. unfold dnames in Hk. apply in_map_iff in Hk. destruct Hk as (q & <- & Hq). apply in_map. apply filter_In. split; [exact Hq|].
    apply andb_true_iff. split; apply negb_true_iff; [|now apply memb_false].
    change (memb (fst q) ["dayofyear"; "hour"] = false). apply memb_false. simpl. intros [X|[X|[]]]; congruence.
  - intros n Hn. unfold dnames in Hn. cbn [dims] in Hn. rewrite map_app in Hn. apply in_app_iff in Hn. destruct Hn as [Hn|Hn]; [left; auto|right].
    unfold dnames. apply in_map_iff in Hn. destruct Hn as (q & <- & Hq). apply filter_In in Hq. now apply in_map.
  - intros e Hp Hc k ls Hin. cbn [dims] in Hin. apply in_app_iff in Hin. destruct Hin as [Hin|Hin].
    + revert k ls Hin. apply point_merge; intros k ls Hk; apply (Hp k ls); auto.
    + apply filter_In in Hin. destruct Hin as [Hin Hq]. apply andb_true_iff in Hq. destruct Hq as [Hq _]. apply negb_true_iff in Hq. change (memb k ["dayofyear"; "hour"] = false) in Hq. apply memb_false in Hq. now apply (Hc k ls).
  - intros e. exists (time_value (f1 e)), (time_value (f2 e)). split; [apply T1|]. split; [apply T2|]. cbn [get].
    change (get wc (fun d => match dget idx d with Some f => f e | None => e d end) = get wc (upd (upd e "dayofyear" (LZ (dayofyear (time_value (f1 e) + time_value (f2 e))))) "hour" (LZ (hour_of (time_value (f1 e) + time_value (f2 e)))))). now rewrite EV.
Qed.

Lemma Ok_inj {A} (a b : A) : Ok a = Ok b -> a = b.
Proof. now intros [= ->]. Qed.
Lemma seeps_diag' q f : seeps_error q f f = 0.
Proof. destruct f; reflexivity. Qed.
Definition cats_absent (a : da) : Prop := ~ In "forecast_cat" (dnames a) /\ ~ In "truth_cat" (dnames a).

Section Var.
  Variables (wc dc p t r : da) (thr lo hi : R) (e : env).
  Hypothesis W : forall a, In a [wc; dc; p; t] -> wf a.
  Hypothesis T : times_ok p.
  Hypothesis Nc : forall a, In a [wc; dc; p; t] -> ~ In "forecast_cat" (dnames a) /\ ~ In "truth_cat" (dnames a).
  Hypothesis Hp : point_of (dims p) e. Hypothesis Ht : point_of (dims t) e.
  Hypothesis Hwc : point_outside ["dayofyear"; "hour"] wc e. Hypothesis Hdc : point_outside ["dayofyear"; "hour"] dc e.
  Hypothesis Hr : seeps_var wc dc thr lo hi p t = Ok r.

  Lemma seeps_var_parts : exists wet p1,
    (forall a, In a [p; t; wet; p1] -> wf a /\ cats_absent a /\ point_of (dims a) e) /\
    wet_threshold_at wc p e (get wet e) /\
    get p1 e = vdiv (vsum (map (fun q => if isnan (get dc q) then Fin 0 else get dc q) (sum_points ["hour"; "dayofyear"] dc e)))
                           (vsum (map (fun q => b2v (negb (isnan (get dc q)))) (sum_points ["hour"; "dayofyear"] dc e))) /\
    get r e = (if vleb (Fin lo) (get p1 e) && vleb (get p1 e) (Fin hi) then
       get (da_dot ["forecast_cat"; "truth_cat"] [binop vmul (seeps_cat "forecast_cat" wet thr p) (seeps_cat "truth_cat" wet thr t); scoring_matrix p1]) e else NaN) /\
    exists m, dget (aux r) "mask" = Some m /\
      seeps_mask (fun e => vleb (Fin lo) (get p1 e) && vleb (get p1 e) (Fin hi)) (dnames p1) p t = Ok m.
  Proof.
    unfold seeps_var in Hr. destruct (seeps_wet p wc) as [wet|] eqn:Ew; [|discriminate]. cbn [bind] in Hr.
    destruct (mean_skipna ["hour"; "dayofyear"] dc) as [p1|] eqn:E1; [|discriminate]. cbn [bind] in Hr.
    unfold where_exact in Hr. destruct (shared_labels_eqb _ _); [|discriminate]. cbn [bind] in Hr.
    destruct (seeps_mask _ _ _ _) as [m|] eqn:Em; [|discriminate]. cbn [bind] in Hr. destruct (subsetb _ _); [|discriminate]. apply Ok_inj in Hr. subst r.
    destruct (wet_facts p wc wet) as (Ww & Nw & Pw & Gw); auto; try (apply W; simpl; auto).
    destruct (mean_skipna_Ok _ dc p1 (W dc ltac:(simpl; auto)) E1) as (W1 & N1 & P1 & G1).
    exists wet, p1. split; [|split; [|split; [|split]]].
    - intros a [<-|[<-|[<-|[<-|[]]]]].
      + split; [apply W; simpl; auto|]. split; [apply (Nc p); simpl; auto|exact Hp].
      + split; [apply W; simpl; auto|]. split; [apply (Nc t); simpl; auto 6|exact Ht].
      + split; [exact Ww|]. split; [|now apply Pw].
        split; intros H; apply Nw in H; destruct H as [H|H]; revert H; [apply (Nc p)|apply (Nc wc)|apply (Nc p)|apply (Nc wc)]; simpl; auto.
      + split; [exact W1|]. split; [split; intros H; apply N1 in H; destruct H as [H _]; revert H; apply (Nc dc); simpl; auto|].
        apply P1. intros d ls H. unfold keep in H. apply filter_In in H. destruct H as [H1 H2]. cbn [fst] in H2. apply negb_true_iff, memb_false in H2.
        apply (Hdc d ls H1). simpl in *. tauto.
    - apply Gw.
    - apply G1.
    - cbn [get]. unfold da_where_nan. cbn [binop get da_map]. rewrite vtruthy_b2v. reflexivity.
    - exists m. split; [|exact Em]. cbn [aux]. rewrite dget_dset. destruct (eq_dec "mask" "mask"); [reflexivity|contradiction].
  Qed.

  Lemma dry_fraction_value p1e q : dry_fraction_at dc e q ->
    p1e = vdiv (vsum (map (fun q => if isnan (get dc q) then Fin 0 else get dc q) (sum_points ["hour"; "dayofyear"] dc e)))
                           (vsum (map (fun q => b2v (negb (isnan (get dc q)))) (sum_points ["hour"; "dayofyear"] dc e))) -> p1e = Fin q.
  Proof.
    intros (P & HP & Ha) ->.
    assert (Permutation (sum_points ["hour"; "dayofyear"] dc e) P) as HPm.
    { destruct (sum_points_spec ["hour"; "dayofyear"] dc e (W dc ltac:(simpl; auto))) as [ND HI]. destruct HP as [ND' HI']. apply NoDup_Permutation; auto. intros x. rewrite HI, HI'. reflexivity. }
    rewrite (vsum_perm _ _ (Permutation_map _ HPm)). rewrite (vsum_perm _ _ (Permutation_map (fun q => b2v (negb (isnan (get dc q)))) HPm)).
    rewrite <- (map_map (get dc) (fun v => if isnan v then Fin 0 else v)), <- (map_map (get dc) (fun v => b2v (negb (isnan v)))). now apply valid_sums.
  Qed.

  Theorem seeps_value x y w q : get p e = Fin x -> get t e = Fin y -> wet_threshold_at wc p e (Fin w) -> dry_fraction_at dc e q ->
    thr / 1000 < w -> 0 < q < 1 -> lo <= q <= hi ->
    get r e = Fin (seeps_error q (cat_of (thr / 1000) w x) (cat_of (thr / 1000) w y)).
  Proof.
    intros Hx Hy Hw Hq H1 H2 H3. destruct seeps_var_parts as (wet & p1 & Ha & Hwet & Hp1 & Hg & _).
    apply (dry_fraction_value _ q Hq) in Hp1.
    assert (get wet e = Fin w) as Hwe.
    { destruct Hw as (i & l & Hi & Hl & ->). destruct Hwet as (i' & l' & Hi' & Hl' & ->). congruence. }
    rewrite Hg, Hp1, !vleb_Fin. rewrite (proj2 (Rleb_true lo q)), (proj2 (Rleb_true q hi)) by lra. cbn [andb].
    apply seeps_get; auto; try (apply Ha; simpl; auto); intros a Hin; apply Ha; exact Hin.
  Qed.
  (** A missing wet threshold: amounts above the dry threshold score 0. *)
  Theorem seeps_missing_threshold x y q : get p e = Fin x -> get t e = Fin y -> wet_threshold_at wc p e NaN -> dry_fraction_at dc e q ->
    thr / 1000 < x -> 0 < q < 1 -> lo <= q <= hi -> get r e = Fin 0.
  Proof.
    intros Hx Hy Hw Hq H1 H2 H3. destruct seeps_var_parts as (wet & p1 & Ha & Hwet & Hp1 & Hg & _).
    apply (dry_fraction_value _ q Hq) in Hp1.
    assert (get wet e = NaN) as Hwe.
    { destruct Hw as (i & l & Hi & Hl & ->). destruct Hwet as (i' & l' & Hi' & Hl' & ->). congruence. }
    rewrite Hg, Hp1, !vleb_Fin. rewrite (proj2 (Rleb_true lo q)), (proj2 (Rleb_true q hi)) by lra. cbn [andb].
    pose proof (seeps_terms p t wet p1 thr e (proj1 (Ha p ltac:(simpl; tauto))) (proj1 (Ha t ltac:(simpl; tauto))) (proj1 (Ha wet ltac:(simpl; tauto))) (proj1 (Ha p1 ltac:(simpl; tauto)))
      (fun a Hin => proj1 (proj2 (Ha a Hin))) (fun a Hin => proj2 (proj2 (Ha a Hin))) q (fun _ => 0) (fun f => match f with Dry => if Rleb y (thr / 1000) then 1 else 0 | _ => 0 end) Hp1 H2) as ST.
    rewrite Hx, Hy, Hwe in ST. rewrite (ST eq_refl eq_refl); clear ST.
    - f_equal. simpl. ring.
    - intros f. destruct f; unfold cat_flag; cbn [cat_names]; repeat (destruct (eq_dec _ _); try congruence).
      + rewrite vleb_Fin, (proj2 (Rleb_false x (thr / 1000))) by lra. reflexivity.
      + cbn [vltb]. rewrite andb_false_r. reflexivity.
      + reflexivity.
    - intros f. destruct f; unfold cat_flag; cbn [cat_names]; repeat (destruct (eq_dec _ _); try congruence).
      + rewrite vleb_Fin. unfold b2v. destruct (Rleb y (thr / 1000)); reflexivity.
      + cbn [vltb]. rewrite andb_false_r. reflexivity.
      + reflexivity.
  Qed.
  (** A wet threshold not above the dry one: amounts between them are both dry and heavy. *)
  Theorem seeps_overlap x w q : get p e = Fin x -> get t e = Fin x -> wet_threshold_at wc p e (Fin w) -> dry_fraction_at dc e q ->
    w <= x <= thr / 1000 -> 0 < q < 1 -> lo <= q <= hi -> get r e = Fin (seeps_error q Dry Heavy + seeps_error q Heavy Dry).
  Proof.
    intros Hx Hy Hw Hq H1 H2 H3. destruct seeps_var_parts as (wet & p1 & Ha & Hwet & Hp1 & Hg & _).
    apply (dry_fraction_value _ q Hq) in Hp1.
    assert (get wet e = Fin w) as Hwe.
    { destruct Hw as (i & l & Hi & Hl & ->). destruct Hwet as (i' & l' & Hi' & Hl' & ->). congruence. }
    rewrite Hg, Hp1, !vleb_Fin. rewrite (proj2 (Rleb_true lo q)), (proj2 (Rleb_true q hi)) by lra. cbn [andb].
    assert (forall f, cat_flag thr (Fin x) (Fin w) (cat_names f) = Fin (match f with Light => 0 | _ => 1 end)) as CF.
    { intros f. destruct f; unfold cat_flag; cbn [cat_names]; repeat (destruct (eq_dec _ _); try congruence).
      - rewrite vleb_Fin, (proj2 (Rleb_true x (thr / 1000))) by lra. reflexivity.
      - cbn [vltb]. rewrite (proj2 (Rltb_false (thr / 1000) x)) by lra. reflexivity.
      - rewrite vleb_Fin, (proj2 (Rleb_true w x)) by lra. reflexivity. }
    pose proof (seeps_terms p t wet p1 thr e (proj1 (Ha p ltac:(simpl; tauto))) (proj1 (Ha t ltac:(simpl; tauto))) (proj1 (Ha wet ltac:(simpl; tauto))) (proj1 (Ha p1 ltac:(simpl; tauto)))
      (fun a Hin => proj1 (proj2 (Ha a Hin))) (fun a Hin => proj2 (proj2 (Ha a Hin))) q (fun f => match f with Light => 0 | _ => 1 end) (fun f => match f with Light => 0 | _ => 1 end) Hp1 H2) as ST.
    rewrite Hx, Hy, Hwe in ST. rewrite (ST eq_refl eq_refl); clear ST; [|exact CF|exact CF].
    f_equal. unfold rsum. cbn [map fold_right fst snd]. rewrite !seeps_diag'. ring.
  Qed.
  Theorem seeps_out_of_range : (forall q, dry_fraction_at dc e q -> (q < lo \/ hi < q) -> get r e = NaN) /\ (get p e = NaN \/ get t e = NaN -> get r e = NaN).
  Proof.
    destruct seeps_var_parts as (wet & p1 & Ha & Hwet & Hp1 & Hg & _). split.
    - intros q Hq Hb. apply (dry_fraction_value _ q Hq) in Hp1. rewrite Hg, Hp1, !vleb_Fin. destruct (Rleb lo q) eqn:E1; [|reflexivity]. destruct (Rleb q hi) eqn:E2; [|reflexivity].
      apply Rleb_true in E1, E2. lra.
    - intros H. rewrite Hg. destruct (_ && _); [|reflexivity]. apply seeps_nan; auto; try (apply Ha; simpl; auto); intros a Hin; apply Ha; exact Hin.
  Qed.
  Theorem seeps_mask_value : exists m, dget (aux r) "mask" = Some m /\
    (dget (aux p) "mask" = None \/ dget (aux t) "mask" = None) /\
    forall q, dry_fraction_at dc e q ->
      c_get m e = LB ((if Rle_dec lo q then true else false) && (if Rle_dec q hi then true else false) &&
        match dget (aux p) "mask" with Some c => label_is_one (c_get c e) | None => true end &&
        match dget (aux t) "mask" with Some c => label_is_one (c_get c e) | None => true end).
  Proof.
    destruct seeps_var_parts as (wet & p1 & Ha & Hwet & Hp1 & Hg & m & Hm & HS). exists m. split; [exact Hm|].
    assert (forall q, dry_fraction_at dc e q -> vleb (Fin lo) (get p1 e) && vleb (get p1 e) (Fin hi) = (if Rle_dec lo q then true else false) && (if Rle_dec q hi then true else false)) as K.
    { intros q Hq. rewrite (dry_fraction_value _ q Hq Hp1), !vleb_Fin. unfold Rleb. reflexivity. }
    unfold seeps_mask in HS. destruct (dget (aux p) "mask") as [c|], (dget (aux t) "mask") as [c'|]; try discriminate; injection HS as <-; (split; [auto|]); intros q Hq; cbn [c_get]; rewrite (K q Hq), ?andb_true_r; reflexivity.
  Qed.
End Var.

(** Both inputs carrying a mask is refused. *)
Theorem seeps_two_masks wc dc thr lo hi p t c c' : dget (aux p) "mask" = Some c -> dget (aux t) "mask" = Some c' ->
  exists er, seeps_var wc dc thr lo hi p t = Err er.
Proof.
  intros H1 H2. unfold seeps_var. destruct (seeps_wet p wc); cbn [bind]; [|eauto]. destruct (mean_skipna _ dc); cbn [bind]; [|eauto].
  destruct (where_exact _ _); cbn [bind]; [|eauto]. unfold seeps_mask. rewrite H1, H2. cbn [bind]. eauto.
Qed.

Theorem seeps_equitable q f : 0 < q < 1 ->
  clim_freq q Dry * seeps_error q f Dry + clim_freq q Light * seeps_error q f Light + clim_freq q Heavy * seeps_error q f Heavy = 1.
Proof. intros H. destruct f; cbn; field; lra. Qed.
Theorem seeps_diag q f : seeps_error q f f = 0.
Proof. destruct f; reflexivity. Qed.
Theorem seeps_pos q f o : 0 < q < 1 -> f <> o -> 0 < seeps_error q f o.
Proof.
  intros H N. destruct f, o; try contradiction; cbn; repeat apply Rmult_lt_0_compat; try (apply Rinv_0_lt_compat); try lra.
  assert (0 < 1 / q) by (apply Rdiv_lt_0_compat; lra). assert (0 < 3 / (2 + q)) by (apply Rdiv_lt_0_compat; lra). lra.
Qed.

Lemma seeps_compute_spec clim p t : forall vs ds mins maxs acc out, length vs = length ds -> length ds = length mins -> length mins = length maxs ->
  seeps_compute vs ds mins maxs clim p t acc = Ok out -> NoDup vs ->
  (forall v, In v (keys out) <-> In v (keys acc) \/ In v vs) /\ (forall v, ~ In v vs -> dget out v = dget acc v) /\
  forall i v d lo hi, nth_error vs i = Some v -> nth_error ds i = Some d -> nth_error mins i = Some lo -> nth_error maxs i = Some hi ->
    exists pv tv wc dc r, dget p v = Some pv /\ dget t v = Some tv /\
      dget clim (v ++ "_seeps_threshold")%string = Some wc /\ dget clim (v ++ "_seeps_dry_fraction")%string = Some dc /\
      seeps_var wc dc d lo hi pv tv = Ok r /\ dget out v = Some r.
Proof.
  induction vs as [|v vs IH]; intros ds mins maxs acc out L1 L2 L3 H Hn.
  - destruct ds; [|discriminate]. cbn in H. injection H as <-. split; [simpl; tauto|]. split; [auto|]. intros [|i] ? ? ? ? E; discriminate E.
  - destruct ds as [|d ds]; [discriminate|]. destruct mins as [|mn mins]; [discriminate|]. destruct maxs as [|mx maxs]; [discriminate|].
    cbn [seeps_compute] in H. unfold dgetE in H.
    destruct (dget p v) as [pv|] eqn:Ep; cbn [bind] in H; [|discriminate]. destruct (dget t v) as [tv|] eqn:Et; cbn [bind] in H; [|discriminate].
    destruct (dget clim (v ++ "_seeps_threshold")%string) as [wc|] eqn:Ew; cbn [bind] in H; [|discriminate].
    destruct (dget clim (v ++ "_seeps_dry_fraction")%string) as [dc|] eqn:Ed; cbn [bind] in H; [|discriminate].
    destruct (seeps_var wc dc d mn mx pv tv) as [r|] eqn:Er; cbn [bind] in H; [|discriminate].
    apply NoDup_cons_iff in Hn. destruct Hn as [Hv Hn]. cbn [length] in *.
    destruct (IH ds mins maxs _ out ltac:(congruence) ltac:(congruence) ltac:(congruence) H Hn) as (K1 & K2 & K3). split; [|split].
    + intros k. rewrite K1, In_keys_dset. simpl. intuition congruence.
    + intros k Hk. rewrite K2 by (simpl in Hk; tauto). rewrite dget_dset. destruct (eq_dec k v) as [->|]; [|reflexivity]. exfalso. apply Hk. now left.
    + intros [|i] k d' lo hi E1 E2 E3 E4; cbn [nth_error] in *.
      * injection E1 as <-. injection E2 as <-. injection E3 as <-. injection E4 as <-. exists pv, tv, wc, dc, r. split; auto. split; auto. split; auto. split; auto. split; [exact Er|].
        rewrite K2 by exact Hv. rewrite dget_dset. destruct (eq_dec v v); [reflexivity|contradiction].
      * eapply K3; eauto.
Qed.
Theorem seeps_statistic : forall name vs clim ds mins maxs s p t out,
  SEEPS name vs clim ds mins maxs = Ok s -> compute s p t = Ok out -> NoDup vs ->
  (forall v, In v (keys out) <-> In v vs) /\
  forall i v d lo hi, nth_error vs i = Some v -> nth_error ds i = Some d -> nth_error mins i = Some lo -> nth_error maxs i = Some hi ->
    exists pv tv wc dc r, dget p v = Some pv /\ dget t v = Some tv /\
      dget clim (v ++ "_seeps_threshold")%string = Some wc /\ dget clim (v ++ "_seeps_dry_fraction")%string = Some dc /\
      seeps_var wc dc d lo hi pv tv = Ok r /\ dget out v = Some r.
Proof.
  intros name vs clim ds mins maxs s p t out Hs H Hn. unfold SEEPS in Hs. destruct (_ && _) eqn:E; [|discriminate]. apply Ok_inj in Hs. subst s. cbn [compute] in H.
  apply andb_true_iff in E. destruct E as [E E3]. apply andb_true_iff in E. destruct E as [E1 E2]. apply Nat.eqb_eq in E1, E2, E3.
  destruct (seeps_compute_spec clim p t vs ds mins maxs [] out E1 E2 E3 H Hn) as (K1 & _ & K3). split; [|exact K3]. intros v. rewrite K1. simpl. tauto.
Qed.
