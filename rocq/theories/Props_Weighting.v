(** C38: grid-area weights. *)
From Coq Require Import String ZArith QArith Qreals Qcanon Bool List Lia Permutation.
Import ListNotations.
From Verif Require Import Prelude Values Model_XArray Spec_XArray Proofs_XArray Model_Tree Model_Aggregation Spec_Aggregator Proofs_Aggregator Proofs_Aggregator2
  Model_Binning Spec_Binning Proofs_Binning Proofs_Binning3 Model_Weighting Spec_Weighting Proofs_Weighting Proofs_Weighting2
  Model_MetricsBase Spec_Metrics Spec_Means Proofs_Means.
From Coq Require Import Reals Rtrigo Lra.
Local Open Scope R_scope.
Local Open Scope string_scope.
Local Open Scope list_scope.

Lemma some_latitude labels lats l : Forall2 latitude labels lats -> In l labels -> exists x, latitude l x.
Proof. intros H I. induction H as [|l0 x ls xs H _ IH]; [destruct I|]. destruct I as [<-|I]; eauto. Qed.

(** Data without the latitude dimension are not weighted. *)
Theorem C38_no_latitude lat norm st : ~ In lat (dnames st) -> GridAreaWeighting lat norm st = Ok (scalar (Fin 1)).
Proof. intros H. unfold GridAreaWeighting. replace (dget (dims st) lat) with (@None (list label)); auto. symmetry. apply dget_None. exact H. Qed.

(** The weights: positive, one per latitude, the area of the cell around it (as a multiple of
    the mean area if normalised); they add up to the area of the zone the cells cover, or to
    their number (mean 1) if normalised. *)
Theorem C38_weights lat norm st labels lats w :
  wf st -> In (lat, labels) (dims st) -> Forall2 latitude labels lats -> in_range lats -> GridAreaWeighting lat norm st = Ok w ->
  wf w /\ dims w = [(lat, labels)] /\
  exists r south north, let total := zone_area south north in let N := INR (List.length labels) in
    grid_ends lats south north /\ 0 < total /\
    (forall e, In (e lat) labels -> get w e = Fin (r (e lat))) /\
    (forall l x, In l labels -> latitude l x -> 0 < r l /\
       exists a, cell_area lats x a /\ r l = if norm then a / (total / N) else a) /\
    rsum (map r labels) = if norm then N else total.
Proof.
  intros Wf Hd Hl Hr H. destruct Wf as (N0 & NL & _). pose proof (NL _ _ Hd) as ND.
  assert (dget (dims st) lat = Some labels) as Hg by (apply In_dget; auto).
  apply lats_of_spec in Hl. subst lats.
  destruct (proj1 (weights_iff lat norm st labels Hg ND) (ex_intro _ w H)) as [M L].
  destruct (weights_ok lat norm st labels Hg ND M L) as (w' & W & s & n & H' & D & LW & V & C & G & T & O). rewrite H in H'. injection H' as <-.
  split. { split; [unfold dnames; rewrite D; repeat constructor; cbn; tauto|]. split; [intros d ls I; rewrite D in I; destruct I as [[= <- <-]|[]]; auto|].
    intros e e' He. apply O, He. unfold dnames. rewrite D. left. auto. }
  split; auto.
  assert (forall l a, In (l, a) (combine labels W) -> 0 < a) as Pos.
  { intros l a I. apply (cell_area_pos (lats_of labels) (Q2R (lnum l))); auto. apply in_combine_l in I. apply (in_map (fun l => Q2R (lnum l))), I. }
  assert (W <> []) as NW by (destruct W; [cbn in LW; lia|discriminate]).
  assert (0 < rsum W) as PW.
  { apply rsum_pos_list; auto. intros a Ia. apply In_nth_error in Ia. destruct Ia as [i Hi].
    destruct (nth_error labels i) as [l|] eqn:El; [apply (Pos l); apply combine_nth_In; eauto|].
    apply nth_error_None in El. assert (i < List.length W)%nat by (apply nth_error_Some; congruence). lia. }
  set (g := fun a => if norm then a / (rsum W / INR (List.length labels)) else a).
  assert (0 < INR (List.length labels)) as PN by (apply lt_0_INR; lia).
  exists (fun l => match dget (combine labels W) l with Some a => g a | None => 0 end), s, n. cbv zeta.
  assert (forall l a, In (l, a) (combine labels W) -> dget (combine labels W) l = Some a) as DG.
  { intros l a I. apply In_dget; auto. unfold keys. rewrite combine_fst; auto. }
  assert (forall a, weight_value norm W a = Fin (g a)) as WV.
  { intros a. unfold weight_value, g. rewrite LW. destruct norm; auto. apply vdiv_Fin. apply Rgt_not_eq, Rdiv_lt_0_compat; auto. }
  split; auto. split; [lra|]. split; [|split].
  - intros e I. destruct (combine_total labels W (e lat) LW I) as [a Ia]. rewrite (V e (e lat) a eq_refl Ia), (DG _ _ Ia). apply WV.
  - intros l x Il (q & Hq & ->). destruct (combine_total labels W l LW Il) as [a Ia]. rewrite (DG _ _ Ia). pose proof (Pos _ _ Ia) as Pa. split.
    + unfold g. destruct norm; auto. apply Rdiv_lt_0_compat; auto. apply Rdiv_lt_0_compat; auto.
    + exists a. split; [|unfold g; rewrite T; auto]. apply is_number_lnum in Hq. rewrite <- (Qeq_eqR (lnum l) q) by (rewrite Hq; reflexivity). apply C, Ia.
  - rewrite (rsum_combine labels W _ g LW) by (intros l a Ia; rewrite (DG _ _ Ia); auto). unfold g. destruct norm.
    + rewrite (map_ext _ (fun a => / (rsum W / INR (List.length labels)) * a)) by (intros; unfold Rdiv; ring).
      rewrite (rsum_map_scale _ (fun a => a) W), map_id. field. lra.
    + rewrite map_id. auto.
Qed.

(** Cells reaching the poles cover the whole sphere. *)
Theorem C38_whole_sphere : zone_area (-90) 90 = 2.
Proof.
  unfold zone_area. replace (90 * PI / 180) with (PI / 2) by field. replace (-90 * PI / 180) with (- (PI / 2)) by field.
  rewrite sin_neg, sin_PI2. lra.
Qed.

(** The cell of each latitude is determined by the set of latitudes; it contains the latitude,
    stays on the sphere, and has positive area. *)
Theorem C38_cells lats x : in_range lats -> In x lats ->
  (forall s n, south_edge lats x s -> north_edge lats x n -> -90 <= s /\ s <= x <= n /\ n <= 90 /\ s < n /\ 0 < zone_area s n) /\
  (forall a a', cell_area lats x a -> cell_area lats x a' -> a = a') /\
  (forall y n s, next_north lats x y -> north_edge lats x n -> south_edge lats y s -> n = s).
Proof.
  intros R I. split; [|split].
  - intros s n S N. destruct (cell_edges lats x s n R I S N) as (A & B & C & D & E). repeat split; auto. apply zone_pos; lra.
  - intros a a'. apply cell_area_fun.
  - intros y n s H N S. assert (next_south lats y x) as H'.
    { destruct H as (A & B & C). split; auto. split; auto. intros z Hz Hlt. destruct (Rle_lt_dec z x); auto. specialize (C z Hz r). lra. }
    destruct N as [y' N|y' N _]; [|destruct H as (A & B & _); apply N in A; lra].
    destruct S as [x' S|x' S _]; [|destruct H' as (A & B & _); apply S in A; lra].
    rewrite (next_north_fun _ _ _ _ H N), (next_south_fun _ _ _ _ H' S). reflexivity.
Qed.

(** Orientation and order do not matter: two arrays with the same latitudes give each latitude
    the same weight. *)
Theorem C38_orientation lat norm st1 st2 labels1 labels2 lats1 lats2 w1 w2 :
  wf st1 -> wf st2 -> In (lat, labels1) (dims st1) -> In (lat, labels2) (dims st2) ->
  Forall2 latitude labels1 lats1 -> Forall2 latitude labels2 lats2 -> in_range lats1 ->
  Permutation labels1 labels2 ->
  GridAreaWeighting lat norm st1 = Ok w1 -> GridAreaWeighting lat norm st2 = Ok w2 ->
  forall e, In (e lat) labels1 -> get w1 e = get w2 e.
Proof.
  intros W1 W2 D1 D2 L1 L2 R P H1 H2 e I.
  assert (forall z, In z lats1 <-> In z lats2) as Q.
  { apply lats_of_spec in L1, L2. subst. intros z. unfold lats_of. split; apply Permutation_in; [|apply Permutation_sym]; apply Permutation_map; auto. }
  assert (in_range lats2) as R2 by (intros z Hz; apply R, Q, Hz).
  destruct (C38_weights _ _ _ _ _ _ W1 D1 L1 R H1) as (_ & _ & r1 & s1 & n1 & G1 & T1 & V1 & C1 & _).
  destruct (C38_weights _ _ _ _ _ _ W2 D2 L2 R2 H2) as (_ & _ & r2 & s2 & n2 & G2 & T2 & V2 & C2 & _).
  assert (In (e lat) labels2) as I2 by (eapply Permutation_in; eauto).
  rewrite V1, V2 by auto. f_equal.
  destruct (some_latitude _ _ _ L1 I) as [x Hx].
  destruct (C1 _ x I Hx) as (_ & a1 & A1 & ->). destruct (C2 _ x I2 Hx) as (_ & a2 & A2 & ->).
  assert (a1 = a2) as ->. { apply (cell_area_fun lats2 x); auto. apply (cell_area_perm lats1 lats2); auto. }
  destruct (grid_ends_fun lats2 s1 n1 s2 n2) as [-> ->]; auto. { apply (grid_ends_perm lats1); auto. }
  rewrite (Permutation_length P). reflexivity.
Qed.

(** Which inputs fail. *)
Theorem C38_errors lat norm st labels lats :
  wf st -> In (lat, labels) (dims st) -> Forall2 latitude labels lats ->
  ((exists w, GridAreaWeighting lat norm st = Ok w) <-> monotonic lats /\ (2 <= List.length lats)%nat) /\
  (~ monotonic lats -> GridAreaWeighting lat norm st = Err AssertionError) /\
  ((List.length lats < 2)%nat -> GridAreaWeighting lat norm st = Err IndexError).
Proof.
  intros (N0 & NL & _) Hd Hl. pose proof (NL _ _ Hd) as ND. assert (dget (dims st) lat = Some labels) as Hg by (apply In_dget; auto).
  apply lats_of_spec in Hl. subst lats. split; [|split].
  - rewrite (weights_iff lat norm st labels Hg ND). replace (List.length (lats_of labels)) with (List.length labels) by (symmetry; apply map_length). reflexivity.
  - intros NM. unfold GridAreaWeighting. rewrite Hg. change (map (fun l => Q2R (lnum l)) labels) with (lats_of labels).
    destruct (is_strictly_monotonic (lats_of labels)) eqn:M; auto. apply monotonic_iff in M. contradiction.
  - intros L. unfold GridAreaWeighting. rewrite Hg. change (map (fun l => Q2R (lnum l)) labels) with (lats_of labels).
    destruct (lats_of labels) as [|a [|b r]]; [reflexivity|reflexivity|cbn in L; lia].
Qed.

(** ** Normalisation does not change any mean. *)
Theorem C38_normalisation_irrelevant lat rd bins rest mk sk st s ws wrs ms bs m1 m2 e labels lats :
  let g b := mkAgg rd bins (GridAreaWeighting lat b :: rest) mk sk in
  mean_array (g true) st m1 -> mean_array (g false) st m2 ->
  In (lat, labels) (dims st) -> Forall2 latitude labels lats -> in_range lats ->
  weighted_input (g true) st s ws wrs ms bs -> (forall p, 0 <= point_weight (g true) st wrs bs p) ->
  point_of (dims m1) e -> point_of (dims m2) e ->
  get m1 e = get m2 e.
Proof.
  intros g M1 M2 Hd Hlat Hr W Hu E1 E2.
  pose proof (wi_wf _ _ _ _ _ _ _ W) as Wst.
  pose proof (wi_weights _ _ _ _ _ _ _ W) as Ww. cbn [weigh_by g mapM] in Ww.
  destruct (GridAreaWeighting lat true st) as [w1|] eqn:G1; [|discriminate]. cbn [bind] in Ww.
  destruct (mapM (fun w => w st) rest) as [wr|] eqn:Hwr; [|discriminate]. cbn [bind] in Ww. injection Ww as <-.
  pose proof (wi_real _ _ _ _ _ _ _ W) as Re. inversion Re as [|? r1 ? rr R1 Rr]; subst.
  destruct (proj1 (C38_errors lat true st labels lats Wst Hd Hlat)) as [X _]. specialize (X (ex_intro _ w1 G1)).
  destruct (proj2 (proj1 (C38_errors lat false st labels lats Wst Hd Hlat)) X) as [w2 G2].
  destruct (C38_weights lat true st labels lats w1 Wst Hd Hlat Hr G1) as (Wf1 & D1 & f1 & s1 & n1 & GE1 & T1 & V1 & C1 & _).
  destruct (C38_weights lat false st labels lats w2 Wst Hd Hlat Hr G2) as (Wf2 & D2 & f2 & s2 & n2 & GE2 & T2 & V2 & C2 & _).
  cbv zeta in T1, T2, C1, C2. destruct (grid_ends_fun lats s1 n1 s2 n2 GE1 GE2) as [<- <-]. set (c := INR (List.length labels) / zone_area s1 n1) in *.
  assert (forall l, In l labels -> f1 l = c * f2 l) as Sc.
  { intros l Il. destruct (some_latitude _ _ _ Hlat Il) as [x Hx].
    destruct (C1 l x Il Hx) as (_ & a1 & B1 & ->). destruct (C2 l x Il Hx) as (_ & a2 & B2 & ->). rewrite (cell_area_fun lats x a1 a2 B1 B2). unfold c. field.
    split; [lra|]. apply Rgt_not_eq, lt_0_INR. destruct labels; [destruct Il|cbn; lia]. }
  assert (forall p, In (p lat) labels -> r1 p = c * f2 (p lat)) as R1'.
  { intros p Il. specialize (R1 p). rewrite D1 in R1. rewrite V1 in R1 by auto.
    assert (Fin (f1 (p lat)) = Fin (r1 p)) as K. { apply R1. intros d ls [[= <- <-]|[]]. auto. } injection K as <-. apply Sc, Il. }
  assert (0 < c) as Hc.
  { unfold c. apply Rdiv_lt_0_compat; auto. apply lt_0_INR. apply lats_of_spec in Hlat. subst lats. destruct X as [_ X]. unfold lats_of in X. rewrite map_length in X. lia. }
  set (f2' := fun p : env => if memb (p lat) labels then f2 (p lat) else 0) in *.
  assert (weighted_input (g false) st s (w2 :: wr) (f2' :: rr) ms bs) as W2.
  { destruct W. constructor; auto.
    - intros w [<-|Hw]; [|apply wi_weights_coords; right; exact Hw]. intros a b Da Aa. unfold GridAreaWeighting. rewrite Da, Aa. reflexivity.
    - cbn [weigh_by g mapM]. rewrite G2. cbn [bind]. rewrite Hwr. reflexivity.
    - intros a [<-|Ia]; auto. apply wi_all_wf. right. auto.
    - constructor; auto. intros p Pp. rewrite D2 in Pp. assert (In (p lat) labels) as Il by (apply (Pp lat labels); left; auto). unfold f2'. rewrite (proj2 (memb_In _ _) Il). apply V2, Il. }
  assert (same_sample st st) as SS by (split; auto).
  destruct (joint_means (g true) st s _ _ ms bs m1 e W M1 E1) as (P1 & RP1 & In1 & J1).
  destruct (joint_means (g false) st s _ _ ms bs m2 e W2 M2 E2) as (P2 & RP2 & In2 & J2).
  destruct (J1 st s m1 SS (wi_finite _ _ _ _ _ _ _ W) M1) as (_ & F1 & Z1).
  destruct (J2 st s m2 SS (wi_finite _ _ _ _ _ _ _ W2) M2) as (_ & F2 & Z2). clear J1 J2.
  assert (Permutation P1 P2) as PP.
  { apply (reduced_perm (st :: (w1 :: wr) ++ ms) (st :: (w2 :: wr) ++ ms) rd e); auto.
    - intros d. cbn [app In]. split; intros (a & [<-|[<-|Ia]] & Id); try (exists a; now auto); try (exists st; now auto).
      + exists w2. split; auto. unfold dnames in *. rewrite D2, <- D1. auto.
      + exists w1. split; auto. unfold dnames in *. rewrite D1, <- D2. auto.
    - intros q. cbn [app In]. split; intros HH a d [<-|[<-|Ia]] Hrd Id; try (apply HH; now auto).
      + unfold dnames in *. rewrite D2 in *. rewrite <- D1 in *. apply (HH w1); auto.
      + unfold dnames in *. rewrite D1 in *. rewrite <- D2 in *. apply (HH w2); auto. }
  set (u1 := point_weight (g true) st (r1 :: rr) bs) in *. set (u2 := point_weight (g false) st (f2' :: rr) bs) in *.
  assert (forall p, In p P1 -> u1 p = c * u2 p) as Hpw.
  { intros p Ip. unfold u1, u2, point_weight. replace (counted (g false) st p) with (counted (g true) st p) by reflexivity.
    destruct (counted (g true) st p && _); [|lra]. cbn [map]. change (r1 p * rprod (map (fun r => r p) rr) = c * (f2' p * rprod (map (fun r => r p) rr))).
    pose proof (In1 p Ip lat labels Hd) as Il. rewrite R1' by auto. unfold f2'. rewrite (proj2 (memb_In _ _) Il). lra. }
  assert (rsum (map u1 P1) = c * rsum (map u2 P2)) as S1.
  { rewrite (rsum_map_ext u1 (fun p => c * u2 p) P1 Hpw), rsum_map_scale. f_equal. apply rsum_perm, Permutation_map, PP. }
  destruct (Req_dec (rsum (map u2 P2)) 0) as [Z|NZ].
  - rewrite Z1, Z2; auto.
    + intros q. specialize (Hu q). unfold u1, u2, point_weight in *. replace (counted (g false) st q) with (counted (g true) st q) by reflexivity.
      destruct (counted (g true) st q && _); [|lra]. cbn [map] in *.
      change (0 <= r1 q * rprod (map (fun r => r q) rr)) in Hu. change (0 <= f2' q * rprod (map (fun r => r q) rr)). unfold f2'.
      destruct (memb (q lat) labels) eqn:E; [|lra]. apply memb_In in E. rewrite R1' in Hu by auto. set (z := f2 (q lat) * _). assert (0 <= c * z) by (unfold z; lra). nra.
    + rewrite S1, Z. lra.
  - rewrite F1, F2; auto.
    + f_equal. unfold wavg. rewrite S1. rewrite (rsum_map_ext (fun q => u1 q * s q) (fun q => c * (u2 q * s q)) P1) by (intros q Iq; rewrite (Hpw q Iq); lra).
      rewrite rsum_map_scale. rewrite (rsum_perm (map (fun q => u2 q * s q) P1) (map (fun q => u2 q * s q) P2)) by (apply Permutation_map, PP). field. split; auto. lra.
    + rewrite S1. nra.
Qed.

(** ** A case meeting the hypotheses: a grid running southwards. *)
Section Example1.
  Let st := mkDa [("latitude", [LZ 90; LZ 30; LZ (-90)]); ("time", [LZ 0; LZ 1])] (fun _ => Fin 1) [].
  Example C38_example : wf st /\ In ("latitude", [LZ 90; LZ 30; LZ (-90)]) (dims st) /\ Forall2 latitude [LZ 90; LZ 30; LZ (-90)] [90; 30; -90] /\
    in_range [90; 30; -90] /\ (exists w, GridAreaWeighting "latitude" true st = Ok w /\ forall e, e "latitude" = LZ 90 -> get w e = Fin (3 / 2 * (1 - sin (PI / 3)))).
  Proof.
    assert (wf st) as W. { split; [repeat constructor; cbn; intuition discriminate|split; [|auto]]. intros d ls [[= <- <-]|[[= <- <-]|[]]]; repeat constructor; cbn; intuition discriminate. }
    assert (Forall2 latitude [LZ 90; LZ 30; LZ (-90)] [90; 30; -90]) as F.
    { repeat constructor; (eexists; split; [apply number_Z|]); unfold inject_Z, Q2R; cbn [Qnum Qden]; field. }
    assert (in_range [90; 30; -90]) as IR by (intros x [<-|[<-|[<-|[]]]]; lra).
    split; auto. split; [left; auto|]. split; auto. split; auto.
    destruct (proj1 (C38_errors "latitude" true st _ _ W (or_introl eq_refl) F)) as [_ X].
    destruct X as [w Hw]; [split; [right; repeat constructor; lra|cbn; lia]|]. exists w. split; auto. intros e He.
    destruct (C38_weights "latitude" true st _ _ w W (or_introl eq_refl) F IR Hw) as (_ & _ & r & s & n & G & T & V & C & _).
    rewrite V by (rewrite He; left; auto). rewrite He. destruct (C (LZ 90) 90) as (_ & a & A & ->); [left; auto|exists (inject_Z 90); split; [apply number_Z|unfold inject_Z, Q2R; cbn [Qnum Qden]; field]|].
    assert (next_south [90; 30; -90] 90 30) as NS. { split; [cbn; auto|]. split; [lra|]. intros z [<-|[<-|[<-|[]]]] Hz; lra. }
    assert (next_north [90; 30; -90] (-90) 30) as NN. { split; [cbn; auto|]. split; [lra|]. intros z [<-|[<-|[<-|[]]]] Hz; lra. }
    assert (forall z, In z [90; 30; -90] -> z <= 90) as Hi by (intros z [<-|[<-|[<-|[]]]]; lra).
    assert (forall z, In z [90; 30; -90] -> -90 <= z) as Lo by (intros z [<-|[<-|[<-|[]]]]; lra).
    assert (grid_ends [90; 30; -90] (Rmax (-90 - (30 - -90) / 2) (-90)) (Rmin (90 + (90 - 30) / 2) 90)) as G'.
    { exists (-90), 90. split; [cbn; auto|]. split; auto. split; [apply south_outer; auto|]. split; [cbn; auto|]. split; auto. apply north_outer; auto. }
    destruct (grid_ends_fun _ _ _ _ _ G G') as [-> ->]. rewrite Rmax_right, Rmin_right by lra. rewrite C38_whole_sphere.
    assert (cell_area [90; 30; -90] 90 (zone_area ((30 + 90) / 2) (Rmin (90 + (90 - 30) / 2) 90))) as A'.
    { eexists; eexists. split; [apply south_inner; exact NS|]. split; [apply north_outer; [auto|exact NS]|reflexivity]. }
    rewrite (cell_area_fun _ _ _ _ A A'). rewrite Rmin_right by lra. unfold zone_area. f_equal.
    replace (90 * PI / 180) with (PI / 2) by field. replace ((30 + 90) / 2 * PI / 180) with (PI / 3) by field. rewrite sin_PI2. cbn [List.length INR]. field.
  Qed.
End Example1.

Print Assumptions C38_no_latitude. Print Assumptions C38_weights. Print Assumptions C38_whole_sphere. Print Assumptions C38_cells.
Print Assumptions C38_orientation. Print Assumptions C38_errors. Print Assumptions C38_normalisation_irrelevant.
