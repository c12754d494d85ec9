(** C32: the fractions skill score. *)
From Coq Require Import String ZArith List Bool Reals Lia Lra Permutation FunctionalExtensionality.
Import ListNotations.
From Verif Require Import Prelude Values Model_XArray Spec_XArray Proofs_XArray Model_Tree Model_MetricsBase Model_Aggregation Spec_Aggregator Spec_Metrics Proofs_Metrics Spec_Means Proofs_Means
  Model_Deterministic Proofs_Deterministic Proofs_Categorical Spec_Statistic Model_Ensemble Proofs_Ensemble2 Proofs_Baseline Model_Wrappers Model_Interp
  Spec_Interp Model_Spatial Spec_Spatial Proofs_Spatial Props_Spatial.
From Verif Require Import Proofs_Loaders Proofs_Aggregator.
From Coq Require Import Reals Lra.
Local Open Scope R_scope.
Local Open Scope string_scope.
Local Open Scope list_scope.

Definition averaged_dims (s : sizes) (ds : dimlist) : dimlist :=
  (match s with One _ => [] | Many ns => [("neighborhood_size", map LZ ns)] end) ++
  keep (fun d => negb (memb d lat_lon)) ds ++ [("latitude", labels_of ds "latitude"); ("longitude", labels_of ds "longitude")].
(** All values real and not negative. *)
Definition nonnegative (a : da) : Prop := forall e, point_of (dims a) e -> exists y, get a e = Fin y /\ 0 <= y.
(** Sizes that can be concatenated along a new dimension. *)
Definition proper_sizes (s : sizes) (a : da) : Prop :=
  match s with One _ => True | Many ns => NoDup ns /\ ~ In "neighborhood_size" (dnames a) end.

Lemma single_shape a n w b : wf a -> dget (aux a) "mask" = None -> neighborhood_averaging_for_single_size a n w = Ok b ->
  dims b = averaged_dims (One n) (dims a) /\ aux b = aux a /\ wf b.
Proof.
  intros W M H. destruct (single_Ok _ _ _ _ H) as (b0 & H0 & _ & _ & E). specialize (E M). subst b0.
  destruct (core_Ok _ _ _ _ H0) as (lats & lons & h & [G1 G2] & -> & D & A & Ge).
  assert (dims b = averaged_dims (One (odd_size h)) (dims a)) as D' by (unfold averaged_dims; cbn [app]; rewrite D; unfold labels_of; now rewrite G1, G2).
  split; [exact D'|]. split; [exact A|]. destruct W as (N & L & X). split; [|split].
  - unfold dnames. rewrite D, map_app. apply NoDup_app_intro.
    + now apply keep_NoDup.
    + repeat constructor; cbn; intuition discriminate.
    + intros k Hk [<-|[<-|[]]]; apply in_map_iff in Hk; destruct Hk as ([k' m] & E & Hk); cbn in E; subst; unfold keep in Hk; apply filter_In in Hk; cbn in Hk; destruct Hk; discriminate.
  - intros d ls Hd. rewrite D in Hd. apply in_app_or in Hd. destruct Hd as [Hd|[[= <- <-]|[[= <- <-]|[]]]].
    + unfold keep in Hd. apply filter_In in Hd. destruct Hd as [Hd _]. exact (L _ _ Hd).
    + exact (L _ _ (dget_In _ _ G1)).
    + exact (L _ _ (dget_In _ _ G2)).
  - intros e e' E. rewrite Ge. assert (forall d, In d (dnames a) -> e d = e' d) as E2.
    { intros d Hd. apply E. unfold dnames. rewrite D, map_app. apply in_or_app. destruct (memb d lat_lon) eqn:M'.
      - right. apply memb_In in M'. cbn in *. tauto.
      - left. destruct (keys_dget _ _ Hd) as [m Hm]. apply in_map_iff. exists (d, m). split; [reflexivity|]. unfold keep. apply filter_In. split; [exact (dget_In _ _ Hm)|]. cbn [fst]. now rewrite M'. }
    rewrite (E2 "latitude") by exact (dget_Some_keys _ _ G1). rewrite (E2 "longitude") by exact (dget_Some_keys _ _ G2).
    assert ((fun i j => get a (upd (upd e "latitude" (nth i lats (LZ 0))) "longitude" (nth j lons (LZ 0)))) = (fun i j => get a (upd (upd e' "latitude" (nth i lats (LZ 0))) "longitude" (nth j lons (LZ 0))))) as ->; [|reflexivity].
    apply functional_extensionality. intros i. apply functional_extensionality. intros j. apply X. intros d Hd. unfold upd. destruct (string_dec d "longitude"); [reflexivity|]. destruct (string_dec d "latitude"); [reflexivity|]. now apply E2.
Qed.
Lemma neighbours_points a lats lons h wrap e i j : grid a lats lons -> inside h wrap lats lons i j -> at_position lats lons e i j ->
  (forall d ls, In (d, ls) (dims a) -> d <> "latitude" -> d <> "longitude" -> In (e d) ls) -> NoDup (dnames a) ->
  forall q, In q (neighbours h lats lons e i j) -> point_of (dims a) q.
Proof.
  intros [G1 G2] (I1 & I2 & I3) [P1 P2] Hd N q Hq. unfold neighbours in Hq. apply in_map_iff in Hq. destruct Hq as ((oi & oj) & <- & Ho). unfold square in Ho. apply in_prod_iff in Ho. destruct Ho as [H1 H2]. apply In_offsets in H1, H2.
  assert (j < length lons)%nat as Hj by (apply nth_error_Some; congruence). intros d ls Hin. unfold moved. destruct (string_dec d "longitude") as [->|N1].
  - rewrite upd_same. rewrite (In_dget _ _ _ N Hin) in G2. injection G2 as ->. apply nth_In. pose proof (Z.mod_pos_bound (Z.of_nat j + oj) (Z.of_nat (length lons))). cbn [snd]. lia.
  - rewrite upd_other by exact N1. destruct (string_dec d "latitude") as [->|N2].
    + rewrite upd_same. rewrite (In_dget _ _ _ N Hin) in G1. injection G1 as ->. apply nth_In. cbn [fst]. lia.
    + rewrite upd_other by exact N2. now apply Hd.
Qed.
Lemma single_nonneg a n w b : wf a -> dget (aux a) "mask" = None -> neighborhood_averaging_for_single_size a n w = Ok b -> nonnegative a -> nonnegative b.
Proof.
  intros W M H Nn e P. destruct (single_shape _ _ _ _ W M H) as (D & _ & _). destruct (single_Ok _ _ _ _ H) as (b0 & H0 & _ & _ & E). specialize (E M). subst b0.
  destruct (core_Ok _ _ _ _ H0) as (lats & lons & h & G & -> & D0 & _ & _). rewrite D0 in P.
  assert (In (e "latitude") lats) as L1 by (apply (P "latitude"); apply in_or_app; right; now left). assert (In (e "longitude") lons) as L2 by (apply (P "longitude"); apply in_or_app; right; right; now left).
  destruct (In_nth_error _ _ L1) as [i Hi]. destruct (In_nth_error _ _ L2) as [j Hj]. assert (at_position lats lons e i j) as Pos by (split; assumption).
  assert (forall d ls, In (d, ls) (dims a) -> d <> "latitude" -> d <> "longitude" -> In (e d) ls) as Others.
  { intros d ls Hd N1 N2. apply P. apply in_or_app. left. unfold keep. apply filter_In. split; [exact Hd|]. cbn [fst]. assert (memb d lat_lon = false) as ->; [|reflexivity]. apply memb_false. cbn. intuition. }
  assert (forall q, In q (neighbours h lats lons e i j) -> inside h w lats lons i j -> exists y, get a q = Fin y /\ 0 <= y) as Nq.
  { intros q Hq I. apply Nn. eapply (neighbours_points a lats lons h w e i j); eauto. apply W. }
  destruct (C32_average a h w b lats lons e i j W G H Pos) as (A0 & A1 & A2).
  assert (inside h w lats lons i j \/ ~ inside h w lats lons i j) as [I|I].
  { unfold inside. destruct (le_dec h i), (lt_dec (i + h) (length lats)), w, (le_dec h j), (lt_dec (j + h) (length lons)); first [left; tauto|right; intros (? & ? & [?|[? ?]]); congruence || tauto]. }
  - destruct (A2 I) as [A3 _]. set (r := fun q => match get a q with Fin y => y | _ => 0 end). exists (average (map r (neighbours h lats lons e i j))). split.
    + apply A3. intros q Hq. destruct (Nq q Hq I) as (y & E & _). unfold r. now rewrite E.
    + unfold average. apply Rmult_le_pos; [apply rsum_map_nonneg; intros q Hq; destruct (Nq q Hq I) as (y & E & Hy); unfold r; now rewrite E|]. apply Rlt_le, Rinv_0_lt_compat, lt_0_INR. rewrite map_length, neighbours_length. lia.
  - destruct (Nat.eq_dec h 0) as [->|Nh].
    + rewrite (A0 eq_refl). apply Nn. intros d ls Hd. destruct (string_dec d "longitude") as [->|N1]; [|destruct (string_dec d "latitude") as [->|N2]; [|now apply Others]].
      * destruct G as [_ G2]. rewrite (In_dget _ _ _ (proj1 W) Hd) in G2. injection G2 as ->. exact L2.
      * destruct G as [G1 _]. rewrite (In_dget _ _ _ (proj1 W) Hd) in G1. injection G1 as ->. exact L1.
    + exists 0. split; [now apply A1|lra].
Qed.

Lemma concat_sizes_Ok d parts b : concat_sizes d parts = Ok b -> exists l0 a0, In (l0, a0) parts /\
  dims b = (d, map fst parts) :: dims a0 /\ get b = (fun e => match pick d parts e with Some b => get b e | None => NaN end) /\
  aux b = map (fun nc => (fst nc,
                   if forallb (fun lb => match dget (aux (snd lb)) (fst nc) with Some c => coord_eqb (dims a0) (snd nc) c | None => false end) parts
                   then snd nc
                   else mkCoord (d :: c_dims (snd nc))
                          (fun e => match pick d parts e with
                                    | Some b => match dget (aux b) (fst nc) with Some c => c_get c e | None => c_get (snd nc) e end
                                    | None => c_get (snd nc) e end))) (aux a0).
Proof. destruct parts as [|[l0 a0] parts]; [discriminate|]. unfold concat_sizes. intros [= <-]. exists l0, a0. repeat split. now left. Qed.
Lemma averaging_shape a s w b : good a -> dget (aux a) "mask" = None -> proper_sizes s a -> neighborhood_averaging a s w = Ok b ->
  dims b = averaged_dims s (dims a) /\ aux b = aux a /\ wf b /\ (nonnegative a -> nonnegative b).
Proof.
  intros [W Na] M Ps H. destruct s as [n|ns].
  - destruct (single_shape _ _ _ _ W M H) as (D & A & Wb). split; [exact D|]. split; [exact A|]. split; [exact Wb|]. now apply (single_nonneg a n w b).
  - destruct Ps as [Nns Nd]. cbn [neighborhood_averaging] in H. destruct (mapM _ ns) as [parts|] eqn:Em; [|discriminate]. cbn [bind] in H.
    apply mapM_Ok_Forall2 in Em. assert (Forall2 (fun n lb => fst lb = LZ n /\ neighborhood_averaging_for_single_size a n w = Ok (snd lb)) ns parts) as F.
    { clear - Em. induction Em as [|n [l x] ns parts E Em IH]; constructor; [|exact IH]. destruct (neighborhood_averaging_for_single_size a n w) as [y|]; [|discriminate]. cbn [bind] in E. injection E as <- <-. auto. }
    clear Em. assert (forall lb, In lb parts -> dims (snd lb) = averaged_dims (One 0) (dims a) /\ aux (snd lb) = aux a /\ wf (snd lb) /\ (nonnegative a -> nonnegative (snd lb))) as Sh.
    { clear - F W M. induction F as [|n lb ns parts [_ E] F IH]; [intros ? []|]. intros lb' [<-|Hin]; [|auto]. destruct (single_shape _ _ _ _ W M E) as (D & A & Wb). repeat split; auto; try apply Wb. now apply (single_nonneg a n w (snd lb)). }
    assert (map fst parts = map LZ ns) as Lb. { clear - F. induction F as [|n lb ns parts [E _] F IH]; [reflexivity|]. cbn [map]. now rewrite E, IH. }
    destruct (concat_sizes_Ok _ _ _ H) as (l0 & a0 & In0 & Db & Gb & Ab). destruct (Sh _ In0) as (D0 & A0 & W0 & _). cbn [snd] in *.
    split; [|split; [|split]].
    + rewrite Db, D0, Lb. reflexivity.
    + rewrite Ab, A0. rewrite <- (List.map_id (aux a)) at 2. apply map_ext_in. intros [k c] Hk. cbn [fst snd]. f_equal.
      match goal with |- context [forallb ?f ?l] => rewrite (proj2 (forallb_forall f l)); [reflexivity|] end. intros lb Hl. destruct (Sh lb Hl) as (_ & -> & _). rewrite (In_dget _ _ _ Na Hk). apply coord_eqb_refl.
    + assert (~ In "neighborhood_size" (dnames a0)) as Nd0.
      { unfold dnames. rewrite D0. unfold averaged_dims. cbn [app]. rewrite map_app. intros Q. apply in_app_or in Q. destruct Q as [Q|Q]; [|cbn in Q; intuition discriminate]. apply Nd. apply in_map_iff in Q. destruct Q as (kv & E & Q). unfold keep in Q. apply filter_In in Q. apply in_map_iff. exists kv. tauto. }
      split; [|split].
      * unfold dnames. rewrite Db. cbn [map fst]. constructor; [exact Nd0|apply W0].
      * intros d ls Hd. rewrite Db in Hd. destruct Hd as [[= <- <-]|Hd]; [|destruct W0 as (_ & L & _); exact (L _ _ Hd)]. rewrite Lb. apply FinFun.Injective_map_NoDup; [intros x y Q; now injection Q|exact Nns].
      * intros e e' E. unfold dnames in E. rewrite Db in E. rewrite Gb. unfold pick. rewrite (E "neighborhood_size") by (cbn; auto). destruct (dget parts (e' "neighborhood_size")) as [x|] eqn:Eb; [|reflexivity].
        apply dget_In in Eb. destruct (Sh _ Eb) as (Dx & _ & (_ & _ & X) & _). apply X. intros d Hd. apply E. cbn [map fst]. right. unfold dnames in Hd. cbn [snd] in Hd, Dx. rewrite Dx in Hd. rewrite D0. exact Hd.
    + intros Nn e P. rewrite Db in P. rewrite Gb. unfold pick. pose proof (P "neighborhood_size" _ (or_introl eq_refl)) as P1. destruct (dget parts (e "neighborhood_size")) as [x|] eqn:Eb.
      * apply dget_In in Eb. destruct (Sh _ Eb) as (Dx & _ & _ & Nb). apply (Nb Nn). cbn [snd] in Dx. cbn [snd]. rewrite Dx, <- D0. intros d ls Hd. apply P. now right.
      * exfalso. apply keys_dget in P1. destruct P1 as [x Hx]. congruence.
Qed.

(** ** The score *)
Lemma merge_absorb (ds1 ds2 : dimlist) : NoDup (map fst ds1) -> (forall k l, In (k, l) ds2 -> In (k, l) ds1) -> NoDup (map fst ds2) -> merge_dims inter_labels ds1 ds2 = ds1.
Proof.
  intros N1 H N2. unfold merge_dims. assert (filter (fun p => negb (memb (fst p) (map fst ds1))) ds2 = []) as ->.
  { assert (forall p, In p ds2 -> negb (memb (fst p) (map fst ds1)) = false) as K. { intros [k l] Hp. apply negb_false_iff. apply memb_In. apply in_map_iff. exists (k, l). auto. }
    clear H N2. induction ds2 as [|p ds2 IH]; [reflexivity|]. cbn [filter]. rewrite (K p (or_introl eq_refl)). apply IH. intros; apply K; now right. }
  rewrite app_nil_r. rewrite <- (List.map_id ds1) at 2. apply map_ext_in. intros [k l] Hk. cbn [fst snd]. destruct (dget ds2 k) as [l2|] eqn:E; [|reflexivity].
  apply dget_In in E. apply H in E. apply (In_dget _ _ _ N1) in E. apply (In_dget _ _ _ N1) in Hk. rewrite E in Hk. injection Hk as ->. now rewrite inter_self.
Qed.
Lemma averaged_dims_In s ds k l : NoDup (map fst ds) -> In "latitude" (map fst ds) -> In "longitude" (map fst ds) -> In (k, l) ds -> In (k, l) (averaged_dims s ds).
Proof.
  intros N _ _ H. unfold averaged_dims. apply in_or_app. right. apply in_or_app. destruct (memb k lat_lon) eqn:E.
  - right. apply memb_In in E. unfold labels_of. cbn [lat_lon In] in E. destruct E as [<-|[<-|[]]]; rewrite (In_dget _ _ _ N H); cbn; auto.
  - left. unfold keep. apply filter_In. split; [exact H|]. cbn [fst]. now rewrite E.
Qed.
Lemma averaging_grid a s w b : neighborhood_averaging a s w = Ok b -> In "latitude" (dnames a) /\ In "longitude" (dnames a).
Proof.
  assert (forall n b, neighborhood_averaging_for_single_size a n w = Ok b -> In "latitude" (dnames a) /\ In "longitude" (dnames a)) as S.
  { intros n b' H. destruct (single_Ok _ _ _ _ H) as (b0 & H0 & _). destruct (core_Ok _ _ _ _ H0) as (lats & lons & _ & [G1 G2] & _). split; [exact (dget_Some_keys _ _ G1)|exact (dget_Some_keys _ _ G2)]. }
  destruct s as [n|ns]; [apply S|]. cbn [neighborhood_averaging]. intros H. destruct ns as [|n ns]; [discriminate|]. cbn [mapM] in H. destruct (neighborhood_averaging_for_single_size a n w) eqn:E; [|discriminate]. exact (S _ _ E).
Qed.
Definition real_of (a : da) (q : env) : R := match get a q with Fin y => y | _ => 0 end.
Lemma nonneg_real a q : nonnegative a -> point_of (dims a) q -> get a q = Fin (real_of a q) /\ 0 <= real_of a q.
Proof. intros N P. destruct (N q P) as (y & E & H). unfold real_of. now rewrite E. Qed.

Lemma three_samples s w pv tv p' t' : good pv -> good tv -> dims tv = dims pv -> aux tv = aux pv -> dget (aux pv) "mask" = None -> proper_sizes s pv ->
  neighborhood_averaging pv s w = Ok p' -> neighborhood_averaging tv s w = Ok t' ->
  let sfe := da_map vsq (binop vsub p' t') in let spf := binop vadd (da_map vsq p') (zeros_like tv) in let stf := binop vadd (da_map vsq t') (zeros_like pv) in
  dims t' = dims p' /\ dims sfe = dims p' /\ (dims spf = dims sfe /\ aux spf = aux sfe /\ wf spf) /\ (dims stf = dims sfe /\ aux stf = aux sfe /\ wf stf).
Proof.
  intros Gp Gt D A M Ps Hp Ht sfe spf stf. assert (proper_sizes s tv) as Pt by (destruct s; [exact I|]; unfold proper_sizes, dnames in *; rewrite D; exact Ps). assert (dget (aux tv) "mask" = None) as Mt by (now rewrite A).
  destruct (averaging_shape pv s w p' Gp M Ps Hp) as (D1 & A1 & W1 & _). destruct (averaging_shape tv s w t' Gt Mt Pt Ht) as (D2 & A2 & W2 & _). rewrite D in D2. rewrite A in A2.
  destruct (averaging_grid _ _ _ _ Hp) as [L1 L2]. assert (NoDup (dnames pv)) as N by apply Gp.
  assert (merge_dims inter_labels (dims p') (dims t') = dims p') as E1. { rewrite D1, D2. apply merge_absorb; auto; rewrite <- D1; apply W1. }
  assert (merge_dims inter_labels (dims p') (dims tv) = dims p') as E2. { apply merge_absorb; [apply W1| |rewrite D; exact N]. intros k l Hk. rewrite D1. apply averaged_dims_In; auto. rewrite <- D. exact Hk. }
  assert (merge_dims inter_labels (dims t') (dims pv) = dims p') as E3. { rewrite D1, <- D2. apply merge_absorb; [apply W2| |exact N]. intros k l Hk. rewrite D2. apply averaged_dims_In; auto. }
  assert (NoDup (keys (aux pv))) as Na by apply Gp.
  split; [congruence|]. unfold sfe, spf, stf. split; [exact E1|]. split; (split; [|split]).
  - change (merge_dims inter_labels (dims p') (dims tv) = merge_dims inter_labels (dims p') (dims t')). congruence.
  - change (merge_aux (merge_dims inter_labels (dims p') (dims tv)) (aux p') (aux tv) = merge_aux (merge_dims inter_labels (dims p') (dims t')) (aux p') (aux t')). rewrite A1, A2, A, !merge_aux_self by exact Na. reflexivity.
  - apply wf_binop; [now apply wf_map|apply wf_map, Gt].
  - change (merge_dims inter_labels (dims t') (dims pv) = merge_dims inter_labels (dims p') (dims t')). congruence.
  - change (merge_aux (merge_dims inter_labels (dims t') (dims pv)) (aux t') (aux pv) = merge_aux (merge_dims inter_labels (dims p') (dims t')) (aux p') (aux t')). rewrite A1, A2, !merge_aux_self by exact Na. reflexivity.
  - apply wf_binop; [now apply wf_map|apply wf_map, Gp].
Qed.

Theorem C32_fss : forall s w g p t v pv tv p' t' sfe d0 ws wrs ms bs m0 a e,
  NoDup (keys p) -> dget p v = Some pv -> dget t v = Some tv -> good pv -> good tv -> dims tv = dims pv -> aux tv = aux pv ->
  dget (aux pv) "mask" = None -> proper_sizes s pv -> nonnegative pv -> nonnegative tv ->
  neighborhood_averaging pv s w = Ok p' -> neighborhood_averaging tv s w = Ok t' ->
  statistic_value (SquaredFractionsError s w) p t v sfe -> weighted_input g sfe d0 ws wrs ms bs -> mean_array g sfe m0 -> point_of (dims m0) e ->
  metric_value g p t (FSS s w) v a ->
  let u := point_weight g sfe wrs bs in (forall q, 0 <= u q) ->
  exists P x y, reduced_points (sfe :: ws ++ ms) (reduce_dims g) e P /\
    (forall q, In q P -> point_of (dims p') q /\ get p' q = Fin (x q) /\ get t' q = Fin (y q) /\ 0 <= x q /\ 0 <= y q) /\
    let den := wavg P u (fun q => x q ^ 2) + wavg P u (fun q => y q ^ 2) in
    (rsum (map u P) = 0 \/ den = 0 -> get a e = NaN) /\
    (rsum (map u P) <> 0 -> den <> 0 -> exists r, get a e = Fin r /\ r = 1 - wavg P u (fun q => (x q - y q) ^ 2) / den /\ 0 <= r <= 1 /\
       (r = 1 <-> forall q, In q P -> u q <> 0 -> x q = y q) /\
       (r = 0 <-> forall q, In q P -> u q <> 0 -> x q = 0 \/ y q = 0)).
Proof.
  intros s w g p t v pv tv p' t' sfe d0 ws wrs ms bs m0 a e Hn Hp Ht Gp Gt D A M Ps Np Nt Ep Et Hs W M0 He Hm u Hu.
  assert (proper_sizes s tv) as Pt by (destruct s; [exact I|]; unfold proper_sizes, dnames in *; rewrite D; exact Ps). assert (dget (aux tv) "mask" = None) as Mt by (now rewrite A).
  destruct (averaging_shape pv s w p' Gp M Ps Ep) as (_ & _ & W1 & Np'). specialize (Np' Np). destruct (averaging_shape tv s w t' Gt Mt Pt Et) as (_ & _ & W2 & Nt'). specialize (Nt' Nt).
  destruct (three_samples s w pv tv p' t' Gp Gt D A M Ps Ep Et) as (Dt & Ds & Sf & So). cbv zeta in *.
  assert (sfe = da_map vsq (binop vsub p' t')) as Es.
  { apply (per_variable_value _ _ _ _ _ pv tv) in Hs; auto. unfold squared_fractions_error in Hs. rewrite Ep, Et in Hs. cbn [bind] in Hs. congruence. }
  set (x := real_of p'). set (y := real_of t').
  assert (forall q, point_of (dims sfe) q -> get p' q = Fin (x q) /\ 0 <= x q /\ get t' q = Fin (y q) /\ 0 <= y q) as Rl.
  { intros q Hq. rewrite Es, Ds in Hq. destruct (nonneg_real p' q Np' Hq) as [X1 X2]. destruct (nonneg_real t' q Nt') as [Y1 Y2]; [now rewrite Dt|]. auto. }
  rewrite <- Es in Sf, So, Ds.
  destruct (joint_means g sfe d0 ws wrs ms bs m0 e W M0 He) as (P & HP & Hin & HJ). fold u in HJ.
  unfold FSS in Hm. pose proof (fun H1 H2 H3 => value_of_metric g p t _ _ v a H1 H2 H3 Hm) as VM. destruct VM as (parts & HF & HL).
  { intros st raw [<-|[<-|[<-|[]]]]; apply per_var_outputs. }
  { intros st st' [<-|[<-|[<-|[]]]] [<-|[<-|[<-|[]]]] E; try reflexivity; cbn in E; discriminate. }
  { repeat constructor; cbn; intuition discriminate. }
  inversion HL as [|? [k1 m1] ? l1 (E1 & raw1 & st1 & C1 & V1 & Me1) HL1]; subst. inversion HL1 as [|? [k2 m2] ? l2 (E2 & raw2 & st2 & C2 & V2 & Me2) HL2]; subst. inversion HL2 as [|? [k3 m3] ? l3 (E3 & raw3 & st3 & C3 & V3 & Me3) HL3]; subst. inversion HL3; subst.
  cbn [fst snd] in *. subst k1 k2 k3.
  assert (st1 = da_map vsq (binop vsub p' t')) as ->.
  { assert (statistic_value (SquaredFractionsError s w) p t v st1) as S by (exists raw1; auto). apply (per_variable_value _ _ _ _ _ pv tv) in S; auto. unfold squared_fractions_error in S. rewrite Ep, Et in S. cbn [bind] in S. congruence. }
  assert (st2 = binop vadd (da_map vsq p') (zeros_like tv)) as ->.
  { assert (statistic_value (SquaredPredictionFraction s w) p t v st2) as S by (exists raw2; auto). apply (per_variable_value _ _ _ _ _ pv tv) in S; auto. unfold squared_prediction_fraction in S. rewrite Ep in S. cbn [bind] in S. congruence. }
  assert (st3 = binop vadd (da_map vsq t') (zeros_like pv)) as ->.
  { assert (statistic_value (SquaredTargetFraction s w) p t v st3) as S by (exists raw3; auto). apply (per_variable_value _ _ _ _ _ pv tv) in S; auto. unfold squared_target_fraction in S. rewrite Et in S. cbn [bind] in S. congruence. }
  set (st := da_map vsq (binop vsub p' t')) in *.
  assert (forall q, point_of (dims st) q -> get st q = Fin ((x q - y q) ^ 2)) as V1'.
  { intros q Hq. destruct (Rl q Hq) as (X1 & _ & Y1 & _). unfold st. cbn [get da_map binop]. rewrite X1, Y1. cbn. f_equal. ring. }
  assert (forall q, point_of (dims st) q -> get (binop vadd (da_map vsq p') (zeros_like tv)) q = Fin (x q ^ 2)) as V2'.
  { intros q Hq. destruct (Rl q Hq) as (X1 & _). cbn [get da_map binop zeros_like]. rewrite X1. cbn. f_equal. ring. }
  assert (forall q, point_of (dims st) q -> get (binop vadd (da_map vsq t') (zeros_like pv)) q = Fin (y q ^ 2)) as V3'.
  { intros q Hq. destruct (Rl q Hq) as (_ & _ & Y1 & _). cbn [get da_map binop zeros_like]. rewrite Y1. cbn. f_equal. ring. }
  destruct (HJ st (fun q => (x q - y q) ^ 2) m1) as (_ & A1 & B1); [split; [reflexivity|split; [reflexivity|split; [apply W|reflexivity]]]|intros q Hq _; now apply V1'|exact Me1|].
  destruct (HJ (binop vadd (da_map vsq p') (zeros_like tv)) (fun q => x q ^ 2) m2) as (_ & A2 & B2); [destruct Sf as (? & ? & ?); split; [assumption|split; [assumption|split; [assumption|intros q Hq; rewrite (V1' q Hq), (V2' q Hq); reflexivity]]]|intros q Hq _; now apply V2'|exact Me2|].
  destruct (HJ (binop vadd (da_map vsq t') (zeros_like pv)) (fun q => y q ^ 2) m3) as (_ & A3 & B3); [destruct So as (? & ? & ?); split; [assumption|split; [assumption|split; [assumption|intros q Hq; rewrite (V1' q Hq), (V3' q Hq); reflexivity]]]|intros q Hq _; now apply V3'|exact Me3|].
  cbn zeta in A1, B1, A2, B2, A3, B3.
  exists P, x, y. split; [exact HP|]. split; [intros q Hq; specialize (Hin q Hq); destruct (Rl q Hin) as (? & ? & ? & ?); rewrite <- Ds; auto|].
  set (num := wavg P u (fun q => (x q - y q) ^ 2)) in *. set (sx := wavg P u (fun q => x q ^ 2)) in *. set (sy := wavg P u (fun q => y q ^ 2)) in *. cbv zeta. set (den := sx + sy).
  cbn in HF. injection HF as <-. cbn [get da_map binop].
  destruct (Req_dec (rsum (map u P)) 0) as [Z|Z].
  { split; [intros _|intros Q; contradiction]. rewrite (B1 Z Hu). reflexivity. }
  rewrite (A1 Z), (A2 Z), (A3 Z). cbn [vadd]. fold den.
  assert (0 <= sx) as Px by (apply wavg_nonneg; auto; intros; apply pow2_ge_0). assert (0 <= sy) as Py by (apply wavg_nonneg; auto; intros; apply pow2_ge_0). assert (0 <= num) as Pn by (apply wavg_nonneg; auto; intros; apply pow2_ge_0).
  set (xy := wavg P u (fun q => x q * y q)).
  assert (num = den - 2 * xy) as En.
  { unfold num, den, sx, sy, xy. rewrite <- (wavg_scale P u Hu Z 2), <- (wavg_add P u Hu Z), <- (wavg_sub P u Hu Z). apply wavg_ext; auto. intros; ring. }
  assert (forall q, In q P -> u q <> 0 -> 0 <= x q * y q) as Pxy. { intros q Hq _. destruct (Rl q (Hin q Hq)) as (_ & X & _ & Y). now apply Rmult_le_pos. }
  assert (0 <= xy) as P2 by (now apply wavg_nonneg).
  split.
  - intros [Q|Q]; [contradiction|]. assert (num = 0) as -> by lra. rewrite Q. rewrite vdiv_0_0. reflexivity.
  - intros _ Nd. assert (0 < den) as Pd by (unfold den in *; lra). rewrite vdiv_Fin by lra. exists (1 - num / den). split; [reflexivity|]. split; [reflexivity|].
    assert (num / den = (den - 2 * xy) / den) as Ed by (now rewrite En).
    assert (0 <= num / den <= 1) as [B4 B5]. { split; [apply Rmult_le_pos; [exact Pn|apply Rlt_le, Rinv_0_lt_compat; lra]|]. apply (Rmult_le_reg_r den); [lra|]. unfold Rdiv. rewrite Rmult_assoc, Rinv_l by lra. lra. }
    split; [lra|]. split; split; intros Q.
    + assert (num = 0) as Z0. { assert (num / den = 0) as Q' by lra. unfold Rdiv in Q'. apply Rmult_integral in Q'. destruct Q' as [Q'|Q']; [exact Q'|]. exfalso. now apply (Rinv_neq_0_compat den Nd). }
      intros q Hq Hne. pose proof (wavg_zero P u Hu Z (fun q => (x q - y q) ^ 2) ltac:(intros; apply pow2_ge_0) Z0 q Hq Hne) as E. cbn beta in E. nra.
    + assert (num = 0) as ->; [|unfold Rdiv; lra]. unfold num. rewrite (wavg_ext P u u _ (fun _ => 0)); auto; [|intros q Hq Hne; rewrite (Q q Hq Hne); ring]. now apply wavg_const.
    + assert (xy = 0) as Z0. { assert (num / den * den = num) as E by (field; exact Nd). replace (num / den) with 1 in E by lra. lra. }
      intros q Hq Hne. pose proof (wavg_zero P u Hu Z (fun q => x q * y q) Pxy Z0 q Hq Hne) as E. cbn beta in E. now apply Rmult_integral in E.
    + assert (xy = 0) as Z0. { unfold xy. rewrite (wavg_ext P u u _ (fun _ => 0)); auto; [now apply wavg_const|]. intros q Hq Hne. destruct (Q q Hq Hne) as [-> | ->]; ring. }
      rewrite Ed, Z0. field. exact Nd.
Qed.
Print Assumptions C32_fss.
