(** C32: masks, threshold probabilities, examples. *)
From Coq Require Import String ZArith List Bool Reals Lia Lra Permutation FunctionalExtensionality.
Import ListNotations.
From Verif Require Import Prelude Values Model_XArray Spec_XArray Proofs_XArray Model_Tree Model_MetricsBase Model_Aggregation Spec_Aggregator Spec_Metrics Proofs_Metrics Spec_Means Proofs_Means
  Model_Deterministic Proofs_Deterministic Proofs_Categorical Spec_Statistic Model_Ensemble Proofs_Ensemble2 Proofs_Baseline Model_Wrappers Model_Interp
  Spec_Interp Model_Spatial Spec_Spatial Proofs_Spatial Props_Spatial Props_FSS.
From Verif Require Import Proofs_Transforms Proofs_Loaders Proofs_Aggregator Proofs_Ensemble2.
From Coq Require Import Reals Lra.
Local Open Scope R_scope.
Local Open Scope string_scope.
Local Open Scope list_scope.

(** ** Masks *)
Lemma is_close x : isclose_true (Fin x) = true <-> Rabs (x - 1) <= 1001 / 100000000.
Proof. cbn [isclose_true]. rewrite Rleb_true. split; lra. Qed.
Lemma upd_id (e : env) d x : x = e d -> upd e d x = e.
Proof. intros ->. apply functional_extensionality. intros k. unfold upd. destruct (string_dec k d) as [->|]; reflexivity. Qed.
Lemma transfer_id ds e : point_of ds e -> (forall d ls, In (d, ls) ds -> NoDup ls) -> transfer ds ds e = e.
Proof.
  unfold transfer. induction ds as [|[d ls] ds IH]; intros P N; [reflexivity|]. cbn [combine fold_right fst snd].
  rewrite IH; [|intros k l H; apply P; now right|intros k l H; apply (N k); now right].
  apply upd_id. assert (In (e d) ls) as I by (apply (P d); now left). apply In_nth_error in I. destruct I as [i Hi].
  rewrite (index_of_map_nth ls i (e d)); [now apply nth_error_nth|apply (N d); now left|exact Hi].
Qed.
Definition invalid (valid : env -> bool) (l : list env) : nat := length (filter (fun q => negb (valid q)) l).
Lemma rsum_valid (valid : env -> bool) (l : list env) : rsum (map (fun q => if valid q then 1 else 0) l) = INR (length l) - INR (invalid valid l).
Proof.
  unfold invalid. induction l as [|q l IH]; [cbn; lra|]. cbn [map filter length]. change (rsum ((if valid q then 1 else 0) :: map (fun q => if valid q then 1 else 0) l)) with ((if valid q then 1 else 0) + rsum (map (fun q => if valid q then 1 else 0) l)).
  rewrite IH, S_INR. destruct (valid q); cbn [negb length]; [|rewrite S_INR]; lra.
Qed.
(** A boolean mask whose last two dimensions are latitude, longitude. *)
Definition boolean_mask (a : da) (c : coord) (valid : env -> bool) : Prop :=
  dget (aux a) "mask" = Some c /\ (exists l, c_dims c = l ++ ["latitude"; "longitude"]) /\ NoDup (c_dims c) /\ (forall e, c_get c e = LB (valid e)).
(** The new mask: inside the grid, a point is valid if the share of invalid points in its square
    does not exceed 1.001e-5 (np.isclose); elsewhere it is invalid; for size 1 nothing changes. *)
Theorem C32_mask_tolerance : forall a h wrap b c valid lats lons e i j,
  wf a -> coords_local a -> grid a lats lons -> boolean_mask a c valid ->
  neighborhood_averaging_for_single_size a (2 * Z.of_nat h + 1) wrap = Ok b -> point_of (dims a) e -> at_position lats lons e i j ->
  exists c', dget (aux b) "mask" = Some c' /\ c_dims c' = c_dims c /\
    (h = 0%nat -> c_get c' e = LB (valid e)) /\
    (h <> 0%nat -> ~ inside h wrap lats lons i j -> c_get c' e = LB false) /\
    (inside h wrap lats lons i j -> exists v, c_get c' e = LB v /\
       (v = true <-> (Z.of_nat (invalid valid (neighbours h lats lons e i j)) * 100000000 <= 1001 * (2 * Z.of_nat h + 1) ^ 2)%Z)).
Proof.
  intros a h wrap b c valid lats lons e i j W CL G (M & [l Dl] & Nc & V) H Pe Pos.
  unfold neighborhood_averaging_for_single_size in H. destruct (average_core _ wrap a) as [b0|] eqn:Eb; [|discriminate]. cbn [bind] in H. rewrite M in H.
  destruct (CL _ _ M) as [Inc Loc].
  set (old := mask_dims a c) in *. set (mm := mkDa old _ []) in H. destruct (average_core _ wrap mm) as [m|] eqn:Em; [|discriminate]. cbn [bind] in H.
  destruct (list_eq_dec _ _ _) as [_|]; [|discriminate]. injection H as <-. cbn [aux].
  assert (Lab : forall d ls, In (d, ls) old -> In (d, ls) (dims a)).
  { intros d ls Hd. unfold old, mask_dims in Hd. apply in_map_iff in Hd. destruct Hd as (d' & E & Hd). injection E as -> <-. apply Inc in Hd. destruct (keys_dget _ _ Hd) as [x Hx]. unfold labels_of. rewrite Hx. exact (dget_In _ _ Hx). }
  assert (Names : map fst old = c_dims c) by (unfold old, mask_dims; rewrite map_map; cbn [fst]; apply map_id).
  assert (Wm : wf mm).
  { split; [|split].
    - unfold dnames. cbn [mm dims]. rewrite Names. exact Nc.
    - intros d ls Hd. destruct W as (_ & N & _). apply (N d). now apply Lab.
    - intros e1 e2 Hk. cbn [mm get]. rewrite (Loc e1 e2); [reflexivity|]. intros k Hk'. apply Hk. unfold dnames. cbn [mm dims]. now rewrite Names. }
  assert (Gm : grid mm lats lons).
  { assert (forall d ls, dget (dims a) d = Some ls -> In d (c_dims c) -> dget (dims mm) d = Some ls) as K.
    { intros d ls E I. apply In_dget; [exact (proj1 Wm)|]. cbn [mm dims]. unfold old, mask_dims. apply in_map_iff. exists d. split; [|exact I]. unfold labels_of. now rewrite E. }
    destruct G as [G1 G2]. split; apply K; auto; rewrite Dl; apply in_or_app; right; cbn; auto. }
  assert (Old : dims m = old).
  { destruct (core_Ok _ _ _ _ Em) as (la & lo & h' & [G1 G2] & _ & -> & _). cbn [mm dims] in G1, G2 |- *. 
    assert (old = map (fun d => (d, labels_of (dims a) d)) l ++ [("latitude", la); ("longitude", lo)]) as Eo.
    { unfold old, mask_dims. rewrite Dl, map_app. cbn [map]. f_equal. destruct Gm as [Gm1 Gm2]. cbn [mm dims] in Gm1, Gm2. destruct G as [Ga1 Ga2]. unfold labels_of. rewrite Ga1, Ga2. congruence. }
    rewrite Eo. set (X := map _ l) in *. assert (keep (fun d => negb (memb d lat_lon)) (X ++ [("latitude", la); ("longitude", lo)]) = X) as ->; [|reflexivity].
    unfold keep. rewrite filter_app. cbn [filter fst memb]. change (memb "latitude" lat_lon) with true. change (memb "longitude" lat_lon) with true. cbn [negb]. rewrite app_nil_r.
    assert (forall p, In p X -> negb (memb (fst p) lat_lon) = true) as K.
    { intros p Hp. unfold X in Hp. apply in_map_iff in Hp. destruct Hp as (d & <- & Hd). cbn [fst]. apply negb_true_iff. apply memb_false. intros I. rewrite Dl in Nc. clear - Nc Hd I. induction l as [|k l IH]; [destruct Hd|]. cbn [app] in Nc. inversion Nc; subst. destruct Hd as [->|Hd]; [apply H1; apply in_or_app; now right|now apply IH]. }
    clear - K. induction X as [|p X IH]; [reflexivity|]. cbn [filter]. rewrite (K p) by now left. f_equal. apply IH. intros k Hk. apply K. now right. }
  assert (Tr : transfer (dims m) old e = e).
  { rewrite Old. apply transfer_id; [intros d ls Hd; apply Pe; now apply Lab|]. intros d ls Hd. destruct W as (_ & N & _). apply (N d). now apply Lab. }
  assert (Gq : forall q, get mm q = Fin (if valid q then 1 else 0)) by (intros q; cbn [mm get]; rewrite V; now destruct (valid q)).
  change (2 * Z.of_nat h + 1)%Z with (odd_size h) in *.
  eexists. split; [rewrite dget_dset; unfold eqb; destruct (eq_dec "mask" "mask"); [reflexivity|congruence]|]. cbn [c_dims c_get]. split; [reflexivity|]. rewrite Tr. split; [|split].
  - intros E. rewrite (point_same mm m _ wrap lats lons e i j h Wm Gm eq_refl Em Pos E), Gq. f_equal. destruct (valid e); [apply is_close|apply not_true_is_false; rewrite is_close].
    + replace (1 - 1) with 0 by ring. rewrite Rabs_R0. lra.
    + replace (0 - 1) with (Ropp 1) by ring. rewrite Rabs_Ropp, Rabs_R1. lra.
  - intros E I. rewrite (point_edge mm m _ wrap lats lons e i j h Wm Gm eq_refl Em Pos E I). f_equal. apply not_true_is_false. rewrite is_close. replace (0 - 1) with (Ropp 1) by ring. rewrite Rabs_Ropp, Rabs_R1. lra.
  - intros I. rewrite (point_average mm m _ wrap lats lons e i j h Wm Gm eq_refl Em Pos (fun q => if valid q then 1 else 0) I (fun q _ => Gq q)). eexists. split; [reflexivity|]. rewrite is_close. unfold average. rewrite map_length, rsum_valid, neighbours_length.
    set (N := ((2 * h + 1) * (2 * h + 1))%nat). set (k := invalid _ _). assert (0 < INR N) as PN by (apply lt_0_INR; unfold N; lia). pose proof (pos_INR k) as Pk.
    replace ((INR N - INR k) / INR N - 1) with (- (INR k / INR N)) by (field; lra). rewrite Rabs_Ropp, Rabs_right by (apply Rle_ge; apply Rmult_le_pos; [exact Pk|left; now apply Rinv_0_lt_compat]).
    replace (odd_size h ^ 2)%Z with (Z.of_nat N) by (unfold N, odd_size; lia).
    rewrite !INR_IZR_INZ in *. split; intros Q.
    + apply le_IZR. rewrite !mult_IZR. apply Rmult_le_compat_r with (r := IZR (Z.of_nat N)) in Q; [|lra]. replace (IZR (Z.of_nat k) / IZR (Z.of_nat N) * IZR (Z.of_nat N)) with (IZR (Z.of_nat k)) in Q by (field; lra). lra.
    + apply IZR_le in Q. rewrite !mult_IZR in Q. apply Rmult_le_reg_r with (r := IZR (Z.of_nat N)); [lra|]. replace (IZR (Z.of_nat k) / IZR (Z.of_nat N) * IZR (Z.of_nat N)) with (IZR (Z.of_nat k)) by (field; lra). lra.
Qed.
Print Assumptions C32_mask_tolerance.

(** Up to size 315, a point stays valid exactly if its square lies on the grid and is all valid. *)
Theorem C32_mask : forall a h wrap b c valid lats lons e i j,
  wf a -> coords_local a -> grid a lats lons -> boolean_mask a c valid -> (2 * h + 1 <= 315)%nat ->
  neighborhood_averaging_for_single_size a (2 * Z.of_nat h + 1) wrap = Ok b -> point_of (dims a) e -> at_position lats lons e i j ->
  exists c', dget (aux b) "mask" = Some c' /\ c_dims c' = c_dims c /\ exists v, c_get c' e = LB v /\
    (h = 0%nat -> v = valid e) /\
    (h <> 0%nat -> (v = true <-> inside h wrap lats lons i j /\ forall q, In q (neighbours h lats lons e i j) -> valid q = true)).
Proof.
  intros a h wrap b c valid lats lons e i j W CL G M Hh H Pe Pos. destruct (C32_mask_tolerance a h wrap b c valid lats lons e i j W CL G M H Pe Pos) as (c' & A & Dc & K0 & K1 & K2).
  exists c'. split; [exact A|]. split; [exact Dc|]. destruct (Nat.eq_dec h 0) as [E|E].
  - exists (valid e). split; [now apply K0|]. split; [reflexivity|contradiction].
  - assert (inside h wrap lats lons i j \/ ~ inside h wrap lats lons i j) as [I|I].
    { unfold inside. destruct (le_lt_dec h i); [|right; lia]. destruct (lt_dec (i + h) (length lats)); [|right; lia]. destruct wrap; [left; auto|]. destruct (le_lt_dec h j); [|right; intros (_ & _ & [X|X]); [discriminate|lia]]. destruct (lt_dec (j + h) (length lons)); [left; auto|right; intros (_ & _ & [X|X]); [discriminate|lia]]. }
    + destruct (K2 I) as (v & V & Hv). exists v. split; [exact V|]. split; [contradiction|]. intros _. rewrite Hv. set (l := neighbours h lats lons e i j) in *.
      assert (invalid valid l = 0%nat <-> forall q, In q l -> valid q = true) as Z0.
      { unfold invalid. clear. induction l as [|q l IH]; cbn [filter]; [cbn; tauto|]. destruct (valid q) eqn:V; cbn [negb].
        - rewrite IH. split; [intros F x [<-|Hx]; auto|intros F x Hx; apply F; now right].
        - split; [discriminate|]. intros F. specialize (F q (or_introl eq_refl)). congruence. }
      rewrite <- Z0. split.
      * intros Q. split; [exact I|]. destruct (invalid valid l) as [|k]; [reflexivity|]. exfalso. assert ((2 * Z.of_nat h + 1) ^ 2 <= 99225)%Z by (change 99225%Z with (315 ^ 2)%Z; apply Z.pow_le_mono_l; lia). lia.
      * intros [_ ->]. lia.
    + exists false. split; [now apply K1|]. split; [contradiction|]. intros _. split; [discriminate|tauto].
Qed.
Print Assumptions C32_mask.

(** ** Threshold probabilities *)
Definition exceeding (x : R) (a : da) (l : list env) : nat := length (filter (fun q => vltb (Fin x) (get a q)) l).
Lemma pick_sizes ns (f : Z -> result da) parts d e n : mapM (fun n => do b <- f n; Ok (LZ n, b)) ns = Ok parts -> In n ns -> e d = LZ n ->
  exists b, pick d parts e = Some b /\ f n = Ok b.
Proof.
  intros H I E. unfold pick. rewrite E. revert parts H. induction ns as [|m ns IH]; intros parts H; [destruct I|]. cbn [mapM] in H. destruct (f m) as [b|] eqn:Fm; [|discriminate]. cbn [bind] in H.
  destruct (mapM _ ns) as [ps|] eqn:Em; [|discriminate]. injection H as <-. cbn [dget]. destruct (eq_dec (LZ n) (LZ m)) as [X|X].
  - assert (n = m) by congruence. subst m. exists b. auto.
  - destruct I as [->|I]; [congruence|]. now apply IH.
Qed.
Lemma moved_other lats lons e i j k : k <> "latitude" -> k <> "longitude" -> moved lats lons e i j k = e k.
Proof. intros H1 H2. unfold moved. now rewrite !upd_other. Qed.
Lemma neighbours_other h lats lons e i j q k : In q (neighbours h lats lons e i j) -> k <> "latitude" -> k <> "longitude" -> q k = e k.
Proof. intros H H1 H2. unfold neighbours in H. apply in_map_iff in H. destruct H as (o & <- & _). now apply moved_other. Qed.

(** The probability of exceeding a threshold with neighbourhood size 2h+1: the share of the points of
    the square whose value is above the threshold; missing if a value of the square is; 0 where the
    square leaves the grid. *)
Theorem C32_threshold_probability : forall ns vs d wrap name a reference out lats lons e h i j x,
  wf a -> grid a lats lons -> NoDup (map fst vs) -> ~ In d (dnames a) -> d <> "smoothing_neighborhood" ->
  NeighborhoodThresholdProbabilities ns (TList vs) d wrap name a reference = Ok out ->
  In (2 * Z.of_nat h + 1)%Z ns -> e "smoothing_neighborhood" = LZ (2 * Z.of_nat h + 1) -> dget vs (e d) = Some (Fin x) -> at_position lats lons e i j ->
  (inside h wrap lats lons i j -> (forall q, In q (neighbours h lats lons e i j) -> isnan (get a q) = false) ->
     get out e = Fin (INR (exceeding x a (neighbours h lats lons e i j)) / (INR (2 * h + 1) * INR (2 * h + 1)))) /\
  (forall q, inside h wrap lats lons i j -> In q (neighbours h lats lons e i j) -> get a q = NaN -> get out e = NaN) /\
  (~ inside h wrap lats lons i j -> h <> 0%nat -> get out e = Fin 0).
Proof.
  intros ns vs d wrap name a reference out lats lons e h i j x W G Nv Nd Nd' H In_ns En Ex Pos. unfold NeighborhoodThresholdProbabilities in H.
  unfold binarize in H. cbn [bind] in H. set (y := da_where_nan _ _) in H. destruct (mapM _ ns) as [parts|] eqn:Em; [|discriminate]. cbn [bind] in H.
  destruct (concat_sizes_Ok _ _ _ H) as (l0 & a0 & _ & _ & Gout & _). destruct (pick_sizes _ _ _ "smoothing_neighborhood" e _ Em In_ns En) as (b & Pk & Hb). rewrite Gout, Pk. cbv beta iota.
  assert (wf (threshold_array d vs)) as Wt.
  { split; [|split]; cbn; [repeat constructor; intros []| |].
    - intros k l [E|[]]. injection E as <- <-. exact Nv.
    - intros e1 e2 He. rewrite (He d); [reflexivity|now left]. }
  assert (wf y) as Wy by (unfold y, da_where_nan; apply wf_binop; [apply wf_binop; auto|]; destruct W as (A1 & A2 & A3); split; [exact A1|split; [exact A2|]]; intros e1 e2 He; cbn [notnull da_map get]; now rewrite (A3 e1 e2 He)).
  assert (forall k ls, k <> d -> dget (dims a) k = Some ls -> dget (dims y) k = Some ls) as Dy.
  { intros k ls Nk E. apply In_dget; [apply Wy|]. unfold y, da_where_nan. cbn [binop dims notnull da_map threshold_array]. unfold merge_dims at 1. apply in_or_app. left. apply in_map_iff. exists (k, ls). cbn [fst snd]. rewrite E, inter_self. split; [reflexivity|].
    unfold merge_dims. apply in_or_app. left. apply in_map_iff. exists (k, ls). cbn [fst snd dget]. destruct (eq_dec k d); [contradiction|]. split; [reflexivity|exact (dget_In _ _ E)]. }
  assert (grid y lats lons) as Gy. { destruct G as [G1 G2]. split; apply Dy; auto; intros <-; apply Nd; [exact (dget_Some_keys _ _ G1)|exact (dget_Some_keys _ _ G2)]. }
  assert (forall q, q d = e d -> get y q = if isnan (get a q) then NaN else b2v (vltb (Fin x) (get a q))) as Vy.
  { intros q Hq. unfold y. cbn [da_where_nan binop notnull da_map get threshold_array]. rewrite Hq. change (@dget label val _ vs (e d)) with (dget vs (e d)). rewrite Ex, vtruthy_b2v'. destruct (isnan (get a q)); reflexivity. }
  assert (d <> "latitude" /\ d <> "longitude") as [D1 D2]. { destruct G as [G1 G2]. split; intros ->; apply Nd; [exact (dget_Some_keys _ _ G1)|exact (dget_Some_keys _ _ G2)]. }
  destruct (C32_average y h wrap b lats lons e i j Wy Gy Hb Pos) as (_ & K1 & K2). split; [|split].
  - intros I Nn. unfold exceeding. apply (C32_fraction y h wrap b lats lons e i j _ Wy Gy Hb Pos I). intros q Hq. rewrite Vy by (now apply (neighbours_other h lats lons e i j)). now rewrite Nn.
  - intros q I Hq Nq. destruct (K2 I) as [_ K3]. apply (K3 q Hq). rewrite Vy by (now apply (neighbours_other h lats lons e i j)). now rewrite Nq.
  - intros I Hh. now apply K1.
Qed.
Print Assumptions C32_threshold_probability.
(** Probabilities lie in [0, 1] and do not grow with the threshold. *)
Theorem C32_threshold_monotone : forall ns vs d wrap name a reference out lats lons e e' h i j x x',
  wf a -> grid a lats lons -> NoDup (map fst vs) -> ~ In d (dnames a) -> d <> "smoothing_neighborhood" ->
  NeighborhoodThresholdProbabilities ns (TList vs) d wrap name a reference = Ok out ->
  In (2 * Z.of_nat h + 1)%Z ns -> e "smoothing_neighborhood" = LZ (2 * Z.of_nat h + 1) -> at_position lats lons e i j ->
  (forall k, k <> d -> e' k = e k) -> dget vs (e d) = Some (Fin x) -> dget vs (e' d) = Some (Fin x') -> x <= x' ->
  inside h wrap lats lons i j -> (forall q, In q (neighbours h lats lons e i j) -> isnan (get a q) = false) ->
  exists p p', get out e = Fin p /\ get out e' = Fin p' /\ 0 <= p' <= p /\ p <= 1.
Proof.
  intros ns vs d wrap name a reference out lats lons e e' h i j x x' W G Nv Nd Nd' H In_ns En Pos Ee Ex Ex' Le I Nn.
  assert (d <> "latitude" /\ d <> "longitude") as [D1 D2]. { destruct G as [G1 G2]. split; intros ->; apply Nd; [exact (dget_Some_keys _ _ G1)|exact (dget_Some_keys _ _ G2)]. }
  destruct (C32_threshold_probability ns vs d wrap name a reference out lats lons e h i j x W G Nv Nd Nd' H In_ns En Ex Pos) as [K _].
  assert (e' "smoothing_neighborhood" = LZ (2 * Z.of_nat h + 1)) as En' by (rewrite Ee; auto).
  assert (at_position lats lons e' i j) as Pos' by (destruct Pos as [P1 P2]; split; rewrite Ee; auto).
  assert (forall o, get a (moved lats lons e' (Z.of_nat i + fst o) (Z.of_nat j + snd o)) = get a (moved lats lons e (Z.of_nat i + fst o) (Z.of_nat j + snd o))) as Eg.
  { intros o. destruct W as (_ & _ & L). apply L. intros k Hk. unfold moved, upd. destruct (string_dec k "longitude"); [reflexivity|]. destruct (string_dec k "latitude"); [reflexivity|]. apply Ee. intros ->. contradiction. }
  destruct (C32_threshold_probability ns vs d wrap name a reference out lats lons e' h i j x' W G Nv Nd Nd' H In_ns En' Ex' Pos') as [K' _].
  assert (forall q, In q (neighbours h lats lons e' i j) -> isnan (get a q) = false) as Nn'.
  { intros q Hq. unfold neighbours in Hq. apply in_map_iff in Hq. destruct Hq as (o & <- & Ho). rewrite Eg. apply Nn. apply in_map_iff. exists o. auto. }
  eexists. eexists. split; [exact (K I Nn)|]. split; [exact (K' I Nn')|].
  assert (exceeding x' a (neighbours h lats lons e' i j) <= exceeding x a (neighbours h lats lons e i j))%nat as M.
  { unfold exceeding, neighbours. clear - Eg Le. induction (square h) as [|o l IH]; [reflexivity|]. cbn [map filter]. rewrite Eg. set (z := get a (moved lats lons e _ _)).
    assert (vltb (Fin x') z = true -> vltb (Fin x) z = true) as T. { destruct z as [r| | |]; cbn [vltb]; auto. rewrite !Rltb_true. lra. }
    destruct (vltb (Fin x') z); [rewrite T by reflexivity; cbn [length]; lia|]. destruct (vltb (Fin x) z); cbn [length]; lia. }
  assert (exceeding x a (neighbours h lats lons e i j) <= (2 * h + 1) * (2 * h + 1))%nat as B. { rewrite <- (neighbours_length h lats lons e i j). unfold exceeding. clear. induction (neighbours h lats lons e i j) as [|q l IH]; [reflexivity|]. cbn [filter]. destruct (vltb _ _); cbn [length]; lia. }
  rewrite <- mult_INR. set (N := ((2 * h + 1) * (2 * h + 1))%nat) in *. assert (0 < INR N) as PN by (apply lt_0_INR; unfold N; lia). apply le_INR in M, B. pose proof (pos_INR (exceeding x' a (neighbours h lats lons e' i j))).
  assert (0 < / INR N) by (now apply Rinv_0_lt_compat). repeat split; unfold Rdiv.
  - apply Rmult_le_pos; lra.
  - apply Rmult_le_compat_r; lra.
  - apply Rmult_le_reg_r with (INR N); [lra|]. rewrite Rmult_assoc, Rinv_l by lra. lra.
Qed.
Print Assumptions C32_threshold_monotone.
