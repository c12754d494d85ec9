(** C32: neighbourhood averages. *)
From Coq Require Import String ZArith List Bool Reals Lia Lra Permutation FunctionalExtensionality.
Import ListNotations.
From Verif Require Import Prelude Values Model_XArray Spec_XArray Proofs_XArray Model_MetricsBase Model_Deterministic Model_Ensemble Proofs_Ensemble2 Proofs_Baseline Proofs_Loaders Model_Wrappers Model_Interp
  Spec_Interp Model_Spatial Spec_Spatial Proofs_Spatial.
From Coq Require Import Reals Lra.
Local Open Scope R_scope.
Local Open Scope string_scope.
Local Open Scope list_scope.

(** Exactly the odd positive sizes are accepted, for arrays with both dimensions; the result has the
    dimensions and coordinates of the array. *)
Theorem C32_sizes : forall a n wrap,
  ((forall h : nat, n <> (2 * Z.of_nat h + 1)%Z) \/ ~ In "latitude" (dnames a) \/ ~ In "longitude" (dnames a) ->
     neighborhood_averaging_for_single_size a n wrap = Err ValueError) /\
  (forall h : nat, n = (2 * Z.of_nat h + 1)%Z -> In "latitude" (dnames a) -> In "longitude" (dnames a) -> dget (aux a) "mask" = None ->
     exists b, neighborhood_averaging_for_single_size a n wrap = Ok b /\ aux b = aux a /\ (NoDup (dnames a) -> NoDup (dnames b)) /\
       forall d, dget (dims b) d = dget (dims a) d).
Proof.
  intros a n wrap. split.
  - intros H. unfold neighborhood_averaging_for_single_size. assert (average_core n wrap a = Err ValueError) as ->; [|reflexivity]. unfold average_core.
    destruct (dget (dims a) "latitude") as [lats|] eqn:E1; [|reflexivity]. destruct (dget (dims a) "longitude") as [lons|] eqn:E2; [|reflexivity].
    destruct (check_size_cases n) as [(h & -> & _)|[_ ->]]; [|reflexivity]. exfalso. destruct H as [H|[H|H]]; [apply (H h); reflexivity|apply H; exact (dget_Some_keys _ _ E1)|apply H; exact (dget_Some_keys _ _ E2)].
  - intros h -> H1 H2 M. destruct (keys_dget _ _ H1) as [lats E1]. destruct (keys_dget _ _ H2) as [lons E2].
    unfold neighborhood_averaging_for_single_size, average_core. rewrite E1, E2. assert (check_size (2 * Z.of_nat h + 1) = Ok tt) as -> by (apply check_size_odd; exists h; reflexivity). cbn [bind]. rewrite M.
    eexists. split; [reflexivity|]. split; [reflexivity|]. split.
    + intros N. unfold dnames. cbn [dims]. rewrite map_app. apply NoDup_app_intro.
      * now apply keep_NoDup.
      * repeat constructor; cbn; intuition discriminate.
      * intros k Hk [<-|[<-|[]]]; apply in_map_iff in Hk; destruct Hk as ([k' m] & E & Hk); cbn in E; subst; unfold keep in Hk; apply filter_In in Hk; cbn in Hk; destruct Hk; discriminate.
    + intros d. cbn [dims]. rewrite dget_app. rewrite dget_keep. cbn [dget]. destruct (memb d lat_lon) eqn:Hd; cbn [negb].
      * destruct (eq_dec d "latitude") as [->|N1]; [now rewrite E1|]. destruct (eq_dec d "longitude") as [->|N2]; [now rewrite E2|]. apply memb_In in Hd. cbn in Hd. intuition congruence.
      * apply memb_false in Hd. destruct (dget (dims a) d) eqn:E; [reflexivity|]. destruct (eq_dec d "latitude") as [->|N1]; [exfalso; apply Hd; cbn; auto|]. destruct (eq_dec d "longitude") as [->|N2]; [exfalso; apply Hd; cbn; auto|]. reflexivity.
Qed.
Print Assumptions C32_sizes.

(** The value at a point is the average over the square of (2h+1) x (2h+1) grid points around it,
    going round in longitude; it is missing if one of them is.  Points whose square does not fit on
    the grid get 0 (unless h = 0, where nothing changes). *)
Theorem C32_average : forall a h wrap b lats lons e i j,
  wf a -> grid a lats lons -> neighborhood_averaging_for_single_size a (2 * Z.of_nat h + 1) wrap = Ok b -> at_position lats lons e i j ->
  (h = 0%nat -> get b e = get a e) /\
  (~ inside h wrap lats lons i j -> h <> 0%nat -> get b e = Fin 0) /\
  (inside h wrap lats lons i j ->
     (forall r, (forall q, In q (neighbours h lats lons e i j) -> get a q = Fin (r q)) -> get b e = Fin (average (map r (neighbours h lats lons e i j)))) /\
     (forall q, In q (neighbours h lats lons e i j) -> get a q = NaN -> get b e = NaN)).
Proof.
  intros a h wrap b lats lons e i j W G H P. destruct (single_Ok _ _ _ _ H) as (b0 & H0 & _ & -> & _). change (2 * Z.of_nat h + 1)%Z with (odd_size h) in H0. split; [|split].
  - intros Hh. eapply point_same; eauto.
  - intros N Hh. eapply point_edge; eauto.
  - intros I. split; [intros r Hr; eapply point_average; eauto|intros q Hq E; eapply point_NaN; eauto].
Qed.
Print Assumptions C32_average.
(** The average stays within the range of the square; for a 0/1 field it is the fraction of ones. *)
Theorem C32_range : forall a h wrap b lats lons e i j lo hi,
  wf a -> grid a lats lons -> neighborhood_averaging_for_single_size a (2 * Z.of_nat h + 1) wrap = Ok b -> at_position lats lons e i j ->
  inside h wrap lats lons i j -> (forall q, In q (neighbours h lats lons e i j) -> exists y, get a q = Fin y /\ lo <= y <= hi) ->
  exists y, get b e = Fin y /\ lo <= y <= hi.
Proof.
  intros a h wrap b lats lons e i j lo hi W G H P I B. destruct (C32_average a h wrap b lats lons e i j W G H P) as (_ & _ & K). destruct (K I) as [A _].
  set (r := fun q => match get a q with Fin y => y | _ => 0 end). exists (average (map r (neighbours h lats lons e i j))). split.
  - apply A. intros q Hq. destruct (B q Hq) as (y & E & _). unfold r. now rewrite E.
  - apply average_bounds.
    + intros E. apply (f_equal (@length R)) in E. rewrite map_length, neighbours_length in E. cbn in E. lia.
    + intros x Hx. apply in_map_iff in Hx. destruct Hx as (q & <- & Hq). destruct (B q Hq) as (y & E & Hy). unfold r. now rewrite E.
Qed.
Print Assumptions C32_range.
Theorem C32_fraction : forall a h wrap b lats lons e i j (event : env -> bool),
  wf a -> grid a lats lons -> neighborhood_averaging_for_single_size a (2 * Z.of_nat h + 1) wrap = Ok b -> at_position lats lons e i j ->
  inside h wrap lats lons i j -> (forall q, In q (neighbours h lats lons e i j) -> get a q = b2v (event q)) ->
  get b e = Fin (INR (length (filter event (neighbours h lats lons e i j))) / (INR (2 * h + 1) * INR (2 * h + 1))).
Proof.
  intros a h wrap b lats lons e i j event W G H P I B. destruct (C32_average a h wrap b lats lons e i j W G H P) as (_ & _ & K). destruct (K I) as [A _].
  rewrite (A (fun q => if event q then 1 else 0)) by (intros q Hq; rewrite (B q Hq); now destruct (event q)). f_equal. unfold average. rewrite map_length, neighbours_length, mult_INR. f_equal.
  generalize (neighbours h lats lons e i j). intros l. induction l as [|q l IH]; [reflexivity|]. cbn [map filter]. change (rsum ((if event q then 1 else 0) :: map (fun q => if event q then 1 else 0) l)) with ((if event q then 1 else 0) + rsum (map (fun q => if event q then 1 else 0) l)).
  rewrite IH. destruct (event q); cbn [length]; [rewrite S_INR; ring|ring].
Qed.
Print Assumptions C32_fraction.

(** With wrap_longitude, rotating the field rotates the result. *)
Definition rotated (k : nat) (lons : list label) (a a' : da) : Prop :=
  dims a' = dims a /\ forall e j, nth_error lons j = Some (e "longitude") ->
    get a' e = get a (upd e "longitude" (nth ((j + k) mod length lons) lons (LZ 0))).
Theorem C32_rotation : forall a a' h b b' lats lons k,
  wf a -> wf a' -> grid a lats lons -> rotated k lons a a' ->
  neighborhood_averaging_for_single_size a (2 * Z.of_nat h + 1) true = Ok b ->
  neighborhood_averaging_for_single_size a' (2 * Z.of_nat h + 1) true = Ok b' ->
  forall e i j, at_position lats lons e i j -> get b' e = get b (upd e "longitude" (nth ((j + k) mod length lons) lons (LZ 0))).
Proof.
  intros a a' h b b' lats lons k W W' G [Dr R] H H' e i j P. destruct (single_Ok _ _ _ _ H) as (b0 & H0 & _ & -> & _). destruct (single_Ok _ _ _ _ H') as (b0' & H0' & _ & -> & _).
  change (2 * Z.of_nat h + 1)%Z with (odd_size h) in *. set (L := length lons) in *. set (j2 := ((j + k) mod L)%nat) in *.
  pose proof P as [P1 P2]. assert (j < L)%nat as Hj by (apply nth_error_Some; congruence). assert (j2 < L)%nat as Hj2 by (apply Nat.mod_upper_bound; lia).
  assert (at_position lats lons (upd e "longitude" (nth j2 lons (LZ 0))) i j2) as P'.
  { split; [rewrite upd_other by discriminate; exact P1|rewrite upd_same; now apply nth_error_nth']. }
  assert (grid a' lats lons) as G' by (unfold grid; rewrite Dr; exact G).
  destruct (Nat.eq_dec h 0) as [->|N].
  - rewrite (point_same a' b0' _ true lats lons e i j 0 W' G' eq_refl H0' P eq_refl). rewrite (point_same a b0 _ true lats lons _ i j2 0 W G eq_refl H0 P' eq_refl). now apply R.
  - rewrite (point_get a' b0' _ true lats lons e i j h W' G' eq_refl H0' P). rewrite (point_get a b0 _ true lats lons _ i j2 h W G eq_refl H0 P'). fold L.
    destruct (le_lt_dec h i) as [I1|I1]; [destruct (lt_dec (i + h) (length lats)) as [I2|I2]|].
    + rewrite !conv_inside; auto. f_equal. apply map_ext. intros oj. f_equal. f_equal. apply map_ext. intros oi. f_equal. cbn [fst snd].
      set (c := Z.to_nat ((Z.of_nat j + oj) mod Z.of_nat L)). assert (c < L)%nat as Hc by (unfold c; pose proof (Z.mod_pos_bound (Z.of_nat j + oj) (Z.of_nat L)); lia).
      rewrite (R _ c) by (rewrite upd_same; apply nth_error_nth'; exact Hc). destruct W as (_ & _ & Lo). apply Lo. intros x _. unfold upd. destruct (string_dec x "longitude") as [->|Nx]; [|reflexivity].
      f_equal. apply Nat2Z.inj. rewrite Nat2Z.inj_mod, Nat2Z.inj_add. unfold c. rewrite !Z2Nat.id by (apply Z.mod_pos_bound; lia). unfold j2. rewrite Nat2Z.inj_mod, Nat2Z.inj_add.
      rewrite !Zplus_mod_idemp_l. f_equal. lia.
    + rewrite !conv_edge; auto; lia.
    + rewrite !conv_edge; auto; lia.
Qed.
Print Assumptions C32_rotation.
