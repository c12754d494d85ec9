(** Proofs about Model_Spatial. *)
From Coq Require Import String ZArith List Bool Reals Lia Lra Permutation.
Import ListNotations.
From Verif Require Import Prelude Values Model_XArray Spec_XArray Proofs_XArray Model_MetricsBase Model_Deterministic Model_Ensemble Proofs_Ensemble2 Model_Wrappers Model_Interp
  Model_Spatial Spec_Spatial.
From Coq Require Import Reals Lra.
Local Open Scope R_scope.
Local Open Scope string_scope.
Local Open Scope list_scope.

Definition odd_size (h : nat) : Z := (2 * Z.of_nat h + 1)%Z.
Lemma half_odd h : half (odd_size h) = Z.of_nat h.
Proof. unfold half, odd_size. replace (2 * Z.of_nat h + 1 - 1)%Z with (Z.of_nat h * 2)%Z by lia. apply Z.div_mul. lia. Qed.
Lemma odd_nat h : Z.to_nat (odd_size h) = (2 * h + 1)%nat.
Proof. unfold odd_size. lia. Qed.
Lemma offsets_length h : length (offsets h) = (2 * h + 1)%nat.
Proof. unfold offsets. now rewrite map_length, seq_length. Qed.
Lemma In_offsets h o : In o (offsets h) <-> (- Z.of_nat h <= o <= Z.of_nat h)%Z.
Proof.
  unfold offsets. rewrite in_map_iff. split.
  - intros (k & <- & Hk). apply in_seq in Hk. lia.
  - intros H. exists (Z.to_nat (o + Z.of_nat h)). split; [lia|]. apply in_seq. lia.
Qed.
Lemma wrapped_offsets h len i : wrapped (odd_size h) len i = map (fun o => Z.to_nat ((Z.of_nat i + o) mod Z.of_nat len)) (offsets h).
Proof.
  unfold wrapped, offsets. rewrite half_odd, odd_nat, map_map. apply map_ext. intros k. f_equal. f_equal. lia.
Qed.
Lemma check_size_odd n : check_size n = Ok tt <-> exists h, n = odd_size h.
Proof.
  unfold check_size, odd_size. destruct (n =? 1)%Z eqn:E1.
  - apply Z.eqb_eq in E1. split; [intros _; exists 0%nat; lia|reflexivity].
  - apply Z.eqb_neq in E1. destruct (n mod 2 =? 1)%Z eqn:E2; cbn [negb].
    + apply Z.eqb_eq in E2. destruct (n <? 0)%Z eqn:E3.
      * apply Z.ltb_lt in E3. split; [discriminate|]. intros [h ->]. lia.
      * apply Z.ltb_ge in E3. split; [|reflexivity]. intros _. exists (Z.to_nat (n / 2)). pose proof (Z_div_mod_eq_full n 2). assert (0 <= n / 2)%Z by (apply Z.div_pos; lia). lia.
    + apply Z.eqb_neq in E2. split; [discriminate|]. intros [h ->]. exfalso. apply E2. replace (2 * Z.of_nat h + 1)%Z with (1 + Z.of_nat h * 2)%Z by lia. rewrite Z.mod_add by lia. reflexivity.
Qed.
Lemma check_size_cases n : (exists h, n = odd_size h /\ check_size n = Ok tt) \/ ((forall h, n <> odd_size h) /\ check_size n = Err ValueError).
Proof.
  destruct (check_size n) as [[]|e] eqn:E.
  - left. destruct (proj1 (check_size_odd n) E) as [h ->]. eauto.
  - right. split.
    + intros h ->. rewrite (proj2 (check_size_odd _)) in E; [discriminate|eauto].
    + unfold check_size in E. repeat (match type of E with (if ?b then _ else _) = _ => destruct b end); congruence.
Qed.

Lemma edge_spec h len i : edge (Z.of_nat h) len i = false <-> (h <= i /\ i + h < len)%nat.
Proof. unfold edge. rewrite orb_false_iff, Z.ltb_ge, Z.leb_gt. lia. Qed.

(** The double sum. *)
Lemma weighted_sum (c : R) (l : list Z) (f : Z -> val) (r : Z -> R) : (forall o, In o l -> f o = Fin (r o)) ->
  vsum (map (fun o => vmul (Fin c) (f o)) l) = Fin (c * rsum (map r l)).
Proof.
  intros H. rewrite (map_ext_in _ (fun o => Fin (c * r o))) by (intros o Ho; rewrite (H o Ho); reflexivity).
  rewrite <- (map_map (fun o => c * r o) Fin), vsum_map_Fin. f_equal. apply rsum_map_scale.
Qed.
Lemma rsum_prod {A B} (f : A * B -> R) (l1 : list A) (l2 : list B) : rsum (map f (list_prod l1 l2)) = rsum (map (fun x => rsum (map (fun y => f (x, y)) l2)) l1).
Proof.
  induction l1 as [|x l1 IH]; [reflexivity|]. cbn [list_prod map]. rewrite map_app, rsum_app, IH, map_map. reflexivity.
Qed.
Lemma rsum_swap {A B} (f : A -> B -> R) (l1 : list A) (l2 : list B) :
  rsum (map (fun x => rsum (map (f x) l2)) l1) = rsum (map (fun y => rsum (map (fun x => f x y) l1)) l2).
Proof.
  induction l1 as [|x l1 IH]; cbn [map].
  - rewrite rsum_map_const. cbn. lra.
  - change (rsum (rsum (map (f x) l2) :: map (fun x0 => rsum (map (f x0) l2)) l1)) with (rsum (map (f x) l2) + rsum (map (fun x0 => rsum (map (f x0) l2)) l1)).
    rewrite IH, <- rsum_map_add. reflexivity.
Qed.

Section Conv.
  Variables (x : nat -> nat -> val) (nlat nlon h : nat) (wrap : bool) (i j : nat).
  Let n := odd_size h.
  Hypothesis Hh : (h <> 0)%nat.
  Let cell (o : Z * Z) : val := x (Z.to_nat (Z.of_nat i + fst o)) (Z.to_nat ((Z.of_nat j + snd o) mod Z.of_nat nlon)).

  Lemma not_one : (n =? 1)%Z = false.
  Proof. unfold n, odd_size. apply Z.eqb_neq. lia. Qed.
  Lemma conv_edge : ~ ((h <= i /\ i + h < nlat) /\ (wrap = true \/ h <= j /\ j + h < nlon))%nat -> convolve2d_wrap_longitude x nlat nlon n wrap i j = Fin 0.
  Proof.
    intros H. unfold convolve2d_wrap_longitude. rewrite not_one. unfold n at 1 2. rewrite !half_odd.
    destruct (edge (Z.of_nat h) nlat i) eqn:E; [reflexivity|]. apply edge_spec in E. destruct wrap; cbn [negb andb]; [tauto|].
    destruct (edge (Z.of_nat h) nlon j) eqn:E2; [reflexivity|]. apply edge_spec in E2. tauto.
  Qed.
  Hypothesis Hi : (h <= i /\ i + h < nlat)%nat.
  Hypothesis Hj : (wrap = true \/ h <= j /\ j + h < nlon)%nat.
  Lemma conv_inside : convolve2d_wrap_longitude x nlat nlon n wrap i j =
    vsum (map (fun oj => vmul (Fin (1 / IZR n)) (vsum (map (fun oi => vmul (Fin (1 / IZR n)) (cell (oi, oj))) (offsets h)))) (offsets h)).
  Proof.
    unfold convolve2d_wrap_longitude. rewrite not_one. unfold n at 1 2. rewrite !half_odd.
    rewrite (proj2 (edge_spec h nlat i) Hi).
    assert ((negb wrap && edge (Z.of_nat h) nlon j)%bool = false) as ->.
    { destruct Hj as [-> | Q]; [reflexivity|]. rewrite (proj2 (edge_spec h nlon j) Q). apply andb_false_r. }
    unfold convolve1d, n. rewrite !wrapped_offsets, !map_map. f_equal. apply map_ext. intros oj. f_equal. f_equal. rewrite !map_map. apply map_ext_in. intros oi Ho.
    apply In_offsets in Ho. unfold cell. cbn [fst snd]. rewrite Z.mod_small by lia. reflexivity.
  Qed.
  Lemma conv_finite (r : Z * Z -> R) : (forall o, In o (square h) -> cell o = Fin (r o)) ->
    convolve2d_wrap_longitude x nlat nlon n wrap i j = Fin (average (map r (square h))).
  Proof.
    intros H. rewrite conv_inside.
    rewrite (weighted_sum _ _ _ (fun oj => 1 / IZR n * rsum (map (fun oi => r (oi, oj)) (offsets h)))).
    - f_equal. unfold average. rewrite map_length. unfold square at 2. rewrite prod_length, offsets_length. unfold square. rewrite rsum_prod, rsum_swap.
      rewrite rsum_map_scale. rewrite mult_INR. assert (INR (2 * h + 1) = IZR n) as ->. { unfold n, odd_size. rewrite INR_IZR_INZ. f_equal. lia. }
      assert (IZR n <> 0) by (apply not_0_IZR; unfold n, odd_size; lia). field. assumption.
    - intros oj Hj'. apply weighted_sum. intros oi Hi'. apply H. unfold square. apply in_prod; assumption.
  Qed.
  Lemma conv_NaN o : In o (square h) -> cell o = NaN -> convolve2d_wrap_longitude x nlat nlon n wrap i j = NaN.
  Proof.
    intros Ho E. destruct o as [oi oj]. unfold square in Ho. apply in_prod_iff in Ho. destruct Ho as [H1 H2]. rewrite conv_inside. apply vsum_NaN. apply in_map_iff. exists oj. split; [|exact H2].
    rewrite vsum_NaN; [apply vmul_NaN_r|]. apply in_map_iff. exists oi. split; [|exact H1]. rewrite E. apply vmul_NaN_r.
  Qed.
End Conv.

(** ** Arrays *)
Lemma core_Ok n wrap a b : average_core n wrap a = Ok b -> exists lats lons h, grid a lats lons /\ n = odd_size h /\
  dims b = keep (fun d => negb (memb d lat_lon)) (dims a) ++ [("latitude", lats); ("longitude", lons)] /\ aux b = aux a /\
  get b = (fun e => convolve2d_wrap_longitude (fun i j => get a (upd (upd e "latitude" (nth i lats (LZ 0))) "longitude" (nth j lons (LZ 0)))) (length lats) (length lons) n wrap (index_of (e "latitude") lats) (index_of (e "longitude") lons)).
Proof.
  unfold average_core. destruct (dget (dims a) "latitude") as [lats|] eqn:E1; [|discriminate]. destruct (dget (dims a) "longitude") as [lons|] eqn:E2; [|discriminate].
  destruct (check_size n) as [[]|] eqn:E; [|discriminate]. cbn [bind]. intros [= <-]. apply check_size_odd in E. destruct E as [h ->]. exists lats, lons, h. repeat split; auto.
Qed.
Lemma single_Ok a n wrap b : neighborhood_averaging_for_single_size a n wrap = Ok b -> exists b0, average_core n wrap a = Ok b0 /\ dims b = dims b0 /\ get b = get b0 /\
  (dget (aux a) "mask" = None -> b = b0).
Proof.
  unfold neighborhood_averaging_for_single_size. destruct (average_core n wrap a) as [b0|] eqn:E; [|discriminate]. cbn [bind]. intros H. exists b0. split; [reflexivity|].
  destruct (dget (aux a) "mask") as [c|]; [|injection H as <-; auto].
  match type of H with (do m <- ?x; _) = _ => destruct x as [m|]; [|discriminate] end. cbn [bind] in H. match type of H with (if ?x then _ else _) = _ => destruct x; [|discriminate] end. injection H as <-. split; [reflexivity|]. split; [reflexivity|discriminate].
Qed.
Lemma moved_self lats lons e i j k : at_position lats lons e i j -> moved lats lons e (Z.of_nat i) (Z.of_nat j) k = e k.
Proof.
  intros [H1 H2]. unfold moved. assert (j < length lons)%nat by (apply nth_error_Some; congruence). rewrite Z.mod_small by lia. rewrite !Nat2Z.id.
  unfold upd. destruct (string_dec k "longitude") as [->|]; [now apply nth_error_nth|]. destruct (string_dec k "latitude") as [->|]; [now apply nth_error_nth|reflexivity].
Qed.

Section Point.
  Variables (a b : da) (n : Z) (wrap : bool) (lats lons : list label) (e : env) (i j h : nat).
  Hypothesis W : wf a.
  Hypothesis G : grid a lats lons.
  Hypothesis Hn : n = odd_size h.
  Hypothesis Hb : average_core n wrap a = Ok b.
  Hypothesis Hp : at_position lats lons e i j.

  Lemma point_get : get b e = convolve2d_wrap_longitude (fun i j => get a (upd (upd e "latitude" (nth i lats (LZ 0))) "longitude" (nth j lons (LZ 0)))) (length lats) (length lons) (odd_size h) wrap i j.
  Proof.
    destruct (core_Ok _ _ _ _ Hb) as (lats' & lons' & h' & [G1 G2] & E & _ & _ & ->). destruct G as [G1' G2']. rewrite G1 in G1'. rewrite G2 in G2'. injection G1' as ->. injection G2' as ->.
    destruct Hp as [P1 P2]. rewrite Hn. f_equal; apply index_of_map_nth; auto.
    - apply dget_In in G1. destruct W as (_ & N & _). exact (N _ _ G1).
    - apply dget_In in G2. destruct W as (_ & N & _). exact (N _ _ G2).
  Qed.
  Lemma point_same : (h = 0)%nat -> get b e = get a e.
  Proof.
    intros E. rewrite point_get. rewrite E. change (odd_size 0) with 1%Z. cbn [convolve2d_wrap_longitude Z.eqb Pos.eqb].
    destruct W as (_ & _ & L). apply L. intros k _. destruct Hp as [P1 P2]. unfold upd. destruct (string_dec k "longitude") as [->|]; [now apply nth_error_nth|]. destruct (string_dec k "latitude") as [->|]; [now apply nth_error_nth|reflexivity].
  Qed.
  Lemma point_edge : (h <> 0)%nat -> ~ inside h wrap lats lons i j -> get b e = Fin 0.
  Proof. intros H N. rewrite point_get. apply conv_edge; [exact H|]. unfold inside in N. tauto. Qed.
  Lemma point_average (r : env -> R) : inside h wrap lats lons i j -> (forall q, In q (neighbours h lats lons e i j) -> get a q = Fin (r q)) ->
    get b e = Fin (average (map r (neighbours h lats lons e i j))).
  Proof.
    intros (I1 & I2 & I3) H. unfold neighbours in *. rewrite map_map. destruct (Nat.eq_dec h 0) as [E|E].
    - rewrite (point_same E). subst h. change (square 0) with [(0, 0)%Z] in *. cbn [map fst snd] in *. rewrite !Z.add_0_r in *. unfold average. cbn [rsum fold_right length INR].
      assert (get a e = get a (moved lats lons e (Z.of_nat i) (Z.of_nat j))) as ->. { destruct W as (_ & _ & L). apply L. intros k _. symmetry. now apply moved_self. }
      rewrite H by (left; reflexivity). f_equal. unfold Rdiv. rewrite Rinv_1. ring.
    - rewrite point_get. apply (conv_finite _ _ _ h wrap i j E (conj I1 I2) I3 (fun o => r (moved lats lons e (Z.of_nat i + fst o) (Z.of_nat j + snd o)))).
      intros o Ho. apply H. apply in_map_iff. exists o. split; [reflexivity|exact Ho].
  Qed.
  Lemma point_NaN q : inside h wrap lats lons i j -> In q (neighbours h lats lons e i j) -> get a q = NaN -> get b e = NaN.
  Proof.
    intros (I1 & I2 & I3) H Q. unfold neighbours in H. apply in_map_iff in H. destruct H as (o & <- & Ho). destruct (Nat.eq_dec h 0) as [E|E].
    - rewrite (point_same E). subst h. change (square 0) with [(0, 0)%Z] in Ho. destruct Ho as [<-|[]]. cbn [fst snd] in Q. rewrite !Z.add_0_r in Q. rewrite <- Q. destruct W as (_ & _ & L). apply L. intros k _. symmetry. now apply moved_self.
    - rewrite point_get. apply (conv_NaN _ _ _ h wrap i j E (conj I1 I2) I3 o Ho Q).
  Qed.
End Point.
Lemma average_bounds l lo hi : l <> [] -> (forall x, In x l -> lo <= x <= hi) -> lo <= average l <= hi.
Proof.
  intros N H. unfold average. assert (0 < INR (length l)) as P by (apply lt_0_INR; destruct l; [contradiction|cbn; lia]).
  assert (INR (length l) * lo <= rsum l <= INR (length l) * hi) as [B1 B2].
  { clear N P. induction l as [|x l IH]; [cbn; lra|]. change (length (x :: l)) with (S (length l)). rewrite S_INR. change (rsum (x :: l)) with (x + rsum l). pose proof (H x (or_introl eq_refl)). pose proof (IH (fun y Hy => H y (or_intror Hy))). lra. }
  split.
  - apply (Rmult_le_reg_r (INR (length l))); [exact P|]. unfold Rdiv. rewrite Rmult_assoc, Rinv_l by lra. lra.
  - apply (Rmult_le_reg_r (INR (length l))); [exact P|]. unfold Rdiv. rewrite Rmult_assoc, Rinv_l by lra. lra.
Qed.
Lemma neighbours_length h lats lons e i j : length (neighbours h lats lons e i j) = ((2 * h + 1) * (2 * h + 1))%nat.
Proof. unfold neighbours, square. now rewrite map_length, prod_length, offsets_length. Qed.
