From Coq Require Import String ZArith QArith Qreals Qcanon Bool List Lia Sorting.Sorted Permutation.
Import ListNotations.
From Verif Require Import Prelude Values Model_XArray Spec_XArray Proofs_XArray Model_Aggregation Model_Binning Spec_Binning Proofs_Binning Proofs_Binning3
  Model_Weighting Spec_Weighting Proofs_Weighting.
From Coq Require Import Reals Rtrigo Lra.
Local Open Scope R_scope.
Local Open Scope list_scope.

Definition lats_of (labels : list label) : list R := map (fun l => Q2R (lnum l)) labels.
Lemma lats_of_spec labels lats : Forall2 latitude labels lats -> lats = lats_of labels.
Proof.
  induction 1 as [|l x ls xs (q & Hq & ->) _ IH]; auto. cbn. f_equal; auto. apply is_number_lnum in Hq. apply Qeq_eqR. symmetry. rewrite Hq. reflexivity.
Qed.
Lemma two_ends {A} (l : list A) : (2 <= length l)%nat -> (exists a b r, l = a :: b :: r) /\ (exists a b r, rev l = a :: b :: r).
Proof.
  intros H. split; [destruct l as [|a [|b r]]; cbn in H; try lia; eauto|].
  assert (2 <= length (rev l))%nat as H' by (rewrite rev_length; auto). destruct (rev l) as [|a [|b r]]; cbn in H'; try lia; eauto.
Qed.
Lemma grid_ends_perm l l' s n : (forall z, In z l <-> In z l') -> grid_ends l s n -> grid_ends l' s n.
Proof.
  intros H (xs & xn & A & B & C & D & E & F). exists xs, xn. split; [apply H, A|]. split; [intros z Hz; apply B, H, Hz|].
  split; [apply (edge_perm l l' xs H), C|]. split; [apply H, D|]. split; [intros z Hz; apply E, H, Hz|apply (edge_perm l l' xn H), F].
Qed.
Lemma grid_ends_fun l s n s' n' : grid_ends l s n -> grid_ends l s' n' -> s = s' /\ n = n'.
Proof.
  intros (xs & xn & A & B & C & D & E & F) (xs' & xn' & A' & B' & C' & D' & E' & F').
  assert (xs = xs') as <- by (apply Rle_antisym; auto). assert (xn = xn') as <- by (apply Rle_antisym; auto).
  split; [apply (south_fun l xs); auto|apply (north_fun l xn); auto].
Qed.

(** Areas of an increasing grid. *)
Lemma increasing_areas Y : chain Rlt Y -> (2 <= length Y)%nat ->
  exists W s n, cell_area_from_latitude (map deg2rad Y) = Ok W /\ length W = length Y /\
    (forall x w, In (x, w) (combine Y W) -> cell_area Y x w) /\ grid_ends Y s n /\ rsum W = zone_area s n.
Proof.
  intros C L. destruct (two_ends Y L) as [(y0 & y1 & r & E0) (yn & ym & q & En)].
  exists (areas_deg y0 y1 Y ym yn), (Rmax (y0 - (y1 - y0) / 2) (-90)), (Rmin (yn + (yn - ym) / 2) 90).
  split; [apply (areas_ok Y y0 y1 r ym yn q); auto|]. split; [apply areas_length; rewrite E0; discriminate|].
  split; [|split; [|apply areas_sum]].
  - intros x w I. apply combine_nth_In in I. destruct I as (i & Hx & Hw). apply (areas_cell Y y0 y1 r ym yn q i); auto.
  - assert (Y = rev q ++ [ym; yn]) as Er. { rewrite <- (rev_involutive Y), En. cbn [rev]. rewrite <- app_assoc. reflexivity. }
    assert (nth_error Y (length q) = Some ym) as Hym. { rewrite Er, nth_error_app2; rewrite rev_length; [rewrite Nat.sub_diag; reflexivity|lia]. }
    assert (nth_error Y (S (length q)) = Some yn) as Hyn. { rewrite Er, nth_error_app2; rewrite rev_length; [|lia]. replace (S (length q) - length q)%nat with 1%nat by lia. reflexivity. }
    assert (length Y = S (S (length q))) as Hl. { rewrite Er, app_length, rev_length. cbn. lia. }
    assert (nth_error Y 0 = Some y0) as Hy0 by (rewrite E0; reflexivity). assert (nth_error Y 1 = Some y1) as Hy1 by (rewrite E0; reflexivity).
    apply chain_sorted in C. exists y0, yn. split; [apply (nth_error_In Y 0 Hy0)|].
    assert (forall z, In z Y -> y0 <= z) as Lo by (intros z Hz; apply (sorted_first Y); auto). split; auto.
    split. { apply south_outer; auto. apply (sorted_next Y 0); auto. }
    split; [apply (nth_error_In Y _ Hyn)|].
    assert (forall z, In z Y -> z <= yn) as Hi by (intros z Hz; apply (sorted_last Y yn z (S (length q))); auto). split; auto.
    apply north_outer; auto. apply (sorted_next Y (length q)); auto.
Qed.

Lemma chain_heads a b l : chain Rgt (a :: b :: l) -> Rltb b a = true.
Proof. intros H. inversion H; subst. apply Rltb_true. lra. Qed.
Lemma chain_heads' a b l : chain Rlt (a :: b :: l) -> Rltb b a = false.
Proof. intros H. inversion H; subst. apply Rltb_false. lra. Qed.

Definition weight_value (norm : bool) (W : list R) (a : R) : val :=
  if norm then vdiv (Fin a) (Fin (rsum W / INR (length W))) else Fin a.
Lemma weights_ok lat norm st labels : dget (dims st) lat = Some labels -> NoDup labels -> monotonic (lats_of labels) -> (2 <= length labels)%nat ->
  exists w W s n, GridAreaWeighting lat norm st = Ok w /\ dims w = [(lat, labels)] /\ length W = length labels /\
    (forall e l a, e lat = l -> In (l, a) (combine labels W) -> get w e = weight_value norm W a) /\
    (forall l a, In (l, a) (combine labels W) -> cell_area (lats_of labels) (Q2R (lnum l)) a) /\
    grid_ends (lats_of labels) s n /\ rsum W = zone_area s n /\
    (forall e e', e lat = e' lat -> get w e = get w e').
Proof.
  intros Hd N M L. set (X := lats_of labels) in *. assert (length X = length labels) as LX by apply map_length.
  assert (exists W s n,
    (match X with l0 :: l1 :: _ =>
       do weights <- cell_area_from_latitude (map deg2rad (if Rltb l1 l0 then rev X else X)); Ok (if Rltb l1 l0 then rev weights else weights) | _ => Err IndexError end) = Ok W /\
    length W = length labels /\ (forall x a, In (x, a) (combine X W) -> cell_area X x a) /\ grid_ends X s n /\ rsum W = zone_area s n) as (W & s & n & HW & LW & HC & HG & HS).
  { destruct M as [M|M].
    - destruct (increasing_areas X M ltac:(lia)) as (W & s & n & A & B & C & D & E). exists W, s, n.
      destruct X as [|x0 [|x1 X']] eqn:EX; [cbn in LX; lia|cbn in LX; lia|]. rewrite (chain_heads' x0 x1 X') by auto. rewrite A. cbn [bind].
      split; [auto|]. split; [congruence|]. auto.
    - pose proof (chain_rev X M) as M'. destruct (increasing_areas (rev X) M' ltac:(rewrite rev_length; lia)) as (W & s & n & A & B & C & D & E). exists (rev W), s, n.
      rewrite rev_length in B.
      split. { destruct X as [|x0 [|x1 X']] eqn:EX; [cbn in LX; lia|cbn in LX; lia|]. rewrite (chain_heads x0 x1 X') by auto. rewrite A. reflexivity. }
      split; [rewrite rev_length; congruence|].
      assert (forall z, In z (rev X) <-> In z X) as P by (intros z; symmetry; apply in_rev).
      split. { intros x a I. apply (cell_area_perm (rev X) X); auto. apply C. apply in_rev. rewrite <- combine_rev by (rewrite rev_length; auto). rewrite rev_involutive. exact I. }
      split; [apply (grid_ends_perm (rev X)); auto|]. rewrite <- E. symmetry. apply rsum_perm, Permutation_rev. }
  set (values := map (weight_value norm W) W).
  exists (mkDa [(lat, labels)] (fun e => match dget (combine labels values) (e lat) with Some v => v | None => NaN end)
            (filter (fun kc => forallb (String.eqb lat) (c_dims (snd kc))) (aux st))), W, s, n.
  split. { unfold GridAreaWeighting. rewrite Hd. change (map (fun l => Q2R (lnum l)) labels) with X. rewrite (proj2 (monotonic_iff X) M).
    destruct X as [|x0 [|x1 X']]; [cbn in LX; lia|cbn in LX; lia|].
    set (Z := if Rltb x1 x0 then rev (x0 :: x1 :: X') else x0 :: x1 :: X') in *.
    destruct (cell_area_from_latitude (map deg2rad Z)) as [W0|] eqn:EW; [|discriminate]. cbn [bind] in HW |- *. injection HW as HW. rewrite HW.
    f_equal. f_equal. unfold values, weight_value. destruct norm; reflexivity. }
  split; [reflexivity|]. split; [auto|]. split.
  { intros e l a <- I. cbn [get]. rewrite (@In_dget label val _ (combine labels values) (e lat) (weight_value norm W a)); auto.
    - unfold keys. rewrite combine_fst; auto. unfold values. rewrite map_length. auto.
    - unfold values. rewrite combine_map_r. apply (in_map (fun p : label * R => (fst p, weight_value norm W (snd p))) _ _ I). }
  split. { intros l a I. apply HC. unfold X, lats_of. rewrite combine_map_l. apply (in_map (fun p : label * R => (Q2R (lnum (fst p)), snd p)) _ _ I). }
  split; auto. split; auto. intros e e' He. cbn [get]. rewrite He. reflexivity.
Qed.

Lemma weights_iff lat norm st labels : dget (dims st) lat = Some labels -> NoDup labels ->
  ((exists w, GridAreaWeighting lat norm st = Ok w) <-> monotonic (lats_of labels) /\ (2 <= length labels)%nat).
Proof.
  intros Hd N. split.
  - intros [w H]. unfold GridAreaWeighting in H. rewrite Hd in H. change (map (fun l => Q2R (lnum l)) labels) with (lats_of labels) in H.
    destruct (is_strictly_monotonic (lats_of labels)) eqn:M; [|discriminate]. apply monotonic_iff in M. split; auto.
    assert (length (lats_of labels) = length labels) as L by apply map_length. destruct (lats_of labels) as [|a [|b r]]; try discriminate. cbn in L. lia.
  - intros [M L]. destruct (weights_ok lat norm st labels Hd N M L) as (w & _ & _ & _ & H & _). eauto.
Qed.
Lemma combine_total {A B} `{EqDec A} (a : list A) (b : list B) l : length b = length a -> In l a -> exists y, In (l, y) (combine a b).
Proof.
  intros L I. apply In_nth_error in I. destruct I as [i Hi]. destruct (nth_error b i) as [y|] eqn:E.
  - exists y. apply combine_nth_In. eauto.
  - apply nth_error_None in E. assert (i < length a)%nat by (apply nth_error_Some; congruence). lia.
Qed.
Lemma rsum_combine (labels : list label) (W : list R) (r : label -> R) (g : R -> R) : length W = length labels ->
  (forall l a, In (l, a) (combine labels W) -> r l = g a) -> rsum (map r labels) = rsum (map g W).
Proof.
  revert W. induction labels as [|l ls IH]; intros [|a W] L H; try discriminate; auto. cbn [map].
  change (r l + rsum (map r ls) = g a + rsum (map g W)). rewrite (H l a (or_introl eq_refl)). f_equal. apply IH; [injection L; auto|]. intros; apply H; right; auto.
Qed.
Lemma rsum_pos_list (W : list R) : (forall a, In a W -> 0 < a) -> W <> [] -> 0 < rsum W.
Proof.
  intros H N. destruct W as [|a W]; [congruence|]. change (0 < a + rsum W). assert (0 < a) by (apply H; left; auto).
  assert (forall V, (forall b, In b V -> 0 < b) -> 0 <= rsum V) as G. { clear. induction V as [|b V IH]; intros H; [cbn; lra|]. change (0 <= b + rsum V). assert (0 < b) by (apply H; left; auto). assert (0 <= rsum V) by (apply IH; intros; apply H; right; auto). lra. }
  assert (0 <= rsum W) by (apply G; intros; apply H; right; auto). lra.
Qed.
