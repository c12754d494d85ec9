(** Proofs for bins by values, sets, latitude and longitude bands. *)
From Coq Require Import String ZArith QArith Qround Qcanon Bool List Lia Lqa Sorting.Sorted.
Import ListNotations.
From Verif Require Import Prelude Values Model_XArray Spec_XArray Proofs_XArray Model_Deterministic Model_Aggregation
  Model_Binning Spec_Binning Proofs_AggState Proofs_Beam9 Proofs_Binning Proofs_Binning2 Proofs_Binning3.
From Coq Require Import Reals.
Local Open Scope string_scope.
Local Open Scope list_scope.

(** ** vectorized_coord_mask *)
Definition overlay (ds : dimlist) (e : env) : env := fun d => if memb d (map fst ds) then e d else env0 d.
Lemma overlay_in ds e : NoDup (map fst ds) -> point_of ds e -> In (overlay ds e) (envs ds env0).
Proof.
  intros N P. apply envs_spec; auto. split.
  - intros d ls I. unfold overlay. rewrite (proj2 (memb_In _ _) (in_map fst _ _ I)). apply (P _ _ I).
  - intros d H. unfold overlay. rewrite (proj2 (memb_false _ _) H). reflexivity.
Qed.
Lemma overlay_same ds e d : In d (map fst ds) -> overlay ds e d = e d.
Proof. intros I. unfold overlay. rewrite (proj2 (memb_In _ _) I). reflexivity. Qed.

(** Values a coordinate array takes. *)
Definition uniq (ds : dimlist) (f : env -> label) : list label := nodup eq_dec (map f (envs ds env0)).
Lemma uniq_In ds f l : NoDup (map fst ds) -> only ds f -> (In l (uniq ds f) <-> exists e, point_of ds e /\ f e = l).
Proof.
  intros N O. unfold uniq. rewrite nodup_In, in_map_iff. split.
  - intros (e & E & I). apply envs_spec in I; auto. exists e. split; auto. apply I.
  - intros (e & P & E). exists (overlay ds e). split; [|apply overlay_in; auto]. rewrite <- E. apply O. intros d Hd. apply overlay_same, Hd.
Qed.

Lemma eqb_true {A} `{EqDec A} (a b : A) : eqb a b = true <-> a = b.
Proof. unfold eqb. destruct (eq_dec a b); split; congruence. Qed.

Lemma vectorized_spec fmt st ds f d g m : wf st -> incl ds (dims st) -> NoDup (map fst ds) -> only ds f ->
  vectorized_coord_mask fmt (ds, f) d g = Ok m ->
  let ls := uniq ds f in
  NoDup ls /\
  (NoDup (glob_labels g ++ map (bin_label fmt g) ls) ->
   mask_for st m d (glob_labels g ++ map (bin_label fmt g) ls) /\
   (forall l e, In l ls -> shows (in_bin m d (bin_label fmt g l) e) (f e = l)) /\
   (g = true -> forall e, in_bin m d (LS "global") e = Fin 1%R)).
Proof.
  intros W S N O H ls. split; [apply NoDup_nodup|]. intros NL.
  unfold vectorized_coord_mask in H. cbn [fst snd] in H. fold (uniq ds f) in H. fold ls in H.
  set (parts := if g then _ else _) in H.
  assert (parts = glob g ++ map (fun v => (bin_label fmt g v, fun e => eqb (f e) v)) ls) as Ep.
  { unfold parts, glob, bin_label. destruct g; cbn [app]; [|reflexivity]. rewrite map_map. reflexivity. }
  clearbody parts. subst parts.
  set (parts := glob g ++ _) in H.
  assert (map fst parts = glob_labels g ++ map (bin_label fmt g) ls) as El.
  { unfold parts. rewrite map_app, glob_fst, map_map. reflexivity. }
  destruct (bits_mask st d ds parts m) as [A B]; auto.
  - rewrite El. auto.
  - unfold parts. apply Forall_app. split; [apply glob_only|]. apply Forall_map, Forall_forall. intros v _. cbn [snd]. intros e e' He. rewrite (O e e' He). reflexivity.
  - rewrite El in A. split; auto. split.
    + intros l e I. rewrite (B (bin_label fmt g l) (fun e => eqb (f e) l)).
      * apply shows_b2v, eqb_true.
      * unfold parts. apply in_app_iff. right. apply (in_map (fun v => (bin_label fmt g v, fun e => eqb (f e) v)) _ _ I).
    + intros Hg e. rewrite (B (LS "global") (fun _ => true)); auto. unfold parts, glob. rewrite Hg. left. auto.
Qed.

Lemma vectorized_ok fmt ds f d g : (exists m, vectorized_coord_mask fmt (ds, f) d g = Ok m) <-> ~ In d (map fst ds).
Proof. unfold vectorized_coord_mask. cbn [fst]. apply stack_parts_iff. Qed.

(** ** Sets *)
Lemma value_eqb_iff a b : value_eqb a b = true <-> same_value a b.
Proof.
  unfold same_value. split.
  - destruct a, b; cbn [value_eqb]; intros H; try (left; apply eqb_true; exact H); right; apply Qeq_bool_iff in H;
      eexists; eexists; (split; [constructor|split; [constructor|exact H]]).
  - intros [->|(p & q & Hp & Hq & E)].
    + destruct b; cbn [value_eqb]; try (apply eqb_true; reflexivity); apply Qeq_bool_iff; reflexivity.
    + destruct Hp, Hq; cbn [value_eqb lnum]; apply Qeq_bool_iff; exact E.
Qed.
Lemma isin_iff s l : isin s l = true <-> exists x, In x s /\ same_value l x.
Proof. unfold isin. rewrite existsb_exists. split; intros (x & I & H); exists x; split; auto; apply value_eqb_iff; auto. Qed.

(** ** np.arange *)
Lemma seq_removelast n : removelast (seq 0 (S n)) = seq 0 n.
Proof. rewrite seq_S. apply removelast_last. Qed.
Lemma map_removelast {A B} (f : A -> B) l : removelast (map f l) = map f (removelast l).
Proof. induction l as [|a [|b l] IH]; auto. change (map f (a :: b :: l)) with (f a :: f b :: map f l). cbn [removelast map] in *. f_equal. apply IH. Qed.


Lemma bins_steps lo hi step bins : (0 < step)%Q -> arange lo (hi + step) step = Ok bins ->
  (removelast bins = [] /\ (hi <= lo)%Q) \/
  exists n, steps lo hi step n /\ removelast bins = map (start_of lo step) (seq 0 n).
Proof.
  intros Hs H. unfold arange in H. destruct (Qeq_bool step 0) eqn:E. { apply Qeq_bool_iff in E. lra. }
  injection H as <-. set (q := ((hi + step - lo) / step)%Q). rewrite map_removelast.
  assert (step * q == hi + step - lo)%Q as Eq by (unfold q; field; lra). clearbody q.
  pose proof (Qle_ceiling q) as C1. pose proof (Qceiling_lt q) as C2. set (c := Qceiling q) in *. clearbody c.
  unfold Z.sub in C2. rewrite inject_Z_plus in C2. change (inject_Z (Z.opp 1)) with (-1)%Q in C2.
  destruct (Z_le_gt_dec c 1) as [L|L].
  - left. split.
    + destruct (Z.to_nat c) as [|[|k]] eqn:K; [reflexivity|reflexivity|lia].
    + rewrite Zle_Qle in L. change (inject_Z 1) with 1%Q in L. assert (step * q <= step * 1)%Q by (apply Qmult_le_l; lra). lra.
  - right. exists (Z.to_nat (c - 1)). replace (Z.to_nat c) with (S (Z.to_nat (c - 1))) by lia. rewrite seq_removelast. split; [|reflexivity].
    unfold steps. rewrite Z2Nat.id by lia. split; [lia|]. unfold Z.sub. rewrite !inject_Z_plus. change (inject_Z (Z.opp 1)) with (-1)%Q.
    assert (step * q <= step * inject_Z c)%Q by (apply Qmult_le_l; lra).
    assert (step * (inject_Z c + -1) < step * q)%Q by (apply Qmult_lt_l; lra). split; lra.
Qed.

Lemma NoDup_map_in {A B} (f : A -> B) l : (forall x y, In x l -> In y l -> f x = f y -> x = y) -> NoDup l -> NoDup (map f l).
Proof.
  intros H N. induction N as [|x l I N IH]; cbn; constructor.
  - rewrite in_map_iff. intros (y & E & Iy). apply H in E; [|right; auto|left; auto]. congruence.
  - apply IH. intros a b Ia Ib. apply H; right; auto.
Qed.
Lemma Q2Qc_eq a b : Q2Qc a = Q2Qc b -> (a == b)%Q.
Proof. intros H. apply (f_equal this) in H. cbn in H. rewrite <- (Qred_correct a), <- (Qred_correct b), H. reflexivity. Qed.

Lemma start_inj lo step i j : (0 < step)%Q -> (start_of lo step i == start_of lo step j)%Q -> i = j.
Proof.
  intros Hs H. unfold start_of in H. assert (step * (inject_Z (Z.of_nat i) - inject_Z (Z.of_nat j)) == 0)%Q as E by lra.
  apply Qmult_integral in E. destruct E as [E|E]; [lra|]. assert (inject_Z (Z.of_nat i) == inject_Z (Z.of_nat j))%Q as E' by lra.
  apply (proj1 (inject_Z_injective _ _)) in E'. apply Nat2Z.inj in E'. exact E'.
Qed.

Lemma LQ_inj a b : LQ a = LQ b -> a = b.
Proof. intros [=]. auto. Qed.

(** ** LatitudeBins *)
Lemma latitude_bins_spec deg lo hi d b st m : (0 < deg)%Q -> wf st ->
  LatitudeBins deg (lo, hi) d = Ok b -> create_bin_mask b st = Ok m ->
  exists n, steps lo hi deg n /\
    mask_for st m d (map (fun i => LQ (Q2Qc (start_of lo deg i))) (seq 0 n)) /\
    (coords_local st -> forall i e x, (i < n)%nat -> number_at st "latitude" e x ->
      shows (in_bin m d (LQ (Q2Qc (start_of lo deg i))) e) (start_of lo deg i <= x <= start_of lo deg i + deg)%Q).
Proof.
  intros Hd W Hb H. unfold LatitudeBins in Hb. cbn [fst snd] in Hb.
  destruct (arange lo (hi + deg) deg) as [bins|] eqn:E; [|discriminate]. injection Hb as <-. cbn [create_bin_mask] in H.
  destruct (bins_steps _ _ _ _ Hd E) as [[En _]|(n & Hn & En)]; rewrite En in H; [discriminate|]. exists n. split; auto.
  destruct n as [|n0]; [destruct Hn as (? & _); lia|].
  assert ((do lat <- get_coord AttributeError st "latitude";
     do parts <- mapM (fun s => do f <- create_lat_mask (s, s + deg)%Q; Ok (LQ (Q2Qc s), fun e => f (lnum (snd lat e)))) (map (start_of lo deg) (seq 0 (S n0)));
     stack d (dims st) parts) = Ok m) as H' by exact H. clear H.
  set (n := S n0) in *. clearbody n.
  destruct (get_coord AttributeError st "latitude") as [[ds f]|] eqn:Ec; [|discriminate]. apply get_coord_Ok in Ec.
  pose proof (coord_array_ok _ _ _ _ W Ec) as C. cbn [bind snd] in H'.
  destruct (mapM _ (map (start_of lo deg) (seq 0 n))) as [parts|] eqn:Em; [|discriminate]. cbn [bind] in H'.
  apply mapM_Ok_Forall2 in Em.
  assert (Forall2 (fun s p => fst p = LQ (Q2Qc s) /\ snd p = (fun e => Qle_bool s (lnum (f e)) && Qle_bool (lnum (f e)) (s + deg)%Q)) (map (start_of lo deg) (seq 0 n)) parts) as F.
  { clear -Em. induction Em as [|s p ss ps A _ IH]; constructor; auto. unfold create_lat_mask in A. cbn [fst snd] in A.
    destruct (Qle_bool (s + deg) s); [discriminate|]. cbn [bind] in A. injection A as <-. auto. }
  assert (map fst parts = map (fun i => LQ (Q2Qc (start_of lo deg i))) (seq 0 n)) as El.
  { rewrite <- (map_map (start_of lo deg) (fun s => LQ (Q2Qc s))). clear -F. induction F as [|s p ss ps [A _] _ IH]; cbn; congruence. }
  apply stack_Ok in H'. destruct H' as [_ H].
  destruct (bits_mask st d (dims st) parts m) as [A B]; auto.
  - intros q Hq; exact Hq.
  - apply W.
  - rewrite El. apply NoDup_map_in; [|apply seq_NoDup]. intros i j _ _ Eij. apply LQ_inj in Eij. apply (start_inj lo deg); auto. apply Q2Qc_eq, Eij.
  - clear -F C. induction F as [|s p ss ps [_ A] _ IH]; constructor; auto. rewrite A. intros e e' He. rewrite (co_only _ _ _ _ C e e'); auto.
    intros k Hk. apply He. apply in_map_iff in Hk. destruct Hk as (q & <- & Hk). apply in_map, (co_sub _ _ _ _ C), Hk.
  - rewrite El in A. split; auto. intros L i e x Hi Hx.
    assert (In (LQ (Q2Qc (start_of lo deg i)), fun e => Qle_bool (start_of lo deg i) (lnum (f e)) && Qle_bool (lnum (f e)) (start_of lo deg i + deg)%Q) parts) as Ip.
    { assert (In (start_of lo deg i) (map (start_of lo deg) (seq 0 n))) as Is by (apply in_map, in_seq; lia).
      clear -F Is. induction F as [|s p ss ps [A1 A2] _ IH]; [destruct Is|]. destruct Is as [<-|Is]; [left; destruct p; cbn in *; congruence|right; auto]. }
    rewrite (B _ _ e Ip). apply shows_b2v. rewrite (coord_number _ _ _ _ e x C L Hx), andb_true_iff, !Qle_bool_true. tauto.
Qed.

(** ** LongitudeBins *)

Lemma qmod_eq_turns a b : (qmod a 360 == qmod b 360)%Q -> exists k, (a == b + turns k)%Q.
Proof.
  intros H. destruct (qmod_spec a) as [_ A], (qmod_spec b) as [_ B]. exists (Qfloor (a / 360) - Qfloor (b / 360))%Z.
  unfold turns in *. unfold Z.sub. rewrite inject_Z_plus, inject_Z_opp. lra.
Qed.

Lemma longitude_labels lo hi deg n : (0 < deg)%Q -> (hi - lo <= 360)%Q -> steps lo hi deg n ->
  NoDup (map (fun i => LQ (Q2Qc (qmod (start_of lo deg i) 360))) (seq 0 n)).
Proof.
  intros Hd Hr (Hn & _ & Hs). apply NoDup_map_in; [|apply seq_NoDup]. intros i j Ii Ij E. apply in_seq in Ii, Ij. apply LQ_inj in E.
  apply Q2Qc_eq, qmod_eq_turns in E. destruct E as [k Hk].
  assert (k = 0)%Z as ->.
  { unfold start_of, turns in Hk.
    assert (0 <= inject_Z (Z.of_nat i))%Q as I0 by (change 0%Q with (inject_Z 0); rewrite <- Zle_Qle; lia).
    assert (0 <= inject_Z (Z.of_nat j))%Q as J0 by (change 0%Q with (inject_Z 0); rewrite <- Zle_Qle; lia).
    assert (inject_Z (Z.of_nat i) <= inject_Z (Z.of_nat n - 1))%Q as I1 by (rewrite <- Zle_Qle; lia).
    assert (inject_Z (Z.of_nat j) <= inject_Z (Z.of_nat n - 1))%Q as J1 by (rewrite <- Zle_Qle; lia).
    set (qi := inject_Z (Z.of_nat i)) in *. set (qj := inject_Z (Z.of_nat j)) in *. set (qn := inject_Z (Z.of_nat n - 1)) in *. clearbody qi qj qn.
    assert (deg * qi <= deg * qn)%Q by (apply Qmult_le_l; lra). assert (deg * qj <= deg * qn)%Q by (apply Qmult_le_l; lra).
    assert (0 <= deg * qi)%Q by (apply Qmult_le_0_compat; lra). assert (0 <= deg * qj)%Q by (apply Qmult_le_0_compat; lra).
    destruct (Z_lt_le_dec k 0) as [C|C]. { apply inject_lt in C. change (inject_Z 0) with 0%Q in C. lra. }
    destruct (Z_lt_le_dec 0 k) as [D|D]. { apply inject_lt in D. change (inject_Z 0) with 0%Q in D. lra. } lia. }
  apply (start_inj lo deg); auto. unfold turns in Hk. change (inject_Z 0) with 0%Q in Hk. lra.
Qed.

Lemma longitude_bins_spec deg lo hi d b st m : (0 < deg)%Q -> (lon_end lo hi - lo <= 360)%Q -> wf st ->
  LongitudeBins deg (lo, hi) d = Ok b -> create_bin_mask b st = Ok m ->
  exists n, steps lo (lon_end lo hi) deg n /\
    mask_for st m d (map (fun i => LQ (Q2Qc (qmod (start_of lo deg i) 360))) (seq 0 n)) /\
    (coords_local st -> forall i e x, (i < n)%nat -> number_at st "longitude" e x ->
      shows (in_bin m d (LQ (Q2Qc (qmod (start_of lo deg i) 360))) e) (on_arc (start_of lo deg i) (start_of lo deg i + deg) x)).
Proof.
  intros Hd Hr W Hb H. unfold LongitudeBins in Hb. cbn [fst snd] in Hb. fold (lon_end lo hi) in Hb.
  destruct (arange lo (lon_end lo hi + deg) deg) as [bins|] eqn:E; [|discriminate]. injection Hb as <-. cbn [create_bin_mask] in H.
  destruct (bins_steps _ _ _ _ Hd E) as [[En _]|(n & Hn & En)]; rewrite En in H; [discriminate|]. exists n. split; auto.
  set (g := fun lon : dimlist * (env -> label) => fun s => (LQ (Q2Qc (qmod s 360)), fun e => create_lon_mask (s, s + deg)%Q (lnum (snd lon e)))) in *.
  assert ((do lon <- get_coord AttributeError st "longitude"; stack d (dims st) (map (g lon) (map (start_of lo deg) (seq 0 n)))) = Ok m) as H'.
  { destruct n; [destruct Hn as (? & _); lia|]. exact H. }
  clear H. destruct (get_coord AttributeError st "longitude") as [[ds f]|] eqn:Ec; [|discriminate]. apply get_coord_Ok in Ec.
  pose proof (coord_array_ok _ _ _ _ W Ec) as C. cbn [bind] in H'. rewrite map_map in H'. apply stack_Ok in H'. destruct H' as [_ H].
  set (parts := map _ (seq 0 n)) in H.
  assert (map fst parts = map (fun i => LQ (Q2Qc (qmod (start_of lo deg i) 360))) (seq 0 n)) as El by (unfold parts; rewrite map_map; reflexivity).
  destruct (bits_mask st d (dims st) parts m) as [A B]; auto.
  - intros q Hq; exact Hq.
  - apply W.
  - rewrite El. apply (longitude_labels lo (lon_end lo hi)); auto.
  - unfold parts. apply Forall_map, Forall_forall. intros i _. cbn [snd g]. intros e e' He. rewrite (co_only _ _ _ _ C e e'); auto.
    intros k Hk. apply He. apply in_map_iff in Hk. destruct Hk as (q & <- & Hk). apply in_map, (co_sub _ _ _ _ C), Hk.
  - rewrite El in A. split; auto. intros L i e x Hi Hx.
    rewrite (B (LQ (Q2Qc (qmod (start_of lo deg i) 360))) (fun e => create_lon_mask (start_of lo deg i, start_of lo deg i + deg)%Q (lnum (f e)))).
    + apply shows_b2v. rewrite (coord_number _ _ _ _ e x C L Hx), lon_mask_arc. cbn [fst snd]. tauto.
    + unfold parts. apply (in_map (fun i => g (ds, f) (start_of lo deg i)) (seq 0 n) i). apply in_seq. lia.
Qed.

(** Every number between the ends is in one of the steps. *)
Lemma steps_cover lo hi deg n x : (0 < deg)%Q -> steps lo hi deg n -> (lo <= x <= hi)%Q ->
  exists i, (i < n)%nat /\ (start_of lo deg i <= x <= start_of lo deg i + deg)%Q.
Proof.
  intros Hd (Hn & H1 & H2) Hx. set (q := ((x - lo) / deg)%Q). assert (deg * q == x - lo)%Q as Eq by (unfold q; field; lra). clearbody q.
  pose proof (Qfloor_le q) as F1. pose proof (Qlt_floor q) as F2. rewrite inject_Z_plus in F2. change (inject_Z 1) with 1%Q in F2.
  set (c := Qfloor q) in *. clearbody c.
  assert (deg * inject_Z c <= deg * q)%Q as G1 by (apply Qmult_le_l; lra).
  assert (deg * q < deg * (inject_Z c + 1))%Q as G2 by (apply Qmult_lt_l; lra).
  assert (0 <= c)%Z as C0.
  { destruct (Z_lt_le_dec c 0) as [C|C]; auto. apply inject_lt in C. change (inject_Z 0) with 0%Q in C.
    assert (deg * (inject_Z c + 1) <= deg * 0)%Q by (apply Qmult_le_l; lra). lra. }
  destruct (Z_lt_le_dec c (Z.of_nat n)) as [C|C].
  - exists (Z.to_nat c). split; [lia|]. unfold start_of. rewrite Z2Nat.id by lia. split; lra.
  - exists (n - 1)%nat. split; [lia|]. unfold start_of. replace (Z.of_nat (n - 1)) with (Z.of_nat n - 1)%Z by lia.
    unfold Z.sub in *. rewrite inject_Z_plus in *. change (inject_Z (Z.opp 1)) with (-1)%Q in *. rewrite Zle_Qle in C.
    assert (deg * inject_Z (Z.of_nat n) <= deg * inject_Z c)%Q by (apply Qmult_le_l; lra). split; lra.
Qed.
