(** Proofs for Regions and LandSea. *)
From Coq Require Import String ZArith QArith Qround Qcanon Bool List Lia Lqa.
Import ListNotations.
From Verif Require Import Prelude Values Model_XArray Spec_XArray Proofs_XArray Model_Deterministic Model_Aggregation
  Model_Binning Spec_Binning Proofs_AggState Proofs_Beam9 Proofs_Binning.
From Coq Require Import Reals.
Local Open Scope string_scope.
Local Open Scope list_scope.

Lemma merge_sub_eq ds1 ds2 : NoDup (map fst ds1) -> NoDup (map fst ds2) ->
  (forall k l1 l2, dget ds1 k = Some l1 -> dget ds2 k = Some l2 -> incl l1 l2) ->
  (forall p, In p ds2 -> In (fst p) (map fst ds1)) ->
  merge_dims inter_labels ds1 ds2 = ds1.
Proof.
  intros N1 N2 H1 H2. unfold merge_dims. transitivity (ds1 ++ []); [|apply app_nil_r]. f_equal.
  - rewrite <- (map_id ds1) at 2. apply map_ext_in. intros [k l1] I. cbn [fst snd].
    destruct (dget ds2 k) as [l2|] eqn:E; auto. f_equal. unfold inter_labels. apply filter_true. intros x Hx. apply memb_In.
    apply (H1 k l1 l2); auto. apply In_dget; auto.
  - assert (forall p, In p ds2 -> negb (memb (fst p) (map fst ds1)) = false) as A.
    { intros p I. apply negb_false_iff, memb_In, H2, I. }
    revert A. clear. induction ds2 as [|p l IH]; intros A; cbn [filter]; auto.
    rewrite (A p) by (left; auto). apply IH. intros q I. apply A. right. auto.
Qed.

Lemma merge_incl (st : da) ds1 ds2 : wf st -> incl ds1 (dims st) -> incl ds2 (dims st) -> incl (merge_dims inter_labels ds1 ds2) (dims st).
Proof.
  intros (N & _ & _) S1 S2 p I. unfold merge_dims in I. apply in_app_iff in I. destruct I as [I|I].
  - apply in_map_iff in I. destruct I as ([k l] & <- & I). cbn [fst snd].
    destruct (dget ds2 k) as [l2|] eqn:E; [|apply S1, I].
    apply dget_In in E. pose proof (S1 _ I) as A. pose proof (S2 _ E) as B.
    apply (In_dget _ _ _ N) in A. apply (In_dget _ _ _ N) in B.
    assert (l2 = l) as -> by congruence. rewrite inter_self. apply dget_In, A.
  - apply filter_In in I. apply S2, I.
Qed.

Lemma only_weaken ds ds' {A} (f : env -> A) : incl (map fst ds) (map fst ds') -> only ds f -> only ds' f.
Proof. intros I H e e' He. apply H. intros d Hd. apply He, I, Hd. Qed.

(** One region. *)
Definition region_part (lat lon : env -> label) (r : string * (lims * lims)) (p : label * (env -> bool)) : Prop :=
  fst p = LS (fst r) /\
  (exists f, create_lat_mask (fst (snd r)) = Ok f /\
             snd p = fun e => f (lnum (lat e)) && create_lon_mask (snd (snd r)) (lnum (lon e))).

Lemma region_parts lat lon regions parts :
  mapM (fun r => do f <- region_to_mask lat lon (fst (snd r)) (snd (snd r)); Ok (LS (fst r), f)) regions = Ok parts ->
  Forall2 (region_part lat lon) regions parts.
Proof.
  intros H. apply mapM_Ok_Forall2 in H. induction H as [|r p rs ps A _ IH]; constructor; auto.
  unfold region_to_mask in A. destruct (create_lat_mask (fst (snd r))) as [f|] eqn:E; [|discriminate A].
  cbn in A. injection A as <-. split; auto. exists f. auto.
Qed.

Lemma region_labels lat lon regions parts : Forall2 (region_part lat lon) regions parts ->
  map fst parts = map (fun r => LS (fst r)) regions.
Proof. induction 1 as [|r p rs ps (A & _) _ IH]; cbn; congruence. Qed.

Lemma NoDup_map_inj {A B} (f : A -> B) l : (forall x y, f x = f y -> x = y) -> NoDup l -> NoDup (map f l).
Proof.
  intros H. induction 1; cbn; constructor; auto. rewrite in_map_iff. intros (y & E & I). apply H in E. congruence.
Qed.

Lemma region_NoDup (regions : list (string * (lims * lims))) : NoDup (map fst regions) -> NoDup (map (fun r => LS (fst r)) regions).
Proof.
  intros N. rewrite <- (map_map fst LS). apply NoDup_map_inj; auto. intros x y [=]. auto.
Qed.

Record regions_view regions d (st masks : da) : Prop := {
  rv_mask : mask_for st masks d (map (fun r => LS (fst r)) regions);
  rv_value : coords_local st -> forall name la lo e x y, In (name, (la, lo)) regions -> number_at st "latitude" e x -> number_at st "longitude" e y ->
    shows (in_bin masks d (LS name) e) ((fst la <= x <= snd la)%Q /\ on_arc (fst lo) (snd lo) y);
  rv_dims : exists ds, dims masks = (d, map (fun r => LS (fst r)) regions) :: ds /\ ~ In d (map fst ds) /\ incl ds (dims st);
  rv_grid : forall k, k = "latitude" \/ k = "longitude" -> In k (dnames st) -> In k (dnames masks) }.

Lemma coord_array_dim st name ds f : coord_array st name = Some (ds, f) -> In name (dnames st) -> In name (map fst ds).
Proof.
  intros H I. unfold coord_array, coord_of in H. destruct (dget (dims st) name) as [ls|] eqn:E.
  - injection H as <- _. left. auto.
  - apply dget_None in E. contradiction.
Qed.

Lemma regions_masks_spec regions d st masks : wf st -> NoDup (map fst regions) ->
  regions_to_masks regions d st = Ok masks -> regions_view regions d st masks.
Proof.
  intros W N H. unfold regions_to_masks in H.
  destruct (get_coord AttributeError st "latitude") as [[dla fla]|] eqn:Ela; [|discriminate]. cbn in H.
  destruct (get_coord AttributeError st "longitude") as [[dlo flo]|] eqn:Elo; [|discriminate]. cbn in H.
  destruct (mapM _ regions) as [parts|] eqn:Em; [|discriminate]. cbn in H.
  apply region_parts in Em. apply get_coord_Ok in Ela, Elo.
  pose proof (coord_array_ok _ _ _ _ W Ela) as Cla. pose proof (coord_array_ok _ _ _ _ W Elo) as Clo.
  apply stack_Ok in H. destruct H as [_ H].
  pose proof (stack_parts_Ok _ _ _ _ H) as (Hd & Hm & _ & _).
  rewrite bits_labels, (region_labels _ _ _ _ Em) in Hm.
  destruct (bits_mask st d (merge_dims inter_labels dla dlo) parts masks) as [A B]; auto.
  - apply merge_incl; auto; [apply Cla|apply Clo].
  - apply NoDup_merge; [apply Cla|apply Clo].
  - rewrite (region_labels _ _ _ _ Em). apply region_NoDup, N.
  - clear -Em Cla Clo. induction Em as [|r p rs ps (_ & f & _ & E) _ IH]; constructor; auto. rewrite E.
    intros e e' He. rewrite (co_only _ _ _ _ Cla e e'), (co_only _ _ _ _ Clo e e'); auto; intros k Hk; apply He; apply names_merge; auto.
  - rewrite (region_labels _ _ _ _ Em) in A. split; auto.
    + intros L name la lo e x y I Hx Hy.
      assert (exists p, In p parts /\ region_part fla flo (name, (la, lo)) p) as (p & Ip & E & f & Ef & Es).
      { clear -Em I. induction Em as [|r p rs ps A _ IH]; [destruct I|]. destruct I as [->|I]; [exists p; split; [left; auto|auto]|].
        destruct (IH I) as (q & Q1 & Q2). exists q. split; [right|]; auto. }
      destruct p as [l g]. cbn [fst snd] in E, Ef, Es. rewrite (B (LS name) g e) by (rewrite <- E; auto).
      apply shows_b2v. rewrite Es. rewrite (coord_number _ _ _ _ e x Cla L Hx), (coord_number _ _ _ _ e y Clo L Hy).
      rewrite andb_true_iff, (lat_mask_spec _ _ x Ef), lon_mask_arc. cbn. tauto.
    + exists (merge_dims inter_labels dla dlo). split; auto. split; auto. apply merge_incl; auto; [apply Cla|apply Clo].
    + intros k Hk I. unfold dnames. rewrite Hm. cbn [map fst]. right. apply names_merge.
      destruct Hk as [-> | ->]; [left; eapply coord_array_dim; eauto|right; eapply coord_array_dim; eauto].
Qed.

Lemma regions_masks_ok regions d st : wf st -> ~ In d (dnames st) ->
  ((exists m, regions_to_masks regions d st = Ok m) <->
   has_coord st "latitude" /\ has_coord st "longitude" /\ regions <> [] /\
   forall name la lo, In (name, (la, lo)) regions -> (fst la < snd la)%Q).
Proof.
  intros W Nd. unfold regions_to_masks. rewrite !has_coord_iff. unfold get_coord.
  destruct (coord_array st "latitude") as [[dla fla]|] eqn:Ela; cbn.
  2:{ split; [intros [m H]; discriminate|intros ((c & H) & _); discriminate]. }
  destruct (coord_array st "longitude") as [[dlo flo]|] eqn:Elo; cbn.
  2:{ split; [intros [m H]; discriminate|intros (_ & (c & H) & _); discriminate]. }
  pose proof (coord_array_ok _ _ _ _ W Ela) as Cla. pose proof (coord_array_ok _ _ _ _ W Elo) as Clo.
  split.
  - intros [m H]. split; [eauto|]. split; [eauto|].
    destruct (mapM _ regions) as [parts|] eqn:Em; [|discriminate]. cbn in H. apply stack_Ok in H. destruct H as [H _]. split.
    + intros ->. cbn in Em. injection Em as <-. auto.
    + intros name la lo I. destruct (mapM_defined _ _ _ Em _ I) as (p & _ & Ep). cbn [fst snd] in Ep. apply lat_mask_Ok.
      unfold region_to_mask in Ep. destruct (create_lat_mask la); [eauto|discriminate].
  - intros (_ & _ & Nr & H).
    destruct (mapM_total (fun r => do f <- region_to_mask fla flo (fst (snd r)) (snd (snd r)); Ok (LS (fst r), f)) regions) as [parts Ep].
    { intros (name & la & lo) I. cbn [fst snd]. unfold region_to_mask. apply H in I. apply lat_mask_Ok in I. destruct I as [f ->]. cbn. eauto. }
    rewrite Ep. change (exists m, stack d (merge_dims inter_labels dla dlo) parts = Ok m). unfold stack. pose proof (mapM_Ok_length _ _ Ep) as EL. destruct parts as [|p ps]; [destruct regions; [congruence|discriminate]|].
    apply stack_parts_iff. rewrite names_merge. intros [C|C]; apply Nd; unfold dnames; apply in_map_iff in C; destruct C as (q & <- & C); apply in_map;
      [apply Cla, C|apply Clo, C].
Qed.

(** ** Land masks *)
Lemma count_NoDup_In (a : list label) x : NoDup a -> (In x a <-> count_occ eq_dec a x = 1%nat).
Proof.
  intros N. split; intros H.
  - pose proof (proj1 (NoDup_count_occ eq_dec a) N x). apply (count_occ_In eq_dec) in H. lia.
  - apply (count_occ_In eq_dec). lia.
Qed.
Lemma same_multiset_In a b : same_multiset a b = true -> forall x, In x a <-> In x b.
Proof.
  unfold same_multiset. rewrite forallb_forall. intros H x.
  destruct (in_dec eq_dec x (a ++ b)) as [I|I].
  - apply H, Nat.eqb_eq in I. rewrite !(count_occ_In eq_dec). rewrite I. tauto.
  - rewrite in_app_iff in I. tauto.
Qed.
Lemma same_multiset_intro a b : NoDup a -> NoDup b -> (forall x, In x a <-> In x b) -> same_multiset a b = true.
Proof.
  intros Na Nb H. unfold same_multiset. apply forallb_forall. intros x I. apply Nat.eqb_eq.
  assert (In x a /\ In x b) as [I1 I2] by (apply in_app_iff in I; specialize (H x); tauto).
  apply count_NoDup_In in I1, I2; auto. congruence.
Qed.

Lemma vmul_b2v a b : vmul (b2v a) (b2v b) = b2v (a && b).
Proof. destruct a, b; unfold b2v, vmul; cbn [andb]; apply f_equal; ring. Qed.


Lemma dget_labels ds k l : dget ds k = Some l -> labels_of ds k = l.
Proof. unfold labels_of. intros ->. reflexivity. Qed.

Lemma filter_ne_all d (ds : dimlist) : ~ In d (map fst ds) -> filter (fun p => negb (String.eqb (fst p) d)) ds = ds.
Proof.
  intros H. apply filter_true. intros p I. apply negb_true_iff, String.eqb_neq. intros <-. apply H, in_map, I.
Qed.


Definition land_check (masks lm : da) : bool :=
  memb "latitude" (dnames masks) && memb "longitude" (dnames masks)
  && same_multiset (labels_of (dims masks) "latitude") (labels_of (dims lm) "latitude")
  && labels_eqb (labels_of (dims masks) "longitude") (labels_of (dims lm) "longitude").

Lemma labels_eqb_true a b : labels_eqb a b = true <-> a = b.
Proof. unfold labels_eqb. destruct (list_eq_dec eq_dec a b); split; congruence. Qed.

Lemma land_check_iff regions d st masks lm : wf st -> wf lm -> ~ In d ["latitude"; "longitude"] ->
  regions_view regions d st masks -> (land_check masks lm = true <-> same_grid st lm).
Proof.
  intros (Ns & W2 & _) Wl Nd V. destruct (rv_dims _ _ _ _ V) as (ds & E & Hd & Hi). unfold land_check, same_grid.
  assert (forall k, k = "latitude" \/ k = "longitude" -> In k (dnames masks) <-> In k (dnames st)) as A.
  { intros k Hk. split; [|apply (rv_grid _ _ _ _ V k Hk)]. unfold dnames. rewrite E. intros [C|C].
    - exfalso. apply Nd. cbn in C. subst d. destruct Hk as [-> | ->]; cbn; auto.
    - apply in_map_iff in C. destruct C as (q & <- & C). apply in_map, Hi, C. }
  assert (forall k, k = "latitude" \/ k = "longitude" -> In k (dnames st) -> labels_of (dims masks) k = labels_of (dims st) k) as B.
  { intros k Hk I. apply A in I; auto. unfold dnames in I. apply in_map_iff in I. destruct I as ([k' ls] & <- & I). cbn [fst].
    pose proof (mf_wf _ _ _ _ (rv_mask _ _ _ _ V)) as (Nm & _). rewrite (dget_labels _ _ _ (In_dget _ _ _ Nm I)). symmetry. apply dget_labels.
    apply In_dget; auto. destruct (mf_dims _ _ _ _ (rv_mask _ _ _ _ V) _ _ I) as [-> |C]; auto. exfalso. apply Nd. cbn [fst] in Hk. destruct Hk as [-> | ->]; cbn; auto. }
  rewrite !andb_true_iff, !memb_In, labels_eqb_true, !A by auto. split.
  - intros (((H1 & H2) & H3) & H4). rewrite !B in * by auto. pose proof (same_multiset_In _ _ H3). auto.
  - intros (H1 & H2 & H3 & H4). rewrite !B by auto. split; [split; [split|]|]; auto. apply same_multiset_intro; auto.
    + unfold dnames in H1. apply in_map_iff in H1. destruct H1 as ([k ls] & E1 & I). cbn in E1. subst k.
      rewrite (dget_labels _ _ _ (In_dget _ _ _ Ns I)). apply (W2 _ _ I).
    + unfold labels_of. destruct (dget (dims lm) "latitude") as [l|] eqn:El; [|constructor]. apply dget_In in El. apply (proj1 (proj2 Wl) _ _ El).
Qed.

Section Land.
  Variables (regions : list (string * (lims * lims))) (d : string) (st masks lm : da).
  Hypothesis (W : wf st) (Wl : wf lm) (G : grid_dims lm) (Nd : ~ In d ["latitude"; "longitude"]).
  Hypothesis N : NoDup (all_names regions).
  Hypothesis V : regions_view regions d st masks.

  Let land_masks := binop vmul masks (da_map (fun x => b2v (vtruthy x)) lm).
  Let names := labels_of (dims masks) d.

  Lemma land_names : names = map (fun r => LS (fst r)) regions.
  Proof. apply dget_labels, (mf_labels _ _ _ _ (rv_mask _ _ _ _ V)). Qed.

  Lemma land_dims : land_check masks lm = true -> dims land_masks = dims masks.
  Proof.
    intros H. unfold land_check in H. apply andb_true_iff in H. destruct H as [H H4]. apply andb_true_iff in H. destruct H as [H H3].
    apply andb_true_iff in H. destruct H as [H1 H2]. apply memb_In in H1, H2. apply labels_eqb_true in H4. pose proof (same_multiset_In _ _ H3) as H5.
    unfold land_masks, binop, da_map. cbn [dims]. apply merge_sub_eq.
    - apply (mf_wf _ _ _ _ (rv_mask _ _ _ _ V)).
    - apply Wl.
    - intros k l1 l2 A B. assert (k = "latitude" \/ k = "longitude") as C by (apply G; apply (in_map fst) with (x := (k, l2)); apply dget_In, B).
      apply dget_labels in A, B. intros x Hx. destruct C as [-> | ->].
      + rewrite A, B in H5. apply H5, Hx.
      + rewrite A, B in H4. congruence.
    - intros p I. apply (in_map fst) in I. apply G in I. destruct I as [-> | ->]; auto.
  Qed.

  Let parts := map (fun l => (l, fun e => get masks (upd e d l))) names ++ map (fun l => (land_name l, fun e => get land_masks (upd e d l))) names.

  Lemma parts_labels : map fst parts = map LS (all_names regions).
  Proof.
    unfold parts, all_names. rewrite !map_app, !map_map. cbn [fst]. rewrite land_names, !map_map. reflexivity.
  Qed.

  Lemma land_in_bin_region m r e : land_check masks lm = true ->
    stack_parts d (filter (fun p => negb (String.eqb (fst p) d)) (dims land_masks)) parts = Ok m -> In r regions ->
    mask_for st m d (map LS (all_names regions)) /\
    in_bin m d (LS (fst r)) e = in_bin masks d (LS (fst r)) e /\
    (point_of (dims st) e ->
     in_bin m d (LS (fst r ++ "_land")) e = vmul (in_bin masks d (LS (fst r)) e) (b2v (vtruthy (get lm e)))).
  Proof.
    intros Hc Hs Hr. rewrite land_dims in Hs; auto.
    destruct (rv_dims _ _ _ _ V) as (ds & E & Hd & Hi). rewrite E in Hs. cbn [filter fst] in Hs. rewrite String.eqb_refl in Hs. cbn [negb] in Hs.
    rewrite (filter_ne_all _ _ Hd) in Hs.
    assert (NoDup (map fst ds)) as Nds.
    { pose proof (mf_wf _ _ _ _ (rv_mask _ _ _ _ V)) as (A & _). unfold dnames in A. rewrite E in A. now inversion A. }
    assert (forall l, In l names -> only ds (fun e => get masks (upd e d l))) as O1.
    { intros l Hl e1 e2 He. apply (mf_wf _ _ _ _ (rv_mask _ _ _ _ V)). unfold dnames. rewrite E. intros k [<-|Hk]; [rewrite !upd_at; auto|].
      rewrite !upd_other_all by congruence. apply He, Hk. }
    assert (In "latitude" (map fst ds) /\ In "longitude" (map fst ds)) as [Ila Ilo].
    { unfold land_check in Hc. rewrite !andb_true_iff, !memb_In in Hc. unfold dnames in Hc. rewrite E in Hc. cbn [map fst In] in Hc, Nd.
      destruct Hc as [[[H1 H2] _] _]. destruct H1 as [H1|H1]; [exfalso; apply Nd; auto|]. destruct H2 as [H2|H2]; [exfalso; apply Nd; auto|]. auto. }
    assert (forall e l, get lm (upd e d l) = get lm e) as Ul.
    { intros e1 l. apply Wl. intros k Hk. apply G in Hk. apply upd_other_all. intros ->. apply Nd. cbn. destruct Hk as [-> | ->]; auto. }
    assert (forall e1 e2, (forall k, In k (map fst ds) -> e1 k = e2 k) -> get lm e1 = get lm e2) as Ol.
    { intros e1 e2 He. apply Wl. intros k Hk. apply G in Hk. apply He. destruct Hk as [-> | ->]; auto. }
    assert (forall l e1, In l names -> (exists b, get masks (upd e1 d l) = b2v b) \/ ~ point_of ds e1) as Z1.
    { intros l e1 Hl. destruct (in_box ds e1) eqn:B.
      - left. destruct (mf_01 _ _ _ _ (rv_mask _ _ _ _ V) (upd e1 d l)) as [C|C]; [|exists false; exact C|exists true; exact C].
        intros k ls I. rewrite E in I. destruct I as [[= <- <-]|I]; [rewrite upd_at; rewrite land_names in Hl; exact Hl|].
        rewrite upd_other_all. apply in_box_iff in B. apply (B k ls I). intros ->. apply Hd. apply (in_map fst _ _ I).
      - right. rewrite <- in_box_iff. congruence. }
    pose proof (stack_parts_Ok _ _ _ _ Hs) as (_ & Hm & _ & Hg).
    assert (NoDup (map fst parts)) as Np. { rewrite parts_labels. apply NoDup_map_inj; auto. intros ? ? [=]; auto. }
    assert (In (LS (fst r)) names) as In1. { rewrite land_names. apply (in_map (fun r => LS (fst r))), Hr. }
    assert (forall l f e1, In (l, f) parts -> only ds f -> in_bin m d l e1 = f e1) as B.
    { intros l f e1 I O. unfold in_bin. rewrite Hg, upd_at, (In_dget _ _ _ Np I). apply O. intros k Hk. apply upd_other_all. congruence. }
    assert (forall l, In l names -> only ds (fun e => get land_masks (upd e d l))) as O2.
    { intros l Hl e1 e2 He. unfold land_masks, binop, da_map. cbn [get]. rewrite !Ul. rewrite (Ol e1 e2 He). f_equal. apply (O1 l Hl e1 e2 He). }
    split; [|split].
    - split.
      + split; [|split].
        * unfold dnames. rewrite Hm. cbn. constructor; auto.
        * intros k ls I. rewrite Hm in I. destruct I as [[= <- <-]|I]; [exact Np|]. apply (proj1 (proj2 W) k), Hi, I.
        * intros e1 e2 He. unfold dnames in He. rewrite Hm in He. cbn [map fst] in He. rewrite !Hg, (He d) by (left; auto).
          destruct (dget parts (e2 d)) as [f|] eqn:F; auto. apply dget_In in F. unfold parts in F. apply in_app_iff in F.
          destruct F as [F|F]; apply in_map_iff in F; destruct F as (l & F & Hl); injection F as F1 F2; rewrite <- F2;
            [apply (O1 l Hl)|apply (O2 l Hl)]; intros k Hk; apply He; right; auto.
      + rewrite Hm. simpl. destruct (eq_dec d d); [|congruence]. rewrite parts_labels. reflexivity.
      + intros k ls I. rewrite Hm in I. destruct I as [[= <- <-]|I]; auto.
      + intros e1 He. rewrite Hg. assert (point_of ds e1) as Hp by (intros k ls I; apply He; rewrite Hm; right; auto).
        destruct (dget parts (e1 d)) as [f|] eqn:F.
        2:{ exfalso. apply dget_None in F. apply F. apply (He d (map fst parts)). rewrite Hm. left. auto. }
        apply dget_In in F. unfold parts in F. apply in_app_iff in F.
        destruct F as [F|F]; apply in_map_iff in F; destruct F as (l & F & Hl); injection F as F1 F2; rewrite <- F2.
        * destruct (Z1 l e1 Hl) as [(b & ->)|C]; [|contradiction]. destruct b; [right|left]; reflexivity.
        * unfold land_masks, binop, da_map. cbn [get]. destruct (Z1 l e1 Hl) as [(b & ->)|C]; [|contradiction]. rewrite vmul_b2v.
          destruct (b && _); [right|left]; reflexivity.
    - rewrite (B (LS (fst r)) (fun e => get masks (upd e d (LS (fst r))))); auto.
      unfold parts. apply in_app_iff. left. apply (in_map (fun l => (l, fun e => get masks (upd e d l)))), In1.
    - intros _. rewrite (B (LS (fst r ++ "_land")) (fun e => get land_masks (upd e d (LS (fst r))))); auto.
      + unfold land_masks, binop, da_map. cbn [get]. rewrite Ul. reflexivity.
      + unfold parts. apply in_app_iff. right. apply (in_map (fun l => (land_name l, fun e => get land_masks (upd e d l))) names (LS (fst r)) In1).
  Qed.
End Land.

Lemma NoDup_app_l {A} (a b : list A) : NoDup (a ++ b) -> NoDup a.
Proof.
  induction a as [|x a IH]; cbn; intros N; constructor; inversion N; subst; auto. intros I. apply H1, in_app_iff. auto.
Qed.
