(** C34 and C37: regions, land and sea. *)
From Coq Require Import String ZArith QArith Qround Qcanon Bool List Lia Lqa.
Import ListNotations.
From Verif Require Import Prelude Values Model_XArray Spec_XArray Proofs_XArray Model_Deterministic Model_Aggregation
  Model_Binning Spec_Binning Proofs_Binning Proofs_Binning2 Proofs_Seeps.
From Coq Require Import Reals.
Local Open Scope string_scope.
Local Open Scope list_scope.

(** ** C34 *)

(** The mask has one bin per region; a point is in the bin exactly when its latitude is in the
    closed interval and its longitude on the closed arc eastwards from the first to the second
    limit (the full circle when they coincide modulo 360). *)
Theorem C34_regions regions d st m :
  wf st -> coords_local st -> NoDup (map fst regions) -> create_bin_mask (Regions regions d None) st = Ok m ->
  mask_for st m d (map (fun r => LS (fst r)) regions) /\
  forall name lat_lims lon_lims e lat lon, In (name, (lat_lims, lon_lims)) regions ->
    number_at st "latitude" e lat -> number_at st "longitude" e lon ->
    shows (in_bin m d (LS name) e)
          ((fst lat_lims <= lat <= snd lat_lims)%Q /\ on_arc (fst lon_lims) (snd lon_lims) lon).
Proof.
  intros W L N H. unfold Regions in H. cbn [create_bin_mask] in H.
  destruct (regions_to_masks regions d st) as [masks|] eqn:E; [|discriminate]. injection H as <-.
  pose proof (regions_masks_spec _ _ _ _ W N E) as V. split; [apply V|].
  intros. eapply (rv_value _ _ _ _ V); eauto.
Qed.

(** When it succeeds, and that bad latitude limits (and an empty region table) are a ValueError. *)
Theorem C34_success regions d st : wf st -> ~ In d (dnames st) ->
  ((exists m, create_bin_mask (Regions regions d None) st = Ok m) <->
   has_coord st "latitude" /\ has_coord st "longitude" /\ regions <> [] /\
   forall name lat_lims lon_lims, In (name, (lat_lims, lon_lims)) regions -> (fst lat_lims < snd lat_lims)%Q).
Proof.
  intros W Nd. rewrite <- (regions_masks_ok regions d st W Nd). unfold Regions. cbn [create_bin_mask].
  destruct (regions_to_masks regions d st) as [m|]; split; intros [x H]; try discriminate; eauto.
Qed.
Theorem C34_bad_limits (regions : list (string * (lims * lims))) d st name (lat_lims lon_lims : lims) : wf st -> has_coord st "latitude" -> has_coord st "longitude" ->
  In (name, (lat_lims, lon_lims)) regions -> (snd lat_lims <= fst lat_lims)%Q ->
  create_bin_mask (Regions regions d None) st = Err ValueError.
Proof.
  intros W H1 H2 I Hl. unfold Regions. cbn [create_bin_mask]. unfold regions_to_masks, get_coord.
  apply has_coord_iff in H1, H2. destruct H1 as [[dla fla] ->], H2 as [[dlo flo] ->].
  cbn [snd].
  assert (mapM (fun r => do f <- region_to_mask fla flo (fst (snd r)) (snd (snd r)); Ok (LS (fst r), f)) regions = Err ValueError) as E.
  { clear -I Hl. induction regions as [|r rs IH]; [destruct I|]. cbn [mapM].
    destruct (region_to_mask fla flo (fst (snd r)) (snd (snd r))) as [f|k] eqn:F; cbn [bind].
    - destruct I as [->|I].
      + exfalso. cbn [fst snd] in F. unfold region_to_mask in F. destruct (create_lat_mask lat_lims) as [g|] eqn:Eg; [|discriminate].
        assert (fst lat_lims < snd lat_lims)%Q by (apply lat_mask_Ok; eauto). lra.
      + rewrite (IH I). reflexivity.
    - unfold region_to_mask in F. destruct (create_lat_mask (fst (snd r))) as [g|k'] eqn:Eg; [discriminate|].
      injection F as <-. unfold create_lat_mask in Eg. destruct (Qle_bool _ _); [|discriminate]. injection Eg as <-. reflexivity. }
  cbn [bind snd fst]. rewrite E. reflexivity.
Qed.

(** Whole turns added to a longitude limit or to the longitude of the data change nothing. *)
Theorem C34_full_turns regions regions' d st st' m m' name lims e e' lat lon k :
  wf st -> coords_local st -> wf st' -> coords_local st' -> NoDup (map fst regions) -> Forall2 turned regions regions' ->
  create_bin_mask (Regions regions d None) st = Ok m -> create_bin_mask (Regions regions' d None) st' = Ok m' ->
  In (name, lims) regions -> number_at st "latitude" e lat -> number_at st' "latitude" e' lat ->
  number_at st "longitude" e lon -> (exists lon', number_at st' "longitude" e' lon' /\ lon' == lon + turns k)%Q ->
  in_bin m d (LS name) e = in_bin m' d (LS name) e'.
Proof.
  intros W L W' L' N F H H' I La La' Lo (lon' & Lo' & E).
  assert (map fst regions = map fst regions') as Nm by (clear -F; induction F as [|r r' ? ? (A & _) _ IH]; cbn; congruence).
  assert (exists r', In r' regions' /\ turned (name, lims) r') as ((name' & (la' & lo')) & I' & T).
  { clear -F I. induction F as [|r r' rs rs' A _ IH]; [destruct I|]. destruct I as [->|I]; [exists r'; split; [left|]; auto|].
    destruct (IH I) as (q & Q1 & Q2). exists q. split; [right|]; auto. }
  destruct lims as [la lo]. destruct T as (T1 & T2 & (j1 & T3) & (j2 & T4)). cbn [fst snd] in *. subst name' la'.
  apply C34_regions in H; auto. apply C34_regions in H'; auto; [|congruence].
  destruct H as [_ H], H' as [_ H']. specialize (H _ _ _ _ _ _ I La Lo). specialize (H' _ _ _ _ _ _ I' La' Lo').
  refine (shows_fun _ _ _ _ _ H H'). apply and_iff_compat_l. unfold on_arc, turns in *. split.
  - intros (w & kk & j & A & B & C). exists w, (kk - k + j1)%Z, (j + j2 - j1)%Z. unfold Z.sub. rewrite !inject_Z_plus, !inject_Z_opp.
    split; [|split]; try split; lra.
  - intros (w & kk & j & A & B & C). exists w, (kk + k - j1)%Z, (j - j2 + j1)%Z. unfold Z.sub. rewrite !inject_Z_plus, !inject_Z_opp.
    split; [|split]; try split; lra.
Qed.

(** ** C37 *)

Lemma vtruthy_iff x : vtruthy x = true <-> x <> Fin 0%R.
Proof.
  unfold vtruthy. rewrite negb_true_iff. destruct x as [r| | |]; cbn; try (split; [discriminate|reflexivity]).
  split.
  - intros H [= ->]. rewrite (proj2 (Reqb_true 0 0)%R) in H; auto. discriminate.
  - intros H. destruct (Reqb r 0) eqn:E; auto. apply Reqb_true in E. congruence.
Qed.

Lemma is_land_iff fr thr e : vleb (Fin thr) (get fr e) = true <-> is_land fr thr e.
Proof.
  unfold is_land. destruct (get fr e) as [r| | |]; cbn.
  - rewrite vleb_Fin. split.
    + intros H. right. exists r. split; auto. apply Rleb_true, H.
    + intros [H|(s & [= <-] & H)]; [discriminate|]. apply Rleb_true, H.
  - unfold vleb; cbn. split; [discriminate|]. intros [H|(s & H & _)]; discriminate.
  - unfold vleb; cbn. tauto.
  - unfold vleb; cbn. split; [discriminate|]. intros [H|(s & H & _)]; discriminate.
Qed.

(** LandSea: land where the fraction reaches the threshold, sea everywhere else (so a missing
    fraction is sea), and, if asked for, a bin with every point. *)
Theorem C37_land_sea fraction threshold d include_global st m :
  wf fraction -> create_bin_mask (LandSea fraction threshold d include_global) st = Ok m ->
  mask_for fraction m d ([LS "land"; LS "sea"] ++ if include_global then [LS "global"] else []) /\
  forall e,
    shows (in_bin m d (LS "land") e) (is_land fraction threshold e) /\
    shows (in_bin m d (LS "sea") e) (~ is_land fraction threshold e) /\
    (include_global = true -> in_bin m d (LS "global") e = Fin 1%R) /\
    (get fraction e = NaN -> in_bin m d (LS "sea") e = Fin 1%R).
Proof.
  intros W H. unfold LandSea in H. cbn [create_bin_mask] in H. apply stack_Ok in H. destruct H as [_ H].
  set (land := fun e => vleb (Fin threshold) (get fraction e)) in *.
  set (parts := [(LS "land", land); (LS "sea", fun e => negb (land e))] ++ (if include_global then [(LS "global", fun _ => true)] else [])) in *.
  assert (map fst parts = [LS "land"; LS "sea"] ++ if include_global then [LS "global"] else []) as El by (unfold parts; destruct include_global; reflexivity).
  assert (only (dims fraction) land) as O. { intros e e' He. unfold land. f_equal. apply W, He. }
  destruct (bits_mask fraction d (dims fraction) parts m) as [A B]; auto.
  - intros p Hp; exact Hp.
  - apply W.
  - rewrite El. destruct include_global; repeat constructor; cbn; intuition discriminate.
  - unfold parts. apply Forall_app. split; [|destruct include_global; repeat constructor].
    repeat constructor; auto. intros e e' He. cbn. f_equal. apply O, He.
  - rewrite El in A. split; auto. intros e.
    assert (shows (in_bin m d (LS "sea") e) (~ is_land fraction threshold e)) as S.
    { rewrite (B (LS "sea") (fun e => negb (land e))) by (unfold parts; cbn; auto). apply shows_b2v.
      rewrite negb_true_iff, <- is_land_iff. unfold land. destruct (vleb _ _); split; congruence. }
    split; [|split; [|split]]; auto.
    + rewrite (B (LS "land") land) by (left; auto). apply shows_b2v. apply is_land_iff.
    + intros ->. rewrite (B (LS "global") (fun _ => true)); auto. unfold parts. cbn. auto.
    + intros Hn. destruct S as [[_ S]|[S _]]; auto. exfalso. apply S. unfold is_land. rewrite Hn. intros [C|(r & C & _)]; discriminate.
Qed.
Theorem C37_land_sea_success fraction threshold d include_global st :
  (exists m, create_bin_mask (LandSea fraction threshold d include_global) st = Ok m) <-> ~ In d (dnames fraction).
Proof. apply stack_parts_iff. Qed.

(** Regions with a land-sea mask on the grid of the statistic: the region bins are as without
    the mask, and each region has a second bin for its points on land. *)
Theorem C37_regions_land regions d land st m :
  wf st -> coords_local st -> wf land -> grid_dims land -> ~ In d ["latitude"; "longitude"] ->
  NoDup (all_names regions) -> create_bin_mask (Regions regions d (Some land)) st = Ok m ->
  mask_for st m d (map LS (all_names regions)) /\
  forall name lat_lims lon_lims e lat lon, In (name, (lat_lims, lon_lims)) regions -> point_of (dims st) e ->
    number_at st "latitude" e lat -> number_at st "longitude" e lon ->
    let inside := (fst lat_lims <= lat <= snd lat_lims)%Q /\ on_arc (fst lon_lims) (snd lon_lims) lon in
    shows (in_bin m d (LS name) e) inside /\
    shows (in_bin m d (LS (name ++ "_land")) e) (inside /\ get land e <> Fin 0%R).
Proof.
  intros W L Wl G Nd N H. unfold Regions in H. cbn [create_bin_mask] in H.
  destruct (regions_to_masks regions d st) as [masks|] eqn:E; [|discriminate]. cbn [bind] in H.
  assert (NoDup (map fst regions)) as N1. { unfold all_names in N. apply NoDup_app_l in N. exact N. }
  pose proof (regions_masks_spec _ _ _ _ W N1 E) as V.
  fold (land_check masks land) in H. destruct (land_check masks land) eqn:C; [|discriminate].
  assert (regions <> []) as Ne. { intros ->. unfold regions_to_masks in E. destruct (get_coord _ _ _) as [[]|]; [|discriminate]. cbn in E.
    destruct (get_coord _ _ _) as [[]|]; discriminate. }
  destruct regions as [|r0 rs] eqn:Er; [congruence|]. rewrite <- Er in *.
  assert (In r0 regions) as I0 by (rewrite Er; left; auto). split.
  - eapply (land_in_bin_region regions d st masks land); eauto. exact env0.
  - intros name la lo e lat lon I P Hla Hlo inside.
    destruct (land_in_bin_region regions d st masks land W Wl G Nd N V m (name, (la, lo)) e C H I) as (_ & E1 & E2). cbn [fst] in E1, E2.
    pose proof (rv_value _ _ _ _ V L name la lo e lat lon I Hla Hlo) as S. fold inside in S. rewrite E1. split; auto.
    rewrite (E2 P). assert (exists b, in_bin masks d (LS name) e = b2v b /\ (b = true <-> inside)) as (b & Eb & Hb).
    { destruct S as [[S1 S2]|[S1 S2]]; [exists true|exists false]; split; auto; split; auto; intros; try discriminate; contradiction. }
    rewrite Eb, vmul_b2v. apply shows_b2v. rewrite andb_true_iff, vtruthy_iff, Hb. tauto.
Qed.

(** It is an AssertionError exactly when the grids differ (latitudes as sets, longitudes as
    sequences). *)
Theorem C37_same_grid regions d land st : wf st -> wf land -> grid_dims land -> ~ In d ["latitude"; "longitude"] ->
  NoDup (map fst regions) -> (exists m, create_bin_mask (Regions regions d None) st = Ok m) ->
  ((exists m, create_bin_mask (Regions regions d (Some land)) st = Ok m) <-> same_grid st land) /\
  (create_bin_mask (Regions regions d (Some land)) st = Err AssertionError <-> ~ same_grid st land).
Proof.
  intros W Wl G Nd N [m0 H0]. unfold Regions in *. cbn [create_bin_mask] in *.
  destruct (regions_to_masks regions d st) as [masks|] eqn:E; [|discriminate]. cbn [bind] in *.
  pose proof (regions_masks_spec _ _ _ _ W N E) as V.
  rewrite <- (land_check_iff regions d st masks land); auto. fold (land_check masks land).
  destruct (land_check masks land) eqn:C.
  - set (parts := _ ++ _). clearbody parts. unfold stack_parts. rewrite (land_dims regions d st masks land Wl G V C).
    destruct (rv_dims _ _ _ _ V) as (ds & Ed & Hd & _). rewrite Ed. cbn [filter fst]. rewrite String.eqb_refl. cbn [negb]. rewrite (filter_ne_all _ _ Hd).
    rewrite (proj2 (memb_false _ _) Hd). split; split; eauto; intros; try discriminate; try congruence; try contradiction.
  - split; split; intros; try discriminate; auto. destruct H as [m H]. discriminate.
Qed.

(** Without distinct names (a region called like another one's land bin) two bins get the same
    label. *)
Theorem C37_distinct_labels_refuted :
  exists regions land st m ls, NoDup (map fst regions) /\ wf st /\ wf land /\ same_grid st land /\
    create_bin_mask (Regions regions "region" (Some land)) st = Ok m /\
    dget (dims m) "region" = Some ls /\ ~ NoDup ls.
Proof.
  set (g := mkDa [("latitude", [LZ 0]); ("longitude", [LZ 10])] (fun _ => Fin 1%R) []).
  assert (wf g) as W. { split; [repeat constructor; cbn; intuition discriminate|split; [|auto]].
    intros d ls [[= <- <-]|[[= <- <-]|[]]]; repeat constructor; cbn; tauto. }
  exists [("a", ((-10, 10), (0, 20))); ("a_land", ((-10, 10), (0, 20)))]%Q, g, g.
  eexists. eexists. split; [repeat constructor; cbn; intuition discriminate|]. split; [exact W|]. split; [exact W|].
  split. { split; [cbn; auto|split; [cbn; auto|split; [tauto|reflexivity]]]. }
  split; [reflexivity|]. split; [reflexivity|]. intros N.
  inversion N as [|? ? _ N1 E1]; subst. inversion N1 as [|? ? B _ E2]; subst. apply B. left. reflexivity.
Qed.

(** ** A case meeting the hypotheses *)
Section Example1.
  Let st := mkDa [("latitude", [LZ 10; LZ 50]); ("longitude", [LZ 0; LZ 350])] (fun e => if eq_dec (e "latitude") (LZ 10) then Fin 1%R else NaN) [].
  Let land := mkDa [("latitude", [LZ 50; LZ 10]); ("longitude", [LZ 0; LZ 350])] (fun e => if eq_dec (e "longitude") (LZ 0) then Fin 1%R else Fin 0%R) [].
  Let regions := [("tropics", ((-20, 20), (0, 360))); ("europe", ((35, 75), (-12, 42)))]%Q.
  Example C34_C37_example : wf st /\ coords_local st /\ wf land /\ grid_dims land /\ same_grid st land /\ NoDup (all_names regions) /\
    exists m, create_bin_mask (Regions regions "region" (Some land)) st = Ok m /\
    let e := upd (upd env0 "latitude" (LZ 50)) "longitude" (LZ 350) in
    number_at st "latitude" e 50 /\ number_at st "longitude" e 350 /\ on_arc (-12) 42 350 /\
    in_bin m "region" (LS "europe") e = Fin 1%R /\ in_bin m "region" (LS "europe_land") e = Fin 0%R.
  Proof.
    assert (wf st) as W. { split; [repeat constructor; cbn; intuition discriminate|split].
      - intros d ls [[= <- <-]|[[= <- <-]|[]]]; repeat constructor; cbn; intuition discriminate.
      - intros e e' H. unfold st. cbn [get]. rewrite (H "latitude"); cbn; auto. }
    assert (wf land) as Wl. { split; [repeat constructor; cbn; intuition discriminate|split].
      - intros d ls [[= <- <-]|[[= <- <-]|[]]]; repeat constructor; cbn; intuition discriminate.
      - intros e e' H. unfold land. cbn [get]. rewrite (H "longitude"); cbn; auto. }
    assert (coords_local st) as L by (intros k c H; discriminate).
    assert (grid_dims land) as G by (intros k; cbn; intuition).
    assert (same_grid st land) as SG. { split; [cbn; auto|split; [cbn; auto|split; [cbn; tauto|reflexivity]]]. }
    assert (NoDup (all_names regions)) as N by (repeat constructor; cbn; intuition discriminate).
    repeat (split; [assumption|]).
    destruct (create_bin_mask (Regions regions "region" (Some land)) st) as [m|] eqn:E; [|discriminate].
    exists m. split; auto. intros e.
    assert (number_at st "latitude" e 50) as N1 by (exists (LZ 50); split; [left; cbn; auto|apply number_Z]).
    assert (number_at st "longitude" e 350) as N2 by (exists (LZ 350); split; [left; cbn; auto|apply number_Z]).
    assert (on_arc (-12) 42 350) as A.
    { exists 54%Q, (-1)%Z, 0%Z; unfold turns; change (inject_Z (-1)) with (-1)%Q; change (inject_Z 0) with 0%Q; split; [split; lra|split; [lra|split; lra]]. }
    repeat (split; [assumption|]).
    apply C37_regions_land in E; auto; [|cbn; intuition discriminate]. destruct E as [_ E].
    destruct (E "europe" (35, 75)%Q (-12, 42)%Q e 50%Q 350%Q) as [E1 E2]; auto.
    { right; left; reflexivity. }
    { intros d ls [[= <- <-]|[[= <- <-]|[]]]; cbn; auto. }
    cbn [fst snd] in E1, E2. split.
    - destruct E1 as [[_ E1]|[E1 _]]; auto. exfalso. apply E1. split; [split; lra|auto].
    - destruct E2 as [[[_ E2] _]|[_ E2]]; auto. exfalso. apply E2. reflexivity.
  Qed.
End Example1.

Print Assumptions C34_regions. Print Assumptions C34_success. Print Assumptions C34_bad_limits. Print Assumptions C34_full_turns.
Print Assumptions C37_land_sea. Print Assumptions C37_land_sea_success. Print Assumptions C37_regions_land. Print Assumptions C37_same_grid.
Print Assumptions C37_distinct_labels_refuted.
