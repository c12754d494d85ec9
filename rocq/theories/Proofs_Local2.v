(** Shipped weightings and binnings look at each time separately (Spec_Beam.time_local). *)
From Coq Require Import String ZArith QArith Qround Qcanon Bool List Lia.
Import ListNotations.
From Verif Require Import Prelude Values Model_XArray Spec_XArray Proofs_XArray Model_Deterministic Model_Aggregation Model_TimeChunks Model_Beam Spec_Beam
  Model_Calendar Model_Binning Spec_Binning Proofs_Binning Proofs_Binning2 Proofs_Binning3 Proofs_Binning4 Model_Weighting Proofs_Local.
From Coq Require Import Reals.
Local Open Scope string_scope.
Local Open Scope list_scope.

Lemma never_local b f : (forall a x, f a <> Ok x) -> time_local b f.
Proof. intros H a x _ Ha. exfalso. apply (H a x Ha). Qed.

Lemma grid_area_local lat norm : ~ time_dim lat -> time_local [] (GridAreaWeighting lat norm).
Proof.
  intros Hl. apply const_local. intros a x Wa Ha.
  assert (forall I L c, wf c -> time_slice I L a c -> GridAreaWeighting lat norm c = GridAreaWeighting lat norm a) as C.
  { intros I L c Wc (Dc & Ac & _). unfold GridAreaWeighting. rewrite Dc, Ac, chunk_dget. destruct (dget (dims a) lat) as [ls|]; auto. rewrite chunk_no_time by auto. reflexivity. }
  assert (wf x /\ (forall d, In d (dnames x) -> ~ time_dim d)) as [A B].
  { unfold GridAreaWeighting in Ha. destruct (dget (dims a) lat) as [ls|] eqn:E.
    - cbv zeta in Ha. destruct (is_strictly_monotonic _); [|discriminate]. destruct (map _ ls) as [|l0 [|l1 r]]; try discriminate. destruct (cell_area_from_latitude _) as [W|]; [|discriminate]. cbn [bind] in Ha. injection Ha as <-.
      split; [|intros d [<-|[]]; auto]. split; [repeat constructor; cbn; tauto|]. split.
      + intros d l [[= <- <-]|[]]. apply dget_In in E. destruct Wa as (_ & B & _). apply (B _ _ E).
      + intros e e' He. cbn [get]. rewrite (He lat) by (left; auto). reflexivity.
    - injection Ha as <-. split; [|intros d []]. split; [constructor|split; [intros d l []|auto]]. }
  split; auto. split; auto. intros I L c Wc S. rewrite (C I L c Wc S). exact Ha.
Qed.

Lemma only_fun ds (g : env -> label) {A} (h : label -> A) : only ds g -> only ds (fun e => h (g e)).
Proof. intros O e e' He. rewrite (O e e' He). reflexivity. Qed.
Lemma stack_nonempty d ds parts : parts <> [] -> stack d ds parts = stack_parts d ds (bits parts).
Proof. destruct parts; [congruence|reflexivity]. Qed.

Lemma coord_bins_local fmt name edges g : ~ time_dim name -> NoDup (map (bin_label fmt g) (removelast edges) ++ glob_labels g) ->
  time_local [] (create_bin_mask (ByCoordBins fmt name edges g)).
Proof.
  intros Hd N.
  set (P := fun f : env -> label => map (fun ab : label * label => ((if g then cast_str fmt (fst ab) else fst ab),
       fun e => Qle_bool (lnum (fst ab)) (lnum (f e)) && Qltb (lnum (f e)) (lnum (snd ab)))) (pairs edges) ++ glob g).
  assert (forall f, map fst (P f) = map (bin_label fmt g) (removelast edges) ++ glob_labels g) as El.
  { intros f. unfold P. rewrite map_app, glob_fst, map_map. cbn [fst]. f_equal. rewrite <- pairs_fst, map_map. apply map_ext. intros ab. reflexivity. }
  assert (forall ds f, only ds f -> Forall (fun p => only ds (snd p)) (P f)) as O.
  { intros ds f Of. unfold P. apply Forall_app. split; [|apply glob_only]. apply Forall_map, Forall_forall. intros ab _. cbn [snd]. intros e e' He. rewrite (Of e e' He). reflexivity. }
  destruct (removelast edges) eqn:Er; [destruct g eqn:Eg|].
  - apply (one_coord_local KeyError name name _ P _ Hd N El O). intros st. unfold ByCoordBins. cbn [create_bin_mask]. destruct (get_coord KeyError st name) as [c|]; auto. cbn [bind].
    change (map _ (pairs edges) ++ _) with (P (snd c)). destruct (P (snd c)) eqn:Ep; [|rewrite <- Ep; rewrite stack_nonempty; [reflexivity|congruence]].
    specialize (El (snd c)). rewrite Ep in El. discriminate.
  - apply (broadcast_local KeyError name name _ P _ Hd N El O). intros st. unfold ByCoordBins. cbn [create_bin_mask]. destruct (get_coord KeyError st name) as [c|]; auto. cbn [bind].
    change (map _ (pairs edges) ++ _) with (P (snd c)). specialize (El (snd c)). destruct (P (snd c)) eqn:Ep; [reflexivity|discriminate].
  - apply (one_coord_local KeyError name name _ P _ Hd N El O). intros st. unfold ByCoordBins. cbn [create_bin_mask]. destruct (get_coord KeyError st name) as [c|]; auto. cbn [bind].
    change (map _ (pairs edges) ++ _) with (P (snd c)). destruct (P (snd c)) eqn:Ep; [|rewrite <- Ep; rewrite stack_nonempty; [reflexivity|congruence]].
    specialize (El (snd c)). rewrite Ep in El. discriminate.
Qed.

Definition set_labels' {A} (sets : list (string * A)) (complements add_global : bool) : list label :=
  flat_map (fun ns => LS (fst ns) :: if complements then [LS ("not_in_" ++ fst ns)] else []) sets ++ glob_labels add_global.
Lemma sets_local sets name d complements g b : BySets sets name (Some d) complements g = Ok b -> ~ time_dim d -> NoDup (set_labels' sets complements g) ->
  time_local [] (create_bin_mask b).
Proof.
  intros Hb Hd N. unfold BySets in Hb. destruct (String.eqb d name); [discriminate|]. injection Hb as <-. cbn [create_bin_mask].
  set (P := fun f : env -> label => flat_map (fun ns : string * list label => (LS (fst ns), fun e => isin (snd ns) (f e))
      :: (if complements then [(LS ("not_in_" ++ fst ns), fun e => negb (isin (snd ns) (f e)))] else [])) sets ++ glob g).
  assert (forall f, map fst (P f) = set_labels' sets complements g) as El.
  { intros f. unfold P, set_labels'. rewrite map_app, glob_fst. f_equal. clear. induction sets as [|s ss IH]; auto. cbn [flat_map]. rewrite map_app, IH. destruct complements; reflexivity. }
  assert (forall ds f, only ds f -> Forall (fun p => only ds (snd p)) (P f)) as O.
  { intros ds f Of. unfold P. apply Forall_app. split; [|apply glob_only]. apply Forall_forall. intros p Ip. apply in_flat_map in Ip. destruct Ip as (ns & _ & Ip).
    destruct Ip as [<-|Ip]; [apply (only_fun ds f (isin (snd ns)) Of)|]. destruct complements; [|destruct Ip]. destruct Ip as [<-|[]]. apply (only_fun ds f (fun l => negb (isin (snd ns) l)) Of). }
  assert (forall c : dimlist * (env -> label), flat_map (fun ns : string * list label => (LS (fst ns), fun e => isin (snd ns) (snd c e))
      :: (if complements then [(LS ("not_in_" ++ fst ns), fun e => negb (isin (snd ns) (snd c e)))] else [])) sets ++
      (if g then [(LS "global", fun _ => true)] else []) = P (snd c)) as EP by reflexivity.
  destruct sets as [|s ss]; [destruct g|].
  - apply (one_coord_local KeyError d name _ P _ Hd N El O). intros st. destruct (get_coord KeyError st name) as [c|]; reflexivity.
  - apply never_local. discriminate.
  - apply (one_coord_local KeyError d name _ P _ Hd N El O). intros st. destruct (get_coord KeyError st name) as [c|]; [|reflexivity]. cbn [bind]. rewrite EP.
    apply stack_nonempty. intros E. specialize (El (snd c)). rewrite E in El. discriminate.
Qed.

Lemma time_unit_sets_local delta sets unit dim bin_dim g :
  ~ time_dim (bin_dim_name (ByTimeUnitSets delta sets unit dim bin_dim g)) -> NoDup (map (fun s => LS (fst s)) sets ++ glob_labels g) ->
  time_local [] (create_bin_mask (ByTimeUnitSets delta sets unit dim bin_dim g)).
Proof.
  intros Hd N. unfold ByTimeUnitSets in *. cbn [bin_dim_name create_bin_mask] in *. set (d := match bin_dim with Some d => d | None => _ end) in *.
  destruct (extract_time_unit delta unit) as [u|] eqn:Eu.
  - set (P := fun f : env -> label => map (fun ns : string * list label => (LS (fst ns), fun e => isin (snd ns) (u (time_value (f e))))) sets ++ glob g).
    assert (forall f, map fst (P f) = map (fun s => LS (fst s)) sets ++ glob_labels g) as El. { intros f. unfold P. rewrite map_app, glob_fst, map_map. reflexivity. }
    assert (forall ds f, only ds f -> Forall (fun p => only ds (snd p)) (P f)) as O.
    { intros ds f Of. unfold P. apply Forall_app. split; [|apply glob_only]. apply Forall_map, Forall_forall. intros ns _. cbn [snd]. apply (only_fun ds f (fun l => isin (snd ns) (u (time_value l))) Of). }
    assert (forall c : dimlist * (env -> label), map (fun ns : string * list label => (LS (fst ns), fun e => isin (snd ns) (u (time_value (snd c e))))) sets
       ++ (if g then [(LS "global", fun _ => true)] else []) = P (snd c)) as EP by reflexivity.
    destruct sets as [|s ss]; [destruct g|].
    + apply (one_coord_local KeyError d dim _ P _ Hd N El O). intros st. destruct (get_coord KeyError st dim) as [c|]; reflexivity.
    + apply never_local. intros a x H. destruct (get_coord KeyError a dim) as [c|]; discriminate.
    + apply (one_coord_local KeyError d dim _ P _ Hd N El O). intros st. destruct (get_coord KeyError st dim) as [c|]; [|reflexivity]. cbn [bind]. rewrite EP.
      apply stack_nonempty. intros E. specialize (El (snd c)). rewrite E in El. discriminate.
  - apply never_local. intros a x H. destruct (get_coord KeyError a dim) as [c|]; discriminate.
Qed.

Lemma from_seconds_local unit dim bins : ~ time_dim (dim ++ "_" ++ unit) ->
  NoDup (match bins with Some b => b | None => irange (if String.eqb unit "hour" then 24 else 60) end) ->
  time_local [] (create_bin_mask (ByTimeUnitFromSeconds unit dim bins)).
Proof.
  intros Hd N. unfold ByTimeUnitFromSeconds. cbn [create_bin_mask]. set (labels := match bins with Some b => b | None => _ end) in N.
  assert (forall h : label -> Q, time_local [] (fun st => do c <- get_coord KeyError st dim;
    stack_parts (dim ++ "_" ++ unit) (fst c) (bits (map (fun b => (b, fun e => Qeq_bool (h (snd c e)) (lnum b))) labels)))) as G.
  { intros h. eapply (one_coord_local KeyError _ dim labels (fun f => map (fun b => (b, fun e => Qeq_bool (h (f e)) (lnum b))) labels)); auto.
    - exact Hd.
    - intros f. cbn beta. rewrite (map_map (fun b => (b, fun e => Qeq_bool (h (f e)) (lnum b))) fst labels). apply map_id.
    - intros ds f Of. apply Forall_map, Forall_forall. intros b _. cbn [snd]. apply (only_fun ds f (fun l => Qeq_bool (h l) (lnum b)) Of). }
  assert (forall f f' : da -> result da, (forall a, f a = f' a) -> time_local [] f' -> time_local [] f) as EX.
  { intros f f' E T a x Wa Ha. rewrite E in Ha. destruct (T a x Wa Ha) as (A & B & C). split; auto. split; auto. intros I L c Wc S. rewrite E. apply C; auto. }
  destruct (String.eqb_spec unit "second") as [->|N0]; [|destruct (String.eqb_spec unit "minute") as [->|N1]; [|destruct (String.eqb_spec unit "hour") as [->|N2]]].
  - eapply EX; [|apply (G (fun l => lnum l))]. intros a. cbn beta. destruct (get_coord KeyError a dim); [|reflexivity]. cbn [bind fst snd]. unfold labels. destruct bins; reflexivity.
  - eapply EX; [|apply (G (fun l => inject_Z (Qfloor (lnum l / inject_Z 60))))]. intros a. cbn beta. destruct (get_coord KeyError a dim); [|reflexivity]. cbn [bind fst snd]. unfold labels. destruct bins; reflexivity.
  - eapply EX; [|apply (G (fun l => inject_Z (Qfloor (lnum l / inject_Z 3600))))]. intros a. cbn beta. destruct (get_coord KeyError a dim); [|reflexivity]. cbn [bind fst snd]. unfold labels. destruct bins; reflexivity.
  - apply never_local. intros a x H. destruct (get_coord KeyError a dim) as [c|]; discriminate.
Qed.

Lemma longitude_bins_local degrees lim d b : LongitudeBins degrees lim d = Ok b -> ~ time_dim d ->
  (forall bins, arange (fst lim) (lon_end (fst lim) (snd lim) + degrees)%Q degrees = Ok bins -> NoDup (map (fun s => LQ (Q2Qc (qmod s 360))) (removelast bins))) ->
  time_local [] (create_bin_mask b).
Proof.
  intros Hb Hd N. unfold LongitudeBins in Hb. change (if Qle_bool (snd lim) (fst lim) then (snd lim + 360)%Q else snd lim) with (lon_end (fst lim) (snd lim)) in Hb.
  destruct (arange _ _ degrees) as [bins|]; [|discriminate]. specialize (N bins eq_refl). cbn [bind] in Hb. injection Hb as <-. cbn [create_bin_mask].
  destruct (removelast bins) as [|s ss]; [apply never_local; discriminate|].
  set (P := fun f : env -> label => map (fun s => (LQ (Q2Qc (qmod s 360)), fun e => create_lon_mask (s, s + degrees)%Q (lnum (f e)))) (s :: ss)).
  apply (broadcast_local AttributeError d "longitude" _ P _ Hd N).
  - intros f. unfold P. rewrite map_map. reflexivity.
  - intros ds f Of. unfold P. apply Forall_map, Forall_forall. intros b _. cbn [snd]. apply (only_fun ds f (fun l => create_lon_mask (b, b + degrees)%Q (lnum l)) Of).
  - intros st. destruct (get_coord AttributeError st "longitude"); reflexivity.
Qed.
Lemma latitude_bins_local degrees lim d b : LatitudeBins degrees lim d = Ok b -> ~ time_dim d ->
  (forall bins, arange (fst lim) (snd lim + degrees)%Q degrees = Ok bins -> NoDup (map (fun s => LQ (Q2Qc s)) (removelast bins))) ->
  time_local [] (create_bin_mask b).
Proof.
  intros Hb Hd N. unfold LatitudeBins in Hb. destruct (arange _ _ degrees) as [bins|]; [|discriminate]. specialize (N bins eq_refl). cbn [bind] in Hb. injection Hb as <-. cbn [create_bin_mask].
  destruct (removelast bins) as [|s ss]; [apply never_local; discriminate|].
  set (starts := s :: ss) in *.
  set (P := fun f : env -> label => map (fun s => (LQ (Q2Qc s), fun e => Qle_bool s (lnum (f e)) && Qle_bool (lnum (f e)) (s + degrees)%Q)) starts).
  assert (forall f : env -> label, mapM (fun s0 => do g <- create_lat_mask (s0, (s0 + degrees)%Q); Ok (LQ (Q2Qc s0), fun e => g (lnum (f e)))) starts = Ok (P f) \/
     forall f : env -> label, exists e, mapM (fun s0 => do g <- create_lat_mask (s0, (s0 + degrees)%Q); Ok (LQ (Q2Qc s0), fun e => g (lnum (f e)))) starts = Err e) as D.
  { intros f. destruct (forallb (fun s0 => negb (Qle_bool (s0 + degrees) s0)) starts) eqn:E.
    - left. unfold P. clear -E. induction starts as [|a l IH]; auto. cbn [forallb] in E. apply andb_true_iff in E. destruct E as [E1 E2]. cbn [mapM map].
      unfold create_lat_mask at 1. cbn [fst snd]. apply negb_true_iff in E1. rewrite E1. cbn [bind]. rewrite (IH E2). reflexivity.
    - right. intros f'. clear -E. induction starts as [|a l IH]; [discriminate|]. cbn [forallb] in E. apply andb_false_iff in E. cbn [mapM].
      unfold create_lat_mask at 1. cbn [fst snd]. destruct (Qle_bool (a + degrees) a) eqn:Ea; [eexists; reflexivity|]. cbn [bind].
      destruct E as [E|E]; [discriminate|]. destruct (IH E) as [er ->]. eexists; reflexivity. }
  destruct (D (fun _ => LZ 0)) as [_|X].
  - assert ((forall f : env -> label, mapM (fun s0 => do g <- create_lat_mask (s0, (s0 + degrees)%Q); Ok (LQ (Q2Qc s0), fun e => g (lnum (f e)))) starts = Ok (P f)) \/
      forall f : env -> label, exists e, mapM (fun s0 => do g <- create_lat_mask (s0, (s0 + degrees)%Q); Ok (LQ (Q2Qc s0), fun e => g (lnum (f e)))) starts = Err e) as D'.
    { destruct (forallb (fun s0 => negb (Qle_bool (s0 + degrees) s0)) starts) eqn:E; [left|right]; intros f; (destruct (D f) as [Y|Y]; [|]).
      - exact Y.
      - exfalso. destruct (Y f) as [er Hf]. assert (forall l, forallb (fun s0 => negb (Qle_bool (s0 + degrees) s0)) l = true -> exists v, mapM (fun s0 => do g <- create_lat_mask (s0, (s0 + degrees)%Q); Ok (LQ (Q2Qc s0), fun e => g (lnum (f e)))) l = Ok v) as G.
        { clear. induction l as [|a l IH]; intros E; [eexists; reflexivity|]. cbn [forallb] in E. apply andb_true_iff in E. destruct E as [E1 E2]. cbn [mapM]. unfold create_lat_mask at 1. cbn [fst snd]. apply negb_true_iff in E1. rewrite E1. cbn [bind]. destruct (IH E2) as [v ->]. eexists; reflexivity. }
        destruct (G _ E) as [v Hv]. congruence.
      - exfalso. assert (forall l v, mapM (fun s0 => do g <- create_lat_mask (s0, (s0 + degrees)%Q); Ok (LQ (Q2Qc s0), fun e : env => g (lnum (f e)))) l = Ok v -> forallb (fun s0 => negb (Qle_bool (s0 + degrees) s0)) l = true) as G.
        { clear. induction l as [|a l IH]; intros v H; auto. cbn [mapM] in H. unfold create_lat_mask at 1 in H. cbn [fst snd] in H. cbn [forallb]. destruct (Qle_bool (a + degrees) a); [discriminate|]. cbn [bind] in H.
          destruct (mapM _ l) as [v'|] eqn:El; [|discriminate]. cbn [negb andb]. apply (IH _ eq_refl). }
        rewrite (G _ _ Y) in E. discriminate.
      - apply Y. }
    destruct D' as [D'|D'].
    + apply (broadcast_local AttributeError d "latitude" _ P _ Hd N).
      * intros f. unfold P. rewrite map_map. reflexivity.
      * intros ds f Of. unfold P. apply Forall_map, Forall_forall. intros b _. cbn [snd]. apply (only_fun ds f (fun l => Qle_bool b (lnum l) && Qle_bool (lnum l) (b + degrees)%Q) Of).
      * intros st. destruct (get_coord AttributeError st "latitude") as [c|]; [|reflexivity]. cbn [bind]. specialize (D' (snd c)). unfold starts in D' at 1. cbn [mapM] in D'. rewrite D'. reflexivity.
    + apply never_local. intros a x H. destruct (get_coord AttributeError a "latitude") as [c|]; [|discriminate]. cbn [bind] in H. destruct (D' (snd c)) as [e He]. unfold starts in He. cbn [mapM] in He, H. rewrite He in H. discriminate.
  - apply never_local. intros a x H. destruct (get_coord AttributeError a "latitude") as [c|]; [|discriminate]. cbn [bind] in H. destruct (X (snd c)) as [e He]. unfold starts in He. cbn [mapM] in He, H. rewrite He in H. discriminate.
Qed.
