(** Regions and LandSea look at each time separately. *)
From Coq Require Import String ZArith QArith Qround Qcanon Bool List Lia.
Import ListNotations.
From Verif Require Import Prelude Values Model_XArray Spec_XArray Proofs_XArray Model_Deterministic Model_Aggregation Model_TimeChunks Model_Beam Spec_Beam
  Model_Binning Spec_Binning Proofs_Binning Proofs_Binning2 Proofs_Binning3 Proofs_Binning4 Proofs_Local Proofs_Local2 Proofs_Beam9.
From Coq Require Import Reals.
Local Open Scope string_scope.
Local Open Scope list_scope.

Lemma filter_filter_comm {A} (p q : A -> bool) l : filter p (filter q l) = filter q (filter p l).
Proof.
  induction l as [|x l IH]; auto. cbn [filter]. destruct (q x) eqn:Q, (p x) eqn:P; cbn [filter]; rewrite ?Q, ?P, ?IH; reflexivity.
Qed.
Lemma inter_chunk (p : label -> bool) l1 l2 : inter_labels (filter p l1) (filter p l2) = filter p (inter_labels l1 l2).
Proof.
  unfold inter_labels. rewrite filter_filter_comm. induction l1 as [|x l IH]; auto. cbn [filter].
  destruct (memb x l2) eqn:E2, (memb x (filter p l2)) eqn:E1; cbn [filter]; rewrite ?IH; auto.
  - destruct (p x) eqn:P; auto. exfalso. apply memb_false in E1. apply E1, filter_In. split; auto. apply memb_In, E2.
  - exfalso. apply memb_In, filter_In in E1. apply memb_false in E2. apply E2, E1.
Qed.
Lemma chunk_app I L ds1 ds2 : chunk_dims I L (ds1 ++ ds2) = chunk_dims I L ds1 ++ chunk_dims I L ds2.
Proof. apply map_app. Qed.
Lemma merge_chunk I L ds1 ds2 : merge_dims inter_labels (chunk_dims I L ds1) (chunk_dims I L ds2) = chunk_dims I L (merge_dims inter_labels ds1 ds2).
Proof.
  unfold merge_dims. rewrite chunk_app. f_equal.
  - transitivity (map (fun p => let q := (fst p, filter (in_chunkb I L (fst p)) (snd p)) in match dget (chunk_dims I L ds2) (fst q) with Some l2 => (fst q, inter_labels (snd q) l2) | None => q end) ds1); [apply map_map|].
    unfold chunk_dims at 2. rewrite map_map. apply map_ext. intros [k ls]. cbn [fst snd]. rewrite chunk_dget.
    destruct (dget ds2 k) as [l2|]; cbn [fst snd]; auto. rewrite inter_chunk. reflexivity.
  - rewrite chunk_names. symmetry. apply (chunk_filter I L ds2 (fun k => negb (memb k (map fst ds1)))).
Qed.

Lemma regions_local regions d : ~ time_dim d -> NoDup (map fst regions) -> time_local [] (create_bin_mask (Regions regions d None)).
Proof.
  intros Hd N. unfold Regions. cbn [create_bin_mask]. apply (stacked_local d (map (fun r => LS (fst r)) regions)); [auto|apply region_NoDup, N|].
  intros a x Wa Ha. destruct (regions_to_masks regions d a) as [m|] eqn:E; [|discriminate]. cbn [bind] in Ha. injection Ha as <-.
  unfold regions_to_masks in E.
  destruct (get_coord AttributeError a "latitude") as [[dla fla]|] eqn:Ela; [|discriminate]. cbn [bind fst snd] in E.
  destruct (get_coord AttributeError a "longitude") as [[dlo flo]|] eqn:Elo; [|discriminate]. cbn [bind fst snd] in E.
  destruct (mapM _ regions) as [parts|] eqn:Em; [|discriminate]. cbn [bind] in E.
  pose proof (region_parts _ _ _ _ Em) as Ep. pose proof Ela as Cla. pose proof Elo as Clo. apply get_coord_Ok in Cla, Clo.
  apply (coord_array_ok _ _ _ _ Wa) in Cla. apply (coord_array_ok _ _ _ _ Wa) in Clo.
  assert (parts <> []) as Np by (apply stack_Ok in E; apply E). rewrite stack_nonempty in E by auto.
  exists (merge_dims inter_labels dla dlo), (bits parts). split.
  - apply merge_incl; auto; [apply Cla|apply Clo].
  - apply NoDup_merge; [apply Cla|apply Clo].
  - rewrite bits_fst. apply (region_labels _ _ _ _ Ep).
  - apply bits_only. clear -Ep Cla Clo. induction Ep as [|r p rs ps (_ & f & _ & E) _ IH]; constructor; auto. rewrite E.
    intros e e' He. rewrite (co_only _ _ _ _ Cla e e'), (co_only _ _ _ _ Clo e e'); auto; intros k Hk; apply He; apply names_merge; auto.
  - exact E.
  - intros I L c Wc S. unfold regions_to_masks. rewrite (get_coord_chunk _ _ _ _ _ _ _ _ S Ela), (get_coord_chunk _ _ _ _ _ _ _ _ S Elo).
    cbn [bind fst snd]. rewrite Em. cbn [bind]. rewrite stack_nonempty by auto. rewrite merge_chunk.
    match goal with |- bind ?X _ = _ => destruct X; reflexivity end.
Qed.

(** Latitude and longitude are dimensions: nothing depends on the chunk. *)
Lemma coord_dim_chunk k I L a c name ls : time_slice I L a c -> ~ time_dim name -> dget (dims a) name = Some ls ->
  get_coord k c name = get_coord k a name.
Proof.
  intros (Dc & Ac & _) Hn H. unfold get_coord, coord_array, coord_of. rewrite Dc, chunk_dget, H, chunk_no_time by auto. reflexivity.
Qed.
Lemma regions_land_local regions d lm : ~ time_dim d -> ~ In d ["latitude"; "longitude"] -> wf lm -> grid_dims lm ->
  NoDup (all_names regions) -> time_local [] (create_bin_mask (Regions regions d (Some lm))).
Proof.
  intros Hd Nd Wl G N. assert (NoDup (map fst regions)) as N1 by (apply NoDup_app_l in N; auto).
  apply const_local. intros a x Wa Ha. pose proof Ha as Hx. unfold Regions in Ha. cbn [create_bin_mask] in Ha.
  destruct (regions_to_masks regions d a) as [m|] eqn:E; [|discriminate]. cbn [bind] in Ha.
  pose proof (regions_masks_spec _ _ _ _ Wa N1 E) as V. destruct (land_check m lm) eqn:Hc; [|unfold land_check in Hc; rewrite Hc in Ha; discriminate].
  assert (In "latitude" (dnames a) /\ In "longitude" (dnames a)) as [Ila Ilo].
  { destruct (rv_dims _ _ _ _ V) as (ds & Dm & _ & Hi). unfold land_check in Hc. rewrite !andb_true_iff, !memb_In in Hc. unfold dnames in Hc. rewrite Dm in Hc. cbn [map fst In] in Hc, Nd.
    destruct Hc as [[[H1 H2] _] _]. destruct H1 as [H1|H1]; [exfalso; apply Nd; auto|]. destruct H2 as [H2|H2]; [exfalso; apply Nd; auto|].
    unfold dnames. apply in_map_iff in H1, H2. destruct H1 as (p1 & E1 & H1), H2 as (p2 & E2 & H2). split; [rewrite <- E1|rewrite <- E2]; apply in_map, Hi; auto. }
  assert (dnames m = d :: map fst (match dget (dims a) "latitude", dget (dims a) "longitude" with Some l1, Some l2 => [("latitude", l1); ("longitude", l2)] | _, _ => [] end)) as Dm.
  { unfold regions_to_masks, get_coord, coord_array, coord_of in E. apply keys_dget in Ila, Ilo. destruct Ila as [l1 E1], Ilo as [l2 E2]. rewrite E1, E2 in *. cbn [bind fst snd] in E.
    destruct (mapM _ regions) as [parts|]; [|discriminate]. cbn [bind] in E. apply stack_Ok in E. destruct E as [_ E]. unfold stack_parts in E.
    destruct (memb d _); [discriminate|]. injection E as <-. reflexivity. }
  assert (regions <> []) as Nr. { intros ->. unfold regions_to_masks in E. destruct (get_coord AttributeError a "latitude"); [|discriminate]. cbn [bind] in E. destruct (get_coord AttributeError a "longitude"); discriminate. }
  pose proof Hc as Hc'. unfold land_check in Hc'. rewrite Hc' in Ha.
  destruct regions as [|r rs] eqn:Er; [congruence|]. rewrite <- Er in *.
  destruct (land_in_bin_region regions d a m lm Wa Wl G Nd N V x r (fun _ => LZ 0) Hc Ha) as (F & _); [rewrite Er; left; auto|].
  split; [apply F|]. split.
  - intros k Hk. unfold dnames in Hk. rewrite (land_dims regions d a m lm Wl G V Hc) in Ha.
    unfold stack_parts in Ha. destruct (memb d _); [discriminate|]. injection Ha as <-. cbn [dims map fst] in Hk. destruct Hk as [<-|Hk]; auto.
    apply in_map_iff in Hk. destruct Hk as (p & <- & Hk). apply filter_In in Hk. destruct Hk as [Hk _]. apply (in_map fst) in Hk. change (In (fst p) (dnames m)) in Hk.
    rewrite Dm in Hk. destruct Hk as [<-|Hk]; auto. destruct (dget (dims a) "latitude"); [|destruct Hk]. destruct (dget (dims a) "longitude"); [|destruct Hk].
    destruct Hk as [<-|[<-|[]]]; intros [C|C]; discriminate.
  - intros I L c Wc S. rewrite <- Hx. unfold Regions. cbn [create_bin_mask]. apply keys_dget in Ila, Ilo. destruct Ila as [l1 E1], Ilo as [l2 E2].
    unfold regions_to_masks. rewrite (coord_dim_chunk AttributeError I L a c "latitude" l1 S), (coord_dim_chunk AttributeError I L a c "longitude" l2 S); auto; intros [C|C]; discriminate.
Qed.
Lemma land_sea_local fraction threshold d g : wf fraction -> (forall k, In k (dnames fraction) -> ~ time_dim k) -> ~ time_dim d ->
  time_local [] (create_bin_mask (LandSea fraction threshold d g)).
Proof.
  intros W NT Hd. apply const_local. intros a x Wa Ha. split; [|split].
  - unfold LandSea in Ha. cbn [create_bin_mask] in Ha. rewrite stack_nonempty in Ha by discriminate.
    eapply (stack_wf d (dims fraction) _ _ x); [| | |reflexivity| |exact Ha].
    + rewrite bits_fst. destruct g; repeat constructor; cbn; intuition discriminate.
    + apply W.
    + apply W.
    + apply bits_only. assert (only (dims fraction) (fun e => vleb (Fin threshold) (get fraction e))) as O by (intros e e' He; f_equal; apply W, He).
      apply Forall_app. split; [|destruct g; repeat constructor]. repeat constructor; auto. intros e e' He. cbn. f_equal. apply O, He.
  - unfold LandSea in Ha. cbn [create_bin_mask] in Ha. apply stack_Ok in Ha. destruct Ha as [_ Ha]. unfold stack_parts in Ha. destruct (memb d _); [discriminate|].
    injection Ha as <-. unfold dnames. cbn [dims map fst]. intros k [<-|Hk]; auto.
  - intros I L c _ _. exact Ha.
Qed.
