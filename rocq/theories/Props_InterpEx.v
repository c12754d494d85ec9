(** C46, C47: concrete cases meeting the hypotheses. *)
From Coq Require Import String ZArith QArith Qreals Qcanon Bool List Sorted Permutation Lia.
Import ListNotations.
From Verif Require Import Prelude Values Model_XArray Spec_XArray Proofs_XArray Model_Tree Model_MetricsBase Model_Deterministic Proofs_Baseline Model_Binning
  Proofs_Ensemble2 Model_Interp Spec_Interp Proofs_Interp Props_Interp Props_Interp2 Props_Interp3 Props_Altitude.
From Coq Require Import Reals Lra.
Local Open Scope R_scope.
Local Open Scope string_scope.
Local Open Scope list_scope.

Definition z_of (l : label) : Z := match l with LZ z => z | _ => 0%Z end.
(** Temperature latitude + longitude on a small grid; two stations, the second of unknown height. *)
Definition ex_lats := [LZ 10; LZ 0].
Definition ex_lons := [LZ 0; LZ 90; LZ 180; LZ 270].
Definition ex_grid : da := mkDa [("latitude", ex_lats); ("longitude", ex_lons)] (fun e => Fin (IZR (z_of (e "latitude") + z_of (e "longitude")))) [].
Definition ex_height : da := mkDa [("latitude", ex_lats); ("longitude", ex_lons)] (fun e => Fin 100) [].
Definition by_station (x y : label) : coord := mkCoord ["station"] (fun e => match e "station" with LZ 1 => x | _ => y end).
Definition ex_ref : da := mkDa [("station", [LZ 1; LZ 2])] (fun _ => NaN)
  [("latitude", by_station (LZ 5) (LZ 10)); ("longitude", by_station (LZ 45) (LZ 90)); ("elevation", by_station (LZ 500) (LS "nan"))].

Lemma number_LZ z : number (LZ z) = IZR z.
Proof. unfold number, Q2R, lnum, inject_Z. cbn. field. Qed.
Lemma wf_ex_grid f ax : (forall e e' : env, e "latitude" = e' "latitude" -> e "longitude" = e' "longitude" -> f e = f e') -> wf (mkDa [("latitude", ex_lats); ("longitude", ex_lons)] f ax).
Proof.
  intros H. split; [|split].
  - repeat constructor; cbn; intuition discriminate.
  - intros d ls [[= <- <-]|[[= <- <-]|[]]]; repeat constructor; cbn; intuition discriminate.
  - intros e e' E. cbn [get]. apply H; apply E; cbn; auto.
Qed.
Lemma numeric_LZ zs : numeric (map LZ zs).
Proof. intros l H. apply in_map_iff in H. destruct H as (z & <- & _). eauto. Qed.
Lemma distinct_LZ zs : distinct (map LZ zs).
Proof. intros x y Hx Hy E. apply in_map_iff in Hx, Hy. destruct Hx as (z & <- & _), Hy as (z' & <- & _). rewrite !number_LZ in E. now apply eq_IZR in E as ->. Qed.

Lemma wf_ex_ref : wf ex_ref.
Proof. split; [|split]; [repeat constructor; intros []|intros d ls [[= <- <-]|[]]; repeat constructor; cbn; intuition discriminate|reflexivity]. Qed.
Lemma local_ex_ref : coords_local ex_ref.
Proof.
  intros n c H. assert (exists x y, c = by_station x y) as (x & y & ->).
  { unfold ex_ref in H. cbn [aux dget] in H. destruct (eq_dec n "latitude"); [|destruct (eq_dec n "longitude"); [|destruct (eq_dec n "elevation"); [|discriminate]]];
    match type of H with Some ?b = Some _ => assert (c = b) as -> by congruence end; eauto. }
  split; [intros k Hk; exact Hk|]. intros e e' E. unfold by_station. cbn [c_get]. rewrite (E "station"); [reflexivity|now left].
Qed.
(** The hypotheses of C47_to_reference are met for any values on the grid. *)
Lemma ex_interpolated name f ax lo hi : (forall e e' : env, e "latitude" = e' "latitude" -> e "longitude" = e' "longitude" -> f e = f e') ->
  (forall e, point_of [("latitude", ex_lats); ("longitude", ex_lons)] e -> exists y, f e = Fin y /\ lo <= y <= hi) ->
  exists out, InterpolateToReferenceCoords (mkRefConfig Linear None false None true) name (mkDa [("latitude", ex_lats); ("longitude", ex_lons)] f ax) (Some ex_ref) = Ok out /\
  get out (upd env0 "station" (LZ 2)) = f (fun k => if string_dec k "latitude" then LZ 10 else LZ 90) /\
  exists y, get out (upd env0 "station" (LZ 1)) = Fin y /\ lo <= y <= hi.
Proof.
  intros Hf Hv.
  destruct (C47_to_reference (mkRefConfig Linear None false None true) name (mkDa [("latitude", ex_lats); ("longitude", ex_lons)] f ax) ex_ref lo hi) with (ds := ["latitude"; "longitude"]) as (out & Eo & D1 & _ & K); try reflexivity.
  - now apply wf_ex_grid.
  - exact wf_ex_ref.
  - exact local_ex_ref.
  - discriminate.
  - repeat constructor; cbn; intuition discriminate.
  - right. split; [reflexivity|]. intros d. cbn [In dnames dims map fst]. split; [|intuition].
    intros [<-|[<-|[]]]; (split; [auto|]); right; cbn; eauto.
  - assert (forall e, point_of (dims ex_ref) e -> e "station" = LZ 1 \/ e "station" = LZ 2) as St. { intros e P. specialize (P "station" _ (or_introl eq_refl)). cbn in P. intuition. }
    intros d [<-|[<-|[]]]; (split; [right; cbn; eauto|]); eexists; (split; [reflexivity|]).
    + split; [apply (numeric_LZ [10; 0]%Z)|]. split; [apply (distinct_LZ [10; 0]%Z)|]. split; [cbn; lia|]. intros e P. assert (coordinate_value ex_ref "latitude" e = LZ 5 \/ coordinate_value ex_ref "latitude" e = LZ 10) as Q by (cbn; destruct (St e P) as [-> | ->]; auto).
      split; [intros l [<-|[]]; destruct Q as [-> | ->]; eauto|]. split; [exists (LZ 0)|exists (LZ 10)]; (split; [cbn; auto|]); destruct Q as [-> | ->]; rewrite !number_LZ; lra.
    + split; [apply (numeric_LZ [0; 90; 180; 270]%Z)|]. split; [apply (distinct_LZ [0; 90; 180; 270]%Z)|]. split; [cbn; lia|]. intros e P. assert (coordinate_value ex_ref "longitude" e = LZ 45 \/ coordinate_value ex_ref "longitude" e = LZ 90) as Q by (cbn; destruct (St e P) as [-> | ->]; auto).
      split; [intros l [<-|[]]; destruct Q as [-> | ->]; eauto|]. split; [exists (LZ 0)|exists (LZ 90)]; (split; [cbn; auto|]); destruct Q as [-> | ->]; rewrite !number_LZ; lra.
  - intros d d' [<-|[<-|[]]] [<-|[<-|[]]] N; cbn; intuition discriminate.
  - intros k m m' [[= <- <-]|[[= <- <-]|[]]] N; exfalso; apply N; cbn; auto.
  - exact Hv.
  - exists out. split; [exact Eo|]. assert (forall z, z = 1%Z \/ z = 2%Z -> point_of (dims out) (upd env0 "station" (LZ z))) as P.
    { intros z Hz k m H. destruct (D1 k m H) as [[[[= <- <-]|[[= <- <-]|[]]] N]|[[= <- <-]|[]]]; [exfalso; apply N; cbn; auto|exfalso; apply N; cbn; auto|]. rewrite upd_same. destruct Hz as [-> | ->]; cbn; auto. }
    split.
    + destruct (K _ (P 2%Z (or_intror eq_refl))) as [_ K2]. rewrite (K2 (fun k => if string_dec k "latitude" then LZ 10 else LZ 90)); [apply Hf; reflexivity|]. intros d [<-|[<-|[]]]; cbn; auto.
    + apply (K _ (P 1%Z (or_introl eq_refl))).
Qed.
(** The second station is a grid point, the first lies within. *)
Example C47_to_reference_case : exists out,
  InterpolateToReferenceCoords (mkRefConfig Linear None false None true) "2m_temperature" ex_grid (Some ex_ref) = Ok out /\
  get out (upd env0 "station" (LZ 2)) = Fin 100 /\
  exists y, get out (upd env0 "station" (LZ 1)) = Fin y /\ 0 <= y <= 280.
Proof.
  apply (ex_interpolated "2m_temperature" (get ex_grid) [] 0 280); cbn [get ex_grid].
  - intros e e' E1 E2. now rewrite E1, E2.
  - intros e P. eexists. split; [reflexivity|]. pose proof (P "latitude" _ (or_introl eq_refl)) as P1. pose proof (P "longitude" _ (or_intror (or_introl eq_refl))) as P2. cbn in P1, P2.
    destruct P1 as [<-|[<-|[]]]; destruct P2 as [<-|[<-|[<-|[<-|[]]]]]; cbn [z_of]; split; apply IZR_le; lia.
Qed.

(** Both stations with the adjustment: 400 m above the grid, and of unknown height. *)
Definition ex_warm : da := mkDa [("latitude", ex_lats); ("longitude", ex_lons)] (fun _ => Fin 288) [].
Example C46_stations_case : exists out,
  GridToSparseWithAltitudeAdjustment Linear ex_height None false true 1500 "2m_temperature" ex_warm (Some ex_ref) = Ok out /\
  get out (upd env0 "station" (LZ 1)) = Fin (288 - 26 / 10) /\ get out (upd env0 "station" (LZ 2)) = Fin 288.
Proof.
  eexists. split; [reflexivity|]. match goal with |- get ?o _ = _ /\ _ => set (out := o) end.
  destruct (C46_stations Linear ex_height None false true 1500 "2m_temperature" ex_warm ex_ref out) as (base & g' & grid & Eb & On & Eg & _ & _ & Ab & V); [auto|reflexivity|].
  specialize (Eg eq_refl (or_introl eq_refl)).
  destruct (ex_interpolated "2m_temperature" (fun _ => Fin 288) [] 288 288) as (base' & Eb' & B2 & y & B1 & By); [reflexivity|intros; eexists; split; [reflexivity|lra]|].
  assert (base' = base) as -> by (change (InterpolateToReferenceCoords (mkRefConfig Linear None false None true) "2m_temperature" ex_warm (Some ex_ref)) with (InterpolateToReferenceCoords (mkRefConfig Linear None false None true) "2m_temperature" (mkDa [("latitude", ex_lats); ("longitude", ex_lons)] (fun _ => Fin 288) []) (Some ex_ref)) in Eb; congruence).
  destruct On as (_ & Dg & Og & On). destruct g' as [dg fg ag]. cbn in Dg. subst dg. cbn [get] in Og, On.
  destruct (ex_interpolated "grid_elevation" fg ag 100 100) as (grid' & Eg' & G2 & z & G1 & Gz).
  - intros e e' E1 E2. assert (in_box (dims ex_height) e = in_box (dims ex_height) e') as E by (cbn; rewrite E1, E2; reflexivity).
    destruct (in_box (dims ex_height) e) eqn:B; symmetry in E.
    + apply in_box_iff in B, E. rewrite (Og e B), (Og e' E). reflexivity.
    + rewrite On, On; [reflexivity|intros P; apply in_box_iff in P; congruence|intros P; apply in_box_iff in P; congruence].
  - intros e P. exists 100. split; [rewrite (Og e P); reflexivity|lra].
  - assert (grid' = grid) as -> by congruence. rewrite !V, B1, B2, G1, G2. rewrite Og; [|intros k m [[= <- <-]|[[= <- <-]|[]]]; cbn; auto].
    assert (y = 288) as -> by lra. assert (z = 100) as -> by lra.
    assert (elevation_of base (upd env0 "station" (LZ 1)) = Fin 500 /\ elevation_of base (upd env0 "station" (LZ 2)) = NaN) as [-> ->].
    { assert (base = match InterpolateToReferenceCoords (mkRefConfig Linear None false None true) "2m_temperature" ex_warm (Some ex_ref) with Ok b => b | _ => ex_warm end) as -> by (rewrite Eb; reflexivity).
      split; [|reflexivity]. unfold elevation_of. change (coord_val (LZ 500) = Fin 500). cbn. f_equal. exact (number_LZ 500). }
    unfold station_value. cbn [eqb]. rewrite eqb_refl. unfold counted_difference, temperature_change. cbn [vadd]. destruct (Rlt_dec (Rabs (500 - 100)) 1500) as [|N]; [split; f_equal; lra|]. exfalso. apply N. rewrite Rabs_right; lra.
Qed.
