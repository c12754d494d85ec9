From Coq Require Import String ZArith List Bool Reals Lia.
Import ListNotations.
From Verif Require Import Prelude Values Model_XArray Spec_XArray Proofs_XArray Model_MetricsBase Model_Calendar Model_Deterministic
  Spec_Binning Spec_Calendar Spec_Loaders Model_Binning Proofs_Loaders Props_TimeBins Spec_Climatology.
Local Open Scope string_scope.
Local Open Scope list_scope.

Lemma doy_value T l : unit_value false "dayofyear" T l <-> l = LZ (dayofyear T).
Proof. exact (extract_value false "dayofyear" _ T l eq_refl). Qed.
Lemma hour_value T l : unit_value false "hour" T l <-> l = LZ (hour_of T).
Proof. exact (extract_value false "hour" _ T l eq_refl). Qed.

Lemma dget_dnames (a : da) n : (exists ls, dget (dims a) n = Some ls) <-> In n (dnames a).
Proof.
  split; [intros [ls H]; apply (dget_Some_keys _ _ H)|]. intros H. destruct (dget (dims a) n) eqn:E; eauto. apply dget_None in E. contradiction.
Qed.
Lemma coord_of_None a n : coord_of a n = None <-> ~ has_coord a n.
Proof.
  unfold coord_of, has_coord. rewrite <- dget_dnames. destruct (dget (dims a) n) eqn:E.
  - split; [discriminate|]. intros H. exfalso. apply H. left. eauto.
  - destruct (dget (aux a) n) eqn:F; split; try discriminate; auto.
    + intros H. exfalso. apply H. right. eauto.
    + intros _ [[? H]|[? H]]; discriminate.
Qed.
Lemma coord_of_Some a n ids f : coord_of a n = Some (ids, f) -> has_coord a n /\ forall e l, coord_at a n e l <-> l = f e.
Proof.
  intros H. split; [destruct (coord_of_None a n) as [_ K]; apply Classical_Prop.NNPP; intros N; apply K in N; congruence|].
  intros e l. unfold coord_of in H. unfold coord_at. rewrite <- dget_dnames. destruct (dget (dims a) n) eqn:E.
  - injection H as <- <-. split; [intros [[_ ->]|[N _]]; [auto|exfalso; apply N; eauto]|intros ->; left; eauto].
  - destruct (dget (aux a) n) as [c|] eqn:F; [|discriminate]. injection H as <- <-. split.
    + intros [[[? K] _]|[_ (c' & [= <-] & ->)]]; [discriminate|auto].
    + intros ->. right. split; [intros [? K]; discriminate|eauto].
Qed.
(** The time the model computes is the forecast's. *)
Lemma valid_time_value p ids f e T : valid_time_of p = Ok (ids, f) -> forecast_time p e T -> f e = LZ T.
Proof.
  unfold valid_time_of. intros H HT. destruct (coord_of p "valid_time") as [[d g]|] eqn:E.
  - injection H as -> ->. apply coord_of_Some in E. destruct E as [E K]. destruct HT as [HT|[N _]]; [|contradiction]. symmetry. apply K, HT.
  - apply coord_of_None in E. destruct (coord_of p "init_time") as [[d1 f1]|] eqn:E1; [|discriminate]. destruct (coord_of p "lead_time") as [[d2 f2]|] eqn:E2; [|discriminate].
    injection H as <- <-. apply coord_of_Some in E1. apply coord_of_Some in E2. destruct E1 as [_ K1], E2 as [_ K2].
    destruct HT as [HT|(_ & i & l & Hi & Hl & ->)].
    + exfalso. apply E. destruct HT as [[I _]|[_ (c & I & _)]]; [now left|right; eauto].
    + apply K1 in Hi. apply K2 in Hl. rewrite <- Hi, <- Hl. reflexivity.
Qed.
Lemma valid_time_defined p : (exists r, valid_time_of p = Ok r) <-> has_times p.
Proof.
  unfold valid_time_of, has_times. pose proof (coord_of_None p "valid_time") as N. pose proof (coord_of_None p "init_time") as N1. pose proof (coord_of_None p "lead_time") as N2.
  destruct (coord_of p "valid_time") as [[d g]|] eqn:E.
  - apply coord_of_Some in E. split; [tauto|eauto].
  - destruct (coord_of p "init_time") as [[d1 f1]|] eqn:E1, (coord_of p "lead_time") as [[d2 f2]|] eqn:E2;
      try apply coord_of_Some in E1; try apply coord_of_Some in E2; (split; [intros [r H]; try discriminate H; tauto|intros H]); try (exfalso; tauto). eauto.
Qed.
Lemma valid_time_error p : ~ has_times p -> valid_time_of p = Err ValueError.
Proof.
  intros H. destruct (valid_time_of p) as [r|x] eqn:E; [exfalso; apply H, valid_time_defined; eauto|].
  unfold valid_time_of in E. destruct (coord_of p "valid_time"); [discriminate|]. destruct (coord_of p "init_time") as [[]|], (coord_of p "lead_time") as [[]|]; congruence.
Qed.

(** *** Where it is read *)
Lemma aligned_value p c a e T e' : wf c -> align_climatology p c = Ok a -> forecast_time p e T -> climatology_point c e T e' -> get a e = get c e'.
Proof.
  intros W H HT HC. unfold align_climatology in H. destruct (valid_time_of p) as [[ids f]|] eqn:E; [|discriminate]. cbn [bind] in H.
  pose proof (valid_time_value _ _ _ _ _ E HT) as F. pose proof (coord_of_None c "time") as N. pose proof (coord_of_None c "hour") as NH.
  destruct (coord_of c "time") as [q|] eqn:Ec.
  - assert (has_coord c "time") as Hc by (apply Classical_Prop.NNPP; intros K; apply N in K; discriminate).
    destruct HC as [_ E1 S1|K|K]; [|contradiction|contradiction]. apply sel_points_Ok in H. destruct H as [_ ->]. cbn [get]. apply W. intros d _. cbn [dget fst].
    destruct (eq_dec d "time") as [->|Nd]; [congruence|]. symmetry. apply S1. intros [K|[]]; congruence.
  - destruct (coord_of c "hour") as [q|] eqn:Eh.
    + assert (has_coord c "hour") as Hh by (apply Classical_Prop.NNPP; intros K; apply NH in K; discriminate).
      assert (~ has_coord c "time") as Nt by now apply N.
      destruct HC as [K|_ _ D1 H1 S1|_ K]; [contradiction| |contradiction]. apply doy_value in D1. apply hour_value in H1.
      apply sel_points_Ok in H. destruct H as [_ ->]. cbn [get]. apply W. intros d _. cbn [dget fst].
      destruct (eq_dec d "dayofyear") as [->|Nd]; [rewrite F; cbn [time_value]; congruence|]. destruct (eq_dec d "hour") as [->|Nd']; [rewrite F; cbn [time_value]; congruence|].
      symmetry. apply S1. intros [K|[K|[]]]; congruence.
    + assert (~ has_coord c "time") as Nt by now apply N. assert (~ has_coord c "hour") as Nh by now apply NH.
      destruct HC as [K|_ K|_ _ D1 S1]; [contradiction|contradiction|]. apply doy_value in D1.
      apply sel_points_Ok in H. destruct H as [_ ->]. cbn [get]. apply W. intros d _. cbn [dget fst].
      destruct (eq_dec d "dayofyear") as [->|Nd]; [rewrite F; cbn [time_value]; congruence|]. symmetry. apply S1. intros [K|[]]; congruence.
Qed.
(** There is exactly one such point (up to the other dimensions, as in [e]). *)
Lemma climatology_point_exists c e T : exists e', climatology_point c e T e'.
Proof.
  destruct (Classical_Prop.classic (has_coord c "time")) as [Ht|Nt].
  - exists (upd e "time" (LZ T)). apply cp_time; [exact Ht|apply upd_same|]. intros d Hd. apply upd_other. intros ->. apply Hd. now left.
  - destruct (Classical_Prop.classic (has_coord c "hour")) as [Hh|Nh].
    + exists (upd (upd e "dayofyear" (LZ (dayofyear T))) "hour" (LZ (hour_of T))). apply cp_day_hour; [exact Nt|exact Hh| | |].
      * rewrite upd_other by discriminate. rewrite upd_same. now apply doy_value.
      * rewrite upd_same. now apply hour_value.
      * intros d Hd. rewrite !upd_other; auto; intros ->; apply Hd; cbn; auto.
    + exists (upd e "dayofyear" (LZ (dayofyear T))). apply cp_day; [exact Nt|exact Nh|rewrite upd_same; now apply doy_value|].
      intros d Hd. rewrite upd_other; auto. intros ->. apply Hd. now left.
Qed.

(** *** The dimensions of the valid times *)
Lemma coord_of_dims a n ids f : wf a -> coords_local a -> coord_of a n = Some (ids, f) ->
  NoDup (map fst ids) /\ (forall d ls, dget ids d = Some ls -> dget (dims a) d = Some ls) /\
  forall e e' : env, (forall d, In d (map fst ids) -> e d = e' d) -> f e = f e'.
Proof.
  intros W HL H. unfold coord_of in H. destruct (dget (dims a) n) as [ls|] eqn:E.
  - injection H as <- <-. split; [repeat constructor; intros []|]. split.
    + intros d l. cbn [dget fst]. destruct (eq_dec d n); [|discriminate]. intros [= <-]. congruence.
    + intros e e' K. apply K. now left.
  - destruct (dget (aux a) n) as [c|] eqn:F; [|discriminate]. injection H as <- <-. destruct (HL _ _ F) as [I L].
    split; [apply (keep_NoDup (fun d => memb d (c_dims c))), W|]. split.
    + intros d ls K. change (filter _ (dims a)) with (keep (fun d => memb d (c_dims c)) (dims a)) in K. rewrite dget_keep in K. destruct (memb d (c_dims c)); congruence.
    + intros e e' K. apply L. intros d Hd. apply K. pose proof (I d Hd) as Id. apply in_map_iff in Id. destruct Id as (q & <- & Iq). apply in_map. apply filter_In. split; auto. now apply memb_In.
Qed.
Lemma valid_time_dims p ids f : wf p -> coords_local p -> valid_time_of p = Ok (ids, f) ->
  NoDup (map fst ids) /\ (forall d ls, dget ids d = Some ls -> dget (dims p) d = Some ls) /\
  forall e e' : env, (forall d, In d (map fst ids) -> e d = e' d) -> f e = f e'.
Proof.
  intros W HL H. unfold valid_time_of in H. destruct (coord_of p "valid_time") as [[d g]|] eqn:E.
  - injection H as -> ->. eapply coord_of_dims; eauto.
  - destruct (coord_of p "init_time") as [[d1 f1]|] eqn:E1; [|discriminate]. destruct (coord_of p "lead_time") as [[d2 f2]|] eqn:E2; [|discriminate].
    injection H as <- <-. destruct (coord_of_dims _ _ _ _ W HL E1) as (A1 & B1 & C1). destruct (coord_of_dims _ _ _ _ W HL E2) as (A2 & B2 & C2).
    split; [now apply NoDup_merge|]. split.
    + intros d ls. rewrite dget_merge. destruct (dget d1 d) as [l1|] eqn:G1.
      * apply B1 in G1. destruct (dget d2 d) as [l2|] eqn:G2; [|congruence]. apply B2 in G2. assert (l1 = l2) as -> by congruence. rewrite inter_self. congruence.
      * intros G2. now apply B2.
    + intros e e' K. f_equal. rewrite (C1 e e'), (C2 e e'); auto.
      * intros d Hd. apply K. apply (dget_dnames (mkDa (merge_dims inter_labels d1 d2) (fun _ => NaN) [])). cbn [dims]. rewrite dget_merge. 
        apply (dget_dnames (mkDa d2 (fun _ => NaN) [])) in Hd. destruct Hd as [ls Hd]. cbn [dims] in Hd. rewrite Hd. destruct (dget d1 d); eauto.
      * intros d Hd. apply K. apply (dget_dnames (mkDa (merge_dims inter_labels d1 d2) (fun _ => NaN) [])). cbn [dims]. rewrite dget_merge. 
        apply (dget_dnames (mkDa d1 (fun _ => NaN) [])) in Hd. destruct Hd as [ls Hd]. cbn [dims] in Hd. rewrite Hd. destruct (dget d2 d); eauto.
Qed.

(** *** When all times are found *)
Definition clim_idx (c : da) (f : env -> label) : list (string * (env -> label)) :=
  match coord_of c "time" with
  | Some _ => [("time", f)]
  | None => match coord_of c "hour" with
    | Some _ => [("dayofyear", fun e => LZ (dayofyear (time_value (f e)))); ("hour", fun e => LZ (hour_of (time_value (f e))))]
    | None => [("dayofyear", fun e => LZ (dayofyear (time_value (f e))))] end
  end.
Lemma align_idx p c ids f : valid_time_of p = Ok (ids, f) ->
  align_climatology p c = sel_points c ids (filter (fun q => subsetb (c_dims (snd q)) (map fst ids)) (aux p)) (clim_idx c f).
Proof. intros H. unfold align_climatology, clim_idx. rewrite H. cbn [bind]. destruct (coord_of c "time"), (coord_of c "hour"); reflexivity. Qed.
Lemma coord_of_dec a n : (exists q, coord_of a n = Some q) <-> has_coord a n.
Proof.
  split.
  - intros [[ids f] H]. apply (coord_of_Some _ _ _ _ H).
  - intros H. destruct (coord_of a n) eqn:E; [eauto|]. apply coord_of_None in E. contradiction.
Qed.
Lemma idx_labels c f e T e' : f e = LZ T -> climatology_point c e T e' ->
  ((forall d g, In (d, g) (clim_idx c f) -> In (g e) (labels_of (dims c) d)) <-> in_climatology c e').
Proof.
  intros F HC. unfold clim_idx, in_climatology. pose proof (coord_of_dec c "time") as D. pose proof (coord_of_dec c "hour") as DH.
  destruct (coord_of c "time") as [q|] eqn:E.
  - assert (has_coord c "time") as Ht by (apply D; eauto). destruct HC as [_ E1 _|K|K]; [|contradiction|contradiction]. rewrite E1. split.
    + intros H. split; [|split; intros K; contradiction]. intros _. rewrite <- F. apply H. now left.
    + intros (H & _) d g [[= <- <-]|[]]. rewrite F. auto.
  - assert (~ has_coord c "time") as Nt by (intros K; apply D in K; destruct K; discriminate). destruct (coord_of c "hour") as [q|] eqn:Eh.
    + assert (has_coord c "hour") as Hh by (apply DH; eauto). destruct HC as [K|_ _ D1 H1 _|_ K]; [contradiction| |contradiction]. apply doy_value in D1. apply hour_value in H1. rewrite D1, H1. split.
      * intros H. split; [intros K; contradiction|]. split; intros _.
        -- specialize (H _ _ (or_introl eq_refl)). cbv beta in H. now rewrite F in H.
        -- intros _. specialize (H _ _ (or_intror (or_introl eq_refl))). cbv beta in H. now rewrite F in H.
      * intros (_ & A & B) d g [[= <- <-]|[[= <- <-]|[]]]; rewrite F; cbn [time_value]; auto.
    + assert (~ has_coord c "hour") as Nh by (intros K; apply DH in K; destruct K; discriminate). destruct HC as [K|_ K|_ _ D1 _]; [contradiction|contradiction|]. apply doy_value in D1. rewrite D1. split.
      * intros H. split; [intros K; contradiction|]. split; [|intros _ K; contradiction]. intros _. specialize (H _ _ (or_introl eq_refl)). cbv beta in H. now rewrite F in H.
      * intros (_ & A & _) d g [[= <- <-]|[]]; rewrite F; cbn [time_value]; auto.
Qed.
Lemma forecast_time_exists p e : stamps p -> point_of (dims p) e -> has_times p -> exists T, forecast_time p e T.
Proof.
  intros HS He HT. assert (forall n, has_coord p n -> exists l, coord_at p n e l) as K.
  { intros n [I|[c I]]; [exists (e n); now left|]. destruct (in_dec string_dec n (dnames p)) as [I'|N]; [exists (e n); now left|]. exists (c_get c e). right. eauto. }
  destruct (coord_of p "valid_time") as [q|] eqn:E.
  - destruct (K "valid_time" (proj1 (coord_of_dec p "valid_time") (ex_intro _ q E))) as [l Hl]. destruct (HS e "valid_time" l He (or_introl eq_refl) Hl) as [T ->]. exists T. now left.
  - apply coord_of_None in E. destruct HT as [HT|[H1 H2]]; [contradiction|]. destruct (K _ H1) as [l1 K1]. destruct (K _ H2) as [l2 K2].
    destruct (HS e _ _ He (or_intror (or_introl eq_refl)) K1) as [i ->]. destruct (HS e _ _ He (or_intror (or_intror (or_introl eq_refl))) K2) as [l ->].
    exists (i + l)%Z. right. split; auto. exists i, l. auto.
Qed.
Lemma aligned_defined p c : wf p -> coords_local p -> stamps p -> (forall d ls, In (d, ls) (dims p) -> ls <> []) ->
  ((exists a, align_climatology p c = Ok a) <->
   has_times p /\ forall e T e', point_of (dims p) e -> forecast_time p e T -> climatology_point c e T e' -> in_climatology c e').
Proof.
  intros W HL HS HE. split.
  - intros [a H]. assert (exists r, valid_time_of p = Ok r) as [[ids f] E].
    { unfold align_climatology in H. destruct (valid_time_of p); [eauto|discriminate]. }
    split; [apply valid_time_defined; eauto|]. intros e T e' He HT HC. rewrite (align_idx _ _ _ _ E) in H. apply sel_points_Ok in H. destruct H as [H _].
    destruct (valid_time_dims _ _ _ W HL E) as (A & B & C). set (e0 := fun d => if memb d (map fst ids) then e d else env0 d).
    assert (In e0 (envs ids env0)) as I0.
    { apply envs_spec; auto. split.
      - intros d ls I. unfold e0. assert (memb d (map fst ids) = true) as -> by (apply memb_In; apply in_map_iff; exists (d, ls); auto).
        apply (He d ls). apply dget_In. apply B. now apply In_dget.
      - intros d Hd. unfold e0. apply memb_false in Hd. now rewrite Hd. }
    assert (f e0 = f e) as F0 by (apply C; intros d Hd; unfold e0; apply memb_In in Hd; now rewrite Hd).
    apply (idx_labels c f e T e'); auto; [now apply (valid_time_value _ _ _ _ _ E)|]. intros d g I. specialize (H e0 d g I0 I).
    assert (g e = g e0) as ->; [|exact H]. unfold clim_idx in I. destruct (coord_of c "time"); [|destruct (coord_of c "hour")]; 
      repeat match goal with I : In _ (_ :: _) |- _ => destruct I as [[= <- <-]|I] | I : In _ [] |- _ => destruct I end; now rewrite F0.
  - intros [HT H]. destruct (proj2 (valid_time_defined p) HT) as [[ids f] E]. rewrite (align_idx _ _ _ _ E). destruct (valid_time_dims _ _ _ W HL E) as (A & B & C).
    unfold sel_points. assert (forallb (fun e => forallb (fun df => memb (snd df e) (labels_of (dims c) (fst df))) (clim_idx c f)) (envs ids env0) = true) as ->; [|eauto].
    apply forallb_forall. intros e0 I0. apply forallb_forall. intros [d g] I. cbn [fst snd]. apply memb_In. apply envs_spec in I0; auto. destruct I0 as [I0 _].
    set (e := fun d => if memb d (map fst ids) then e0 d else match labels_of (dims p) d with l :: _ => l | [] => env0 d end).
    assert (point_of (dims p) e) as He.
    { intros k ls Ik. unfold e. pose proof (In_dget _ _ _ (proj1 W) Ik) as G. destruct (memb k (map fst ids)) eqn:M.
      - apply memb_In in M. apply in_map_iff in M. destruct M as ([k' ls'] & <- & M). cbn [fst] in *. pose proof (B _ _ (In_dget _ _ _ A M)) as G'. assert (ls' = ls) as -> by congruence. now apply (I0 k').
      - unfold labels_of. rewrite G. pose proof (HE k ls Ik). destruct ls as [|l ls]; [congruence|]. now left. }
    assert (f e = f e0) as F0 by (apply C; intros k Hk; unfold e; apply memb_In in Hk; now rewrite Hk).
    destruct (forecast_time_exists p e HS He HT) as [T FT]. destruct (climatology_point_exists c e T) as [e' HC].
    pose proof (proj2 (idx_labels c f e T e' (valid_time_value _ _ _ _ _ E FT) HC) (H e T e' He FT HC) d g I) as K.
    assert (g e = g e0) as <-; [|exact K]. unfold clim_idx in I. destruct (coord_of c "time"); [|destruct (coord_of c "hour")]; 
      repeat match goal with I : In _ (_ :: _) |- _ => destruct I as [[= <- <-]|I] | I : In _ [] |- _ => destruct I end; now rewrite F0.
Qed.
Lemma align_error p c x : align_climatology p c = Err x -> (has_times p -> x = KeyError) /\ (~ has_times p -> x = ValueError).
Proof.
  intros H. split.
  - intros HT. destruct (proj2 (valid_time_defined p) HT) as [[ids f] E]. rewrite (align_idx _ _ _ _ E) in H. unfold sel_points in H. destruct (forallb _ _); congruence.
  - intros HT. apply valid_time_error in HT. unfold align_climatology in H. rewrite HT in H. cbn [bind] in H. congruence.
Qed.
