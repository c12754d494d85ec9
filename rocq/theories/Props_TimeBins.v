(** C36: bins by time units. *)
From Coq Require Import String ZArith QArith Qround Qcanon Bool List Lia Lqa.
Import ListNotations.
From Verif Require Import Prelude Values Model_XArray Spec_XArray Proofs_XArray Model_Deterministic Model_Aggregation
  Model_Calendar Proofs_Calendar Model_Binning Spec_Binning Proofs_Binning Proofs_Binning2 Proofs_Binning3 Proofs_Binning4 Spec_Calendar Proofs_Calendar2.
From Coq Require Import Reals.
Local Open Scope Z_scope.
Local Open Scope string_scope.
Local Open Scope list_scope.

Lemma whole_iff n t q : 0 < n -> ((exists k, k * n <= t < (k + 1) * n /\ (this q == inject_Z k)%Q) <-> LQ q = whole (t / n)).
Proof.
  intros Hn. unfold whole. split.
  - intros (k & Hk & E). f_equal. apply Qc_is_canon. rewrite E. cbn [this Q2Qc]. rewrite Qred_correct.
    assert (k = t / n) as -> by (apply (Z.div_unique_pos t n k (t - k * n)); lia). reflexivity.
  - intros E. apply LQ_inj in E. subst q. exists (t / n). split.
    + pose proof (Z.div_mod t n ltac:(lia)). pose proof (Z.mod_pos_bound t n Hn). lia.
    + cbn [this Q2Qc]. apply Qred_correct.
Qed.

Ltac civ := match goal with C : civil ?t _ _ _ _ _ _ _ _ |- _ =>
  pose proof (civil_day _ _ _ _ _ _ _ _ _ C); pose proof (civil_hour _ _ _ _ _ _ _ _ _ C); pose proof (civil_minute _ _ _ _ _ _ _ _ _ C);
  pose proof (civil_second _ _ _ _ _ _ _ _ _ C); pose proof (civil_date _ _ _ _ _ _ _ _ _ C) end.

Lemma extract_value delta unit f t l : extract_time_unit delta unit = Ok f -> (unit_value delta unit t l <-> l = f t).
Proof.
  intros H. unfold extract_time_unit in H. cbv zeta in H. destruct delta.
  - assert (forall n k, unit_ns unit n -> (forall n', unit_ns unit n' -> n' = n) -> 0 < n -> unit <> "second" -> f = (fun t => whole (t / k)) -> k = n ->
      (unit_value true unit t l <-> l = f t)) as D.
    { intros n k U Un Hn Hs -> ->. split.
      - intros V. inversion V; subst; [congruence|]. apply whole_iff; auto. exists k. rewrite <- (Un n0); auto.
      - intros ->. unfold whole. apply (delta_unit unit n t (t / n)); auto.
        + pose proof (Z.div_mod t n ltac:(lia)). pose proof (Z.mod_pos_bound t n Hn). lia.
        + cbn [this Q2Qc]. apply Qred_correct. }
    destruct (String.eqb_spec unit "second") as [->|N0].
    { injection H as <-. split.
      - intros V. inversion V as [t0 q E| unit0 n t0 k q U| | | | | | | |]; subst.
        + f_equal. apply Qc_is_canon. rewrite E. cbn [this Q2Qc]. symmetry. apply Qred_correct.
        + unfold unit_ns in U. intuition discriminate.
      - intros ->. apply delta_second. cbn [this Q2Qc]. apply Qred_correct. }
    unfold unit_ns in D.
    destruct (String.eqb_spec unit "minute") as [->|N1]; [injection H as <-; apply (D (60 * 1000000000) ns_minute); auto; [intros ? K; intuition congruence|lia]|].
    destruct (String.eqb_spec unit "hour") as [->|N2]; [injection H as <-; apply (D (3600 * 1000000000) ns_hour); auto; [intros ? K; intuition congruence|lia]|].
    destruct (String.eqb_spec unit "day") as [->|N3]; [injection H as <-; apply (D (86400 * 1000000000) ns_day); auto; [intros ? K; intuition congruence|lia]|].
    destruct (String.eqb_spec unit "week") as [->|N4]; [injection H as <-; apply (D (7 * 86400 * 1000000000) (7 * ns_day)); auto 10; [intros ? K; intuition congruence|lia]|].
    destruct (String.eqb_spec unit "year") as [->|N5]; [injection H as <-; apply (D (365 * 86400 * 1000000000) (365 * ns_day)); auto 10; [intros ? K; intuition congruence|lia]|].
    discriminate H.
  - destruct (civil_exists t) as (y & mo & d & doy & day & h & mi & s & C).
    destruct (String.eqb_spec unit "second") as [->|?].
    { injection H as <-. split.
      - intros V. inversion V; subst; try discriminate; try (match goal with U : unit_ns _ _ |- _ => unfold unit_ns in U; intuition discriminate end).
        clear C. civ. f_equal. intuition congruence.
      - intros ->. pose proof (stamp_second _ _ _ _ _ _ _ _ _ C) as V. civ. match goal with |- unit_value _ _ _ (LZ ?x) => match type of V with unit_value _ _ _ (LZ ?z) => replace x with z by (intuition congruence) end end. exact V. }
    destruct (String.eqb_spec unit "minute") as [->|?].
    { injection H as <-. split.
      - intros V. inversion V; subst; try discriminate; try (match goal with U : unit_ns _ _ |- _ => unfold unit_ns in U; intuition discriminate end).
        clear C. civ. f_equal. intuition congruence.
      - intros ->. pose proof (stamp_minute _ _ _ _ _ _ _ _ _ C) as V. civ. match goal with |- unit_value _ _ _ (LZ ?x) => match type of V with unit_value _ _ _ (LZ ?z) => replace x with z by (intuition congruence) end end. exact V. }
    destruct (String.eqb_spec unit "hour") as [->|?].
    { injection H as <-. split.
      - intros V. inversion V; subst; try discriminate; try (match goal with U : unit_ns _ _ |- _ => unfold unit_ns in U; intuition discriminate end).
        clear C. civ. f_equal. intuition congruence.
      - intros ->. pose proof (stamp_hour _ _ _ _ _ _ _ _ _ C) as V. civ. match goal with |- unit_value _ _ _ (LZ ?x) => match type of V with unit_value _ _ _ (LZ ?z) => replace x with z by (intuition congruence) end end. exact V. }
    destruct (String.eqb_spec unit "day") as [->|?].
    { injection H as <-. split.
      - intros V. inversion V; subst; try discriminate; try (match goal with U : unit_ns _ _ |- _ => unfold unit_ns in U; intuition discriminate end).
        clear C. civ. f_equal. intuition congruence.
      - intros ->. pose proof (stamp_day _ _ _ _ _ _ _ _ _ C) as V. civ. match goal with |- unit_value _ _ _ (LZ ?x) => match type of V with unit_value _ _ _ (LZ ?z) => replace x with z by (intuition congruence) end end. exact V. }
    destruct (String.eqb_spec unit "month") as [->|?].
    { injection H as <-. split.
      - intros V. inversion V; subst; try discriminate; try (match goal with U : unit_ns _ _ |- _ => unfold unit_ns in U; intuition discriminate end).
        clear C. civ. f_equal. intuition congruence.
      - intros ->. pose proof (stamp_month _ _ _ _ _ _ _ _ _ C) as V. civ. match goal with |- unit_value _ _ _ (LZ ?x) => match type of V with unit_value _ _ _ (LZ ?z) => replace x with z by (intuition congruence) end end. exact V. }
    destruct (String.eqb_spec unit "year") as [->|?].
    { injection H as <-. split.
      - intros V. inversion V; subst; try discriminate; try (match goal with U : unit_ns _ _ |- _ => unfold unit_ns in U; intuition discriminate end).
        clear C. civ. f_equal. intuition congruence.
      - intros ->. pose proof (stamp_year _ _ _ _ _ _ _ _ _ C) as V. civ. match goal with |- unit_value _ _ _ (LZ ?x) => match type of V with unit_value _ _ _ (LZ ?z) => replace x with z by (intuition congruence) end end. exact V. }
    destruct (String.eqb_spec unit "dayofyear") as [->|?].
    { injection H as <-. split.
      - intros V. inversion V; subst; try discriminate; try (match goal with U : unit_ns _ _ |- _ => unfold unit_ns in U; intuition discriminate end).
        clear C. civ. f_equal. intuition congruence.
      - intros ->. pose proof (stamp_doy _ _ _ _ _ _ _ _ _ C) as V. civ. match goal with |- unit_value _ _ _ (LZ ?x) => match type of V with unit_value _ _ _ (LZ ?z) => replace x with z by (intuition congruence) end end. exact V. }
    destruct (String.eqb_spec unit "dayofweek") as [->|?]; [|discriminate H]. injection H as <-. split.
    + intros V. inversion V as [| | | | | | | | |t0 y0 mo0 d0 doy0 day0 h0 mi0 s0 k w C0 E R]; subst. clear C. civ. f_equal. replace (day_of t + 3) with (k * 7 + w) by lia.
      rewrite Z.add_comm, Z.mod_add by lia. symmetry. apply Z.mod_small. lia.
    + intros ->. apply (stamp_weekday t y mo d doy day h mi s ((day_of t + 3) / 7)); auto; civ.
      * pose proof (Z.div_mod (day_of t + 3) 7 ltac:(lia)). lia.
      * apply Z.mod_pos_bound. lia.
Qed.

(** Every time has exactly one value of each known unit. *)
Theorem C36_unit_value_unique delta unit : unit_known delta unit <->
  (forall t, exists l, unit_value delta unit t l /\ forall l', unit_value delta unit t l' -> l' = l).
Proof.
  split.
  - intros K t. assert (exists f, extract_time_unit delta unit = Ok f) as [f Hf].
    { destruct delta; cbn in K; intuition subst; eexists; reflexivity. }
    exists (f t). split; [apply (extract_value _ _ _ _ _ Hf); auto|intros l' V; apply (extract_value _ _ _ _ _ Hf) in V; auto].
  - intros H. destruct (H 0) as (l & V & _). unfold unit_known.
    inversion V as [| ? ? ? ? ? U| | | | | | | |]; subst; try (cbn; tauto). unfold unit_ns in U. cbn. intuition subst; tauto.
Qed.
Lemma extract_known delta unit : (exists f, extract_time_unit delta unit = Ok f) <-> unit_known delta unit.
Proof.
  split.
  - intros [f Hf]. apply C36_unit_value_unique. intros t. exists (f t).
    split; [apply (extract_value _ _ _ _ _ Hf); auto|intros l' V; apply (extract_value _ _ _ _ _ Hf) in V; auto].
  - intros K. destruct delta; cbn in K; intuition subst; eexists; reflexivity.
Qed.

(** ** ByTimeUnit: one bin per unit value that occurs; each point is in the bin of its time's
    value and in no other. *)
Theorem C36_time_unit fmt delta unit time_dim add_global st m :
  wf st -> coords_local st -> (forall e, point_of (dims st) e -> exists t, time_at st time_dim e t) ->
  create_bin_mask (ByTimeUnit fmt delta unit time_dim add_global) st = Ok m ->
  let d := (time_dim ++ "_" ++ unit)%string in
  exists values, NoDup values /\
    (forall e t, point_of (dims st) e -> time_at st time_dim e t -> exists l, In l values /\ unit_value delta unit t l) /\
    (forall l, In l values -> (exists e, point_of (dims st) e) ->
       exists e t, point_of (dims st) e /\ time_at st time_dim e t /\ unit_value delta unit t l) /\
    (NoDup (glob_labels add_global ++ map (bin_label fmt add_global) values) ->
     mask_for st m d (glob_labels add_global ++ map (bin_label fmt add_global) values) /\
     (forall l e t, In l values -> time_at st time_dim e t ->
        shows (in_bin m d (bin_label fmt add_global l) e) (unit_value delta unit t l)) /\
     (add_global = true -> forall e, in_bin m d (LS "global") e = Fin 1%R)).
Proof.
  intros W L T H d. unfold ByTimeUnit in H. cbn [create_bin_mask] in H. fold d in H.
  destruct (get_coord KeyError st time_dim) as [[ds f]|] eqn:Ec; [|discriminate]. apply get_coord_Ok in Ec. cbn [bind fst snd] in H.
  destruct (extract_time_unit delta unit) as [u|] eqn:Eu; [|discriminate]. cbn [bind] in H.
  pose proof (coord_array_ok _ _ _ _ W Ec) as C.
  assert (forall e t, time_at st time_dim e t <-> f e = LZ t) as CA.
  { intros e t. split; [|intros E; unfold time_at; rewrite <- E; apply C, L]. intros A. apply (coord_at_fun st time_dim e); auto. apply C, L. }
  assert (only ds (fun e => u (time_value (f e)))) as O. { intros e e' He. rewrite (co_only _ _ _ _ C e e' He). reflexivity. }
  destruct (vectorized_spec fmt st ds (fun e => u (time_value (f e))) d add_global m) as [N V]; auto; try apply C.
  assert (forall e t l, time_at st time_dim e t -> (u (time_value (f e)) = l <-> unit_value delta unit t l)) as UV.
  { intros e t l A. apply CA in A. rewrite A. cbn [time_value]. rewrite (extract_value _ _ _ t l Eu). split; auto. }
  exists (uniq ds (fun e => u (time_value (f e)))). split; auto. split; [|split].
  - intros e t P A. exists (u (time_value (f e))). split; [|apply (UV e t _ A); auto].
    apply uniq_In; auto; try apply C. exists e. split; auto. intros k ls I. apply P, (co_sub _ _ _ _ C), I.
  - intros l Il (e0 & P0). apply uniq_In in Il; auto; try apply C. destruct Il as (e & P & A).
    set (e1 := fun d => if memb d (map fst ds) then e d else e0 d).
    assert (point_of (dims st) e1) as P1.
    { intros k ls I. unfold e1. destruct (memb k (map fst ds)) eqn:K; [|apply (P0 k ls I)].
      apply memb_In in K. apply in_map_iff in K. destruct K as ([k' ls'] & <- & I'). cbn [fst].
      pose proof (co_sub _ _ _ _ C _ I') as I2. cbn [fst] in I. destruct W as (N0 & _).
      apply (In_dget _ _ _ N0) in I, I2. assert (ls' = ls) as <- by congruence. apply (P _ _ I'). }
    destruct (T e1 P1) as (t & Ht). exists e1, t. split; auto. split; auto. apply (UV e1 t l Ht). rewrite <- A.
    apply O. intros k Hk. unfold e1. rewrite (proj2 (memb_In _ _) Hk). reflexivity.
  - intros NL. destruct (V NL) as (V1 & V2 & V3). split; auto. split; auto.
    intros l e t Il A. specialize (V2 l e Il). destruct V2 as [[B E]|[B E]]; [left|right]; split; auto; rewrite <- (UV e t l A); auto.
Qed.

(** It works exactly for known units of an existing coordinate. *)
Theorem C36_time_unit_success fmt delta unit time_dim add_global st :
  wf st -> ~ In (time_dim ++ "_" ++ unit)%string (dnames st) ->
  ((exists m, create_bin_mask (ByTimeUnit fmt delta unit time_dim add_global) st = Ok m) <-> has_coord st time_dim /\ unit_known delta unit) /\
  (~ has_coord st time_dim -> create_bin_mask (ByTimeUnit fmt delta unit time_dim add_global) st = Err KeyError) /\
  (has_coord st time_dim -> ~ unit_known delta unit ->
     create_bin_mask (ByTimeUnit fmt delta unit time_dim add_global) st = Err (if delta then ValueError else AttributeError)).
Proof.
  intros W Nd. unfold ByTimeUnit. cbn [create_bin_mask]. rewrite has_coord_iff. rewrite <- extract_known. unfold get_coord.
  destruct (coord_array st time_dim) as [[ds f]|] eqn:Ec; cbn [bind fst snd].
  - pose proof (coord_array_ok _ _ _ _ W Ec) as C. destruct (extract_time_unit delta unit) as [u|er] eqn:Eu; cbn [bind].
    + split; [|split; [intros X; exfalso; apply X; eauto|intros _ X; exfalso; apply X; eauto]]. rewrite vectorized_ok. split; eauto.
      intros _ I. apply Nd. apply in_map_iff in I. destruct I as (q & <- & I). apply in_map, (co_sub _ _ _ _ C), I.
    + split; [split; [intros [m H]; discriminate|intros [_ [u H]]; discriminate]|]. split; [intros X; exfalso; apply X; eauto|intros _ _].
      unfold extract_time_unit in Eu. cbv zeta in Eu. destruct delta;
      repeat match type of Eu with (if ?b then _ else _) = _ => destruct b; [discriminate|] end; congruence.
  - split; [split; [intros [m H]; discriminate|intros [[c H] _]; discriminate]|]. split; auto. intros [c H]; discriminate.
Qed.

(** ** ByTimeUnitSets: each named set holds the times whose unit value is in the set. *)
Theorem C36_time_unit_sets delta sets unit dim bin_dim add_global st m :
  wf st -> coords_local st -> NoDup (map (fun s => LS (fst s)) sets ++ glob_labels add_global) ->
  create_bin_mask (ByTimeUnitSets delta sets unit dim bin_dim add_global) st = Ok m ->
  let d := match bin_dim with Some d => d | None => (dim ++ "_" ++ unit ++ "_sets")%string end in
  mask_for st m d (map (fun s => LS (fst s)) sets ++ glob_labels add_global) /\
  (forall name values e t, In (name, values) sets -> time_at st dim e t ->
     shows (in_bin m d (LS name) e) (exists l v, unit_value delta unit t l /\ In v values /\ same_value l v)) /\
  (add_global = true -> forall e, in_bin m d (LS "global") e = Fin 1%R).
Proof.
  intros W L N H d. unfold ByTimeUnitSets in H. fold d in H. cbn [create_bin_mask] in H.
  destruct (get_coord KeyError st dim) as [[ds f]|] eqn:Ec; [|discriminate]. apply get_coord_Ok in Ec. cbn [bind fst snd] in H.
  destruct (extract_time_unit delta unit) as [u|] eqn:Eu; [|discriminate]. cbn [bind] in H.
  pose proof (coord_array_ok _ _ _ _ W Ec) as C. apply stack_Ok in H. destruct H as [_ H].
  set (parts := map _ sets ++ _) in H.
  assert (map fst parts = map (fun s => LS (fst s)) sets ++ glob_labels add_global) as El.
  { unfold parts. rewrite map_app, map_map. f_equal. destruct add_global; reflexivity. }
  destruct (bits_mask st d ds parts m) as [A B]; auto; try apply C.
  - rewrite El. auto.
  - unfold parts. apply Forall_app. split; [|apply glob_only]. apply Forall_map, Forall_forall. intros ns _. cbn [snd]. intros e e' He.
    rewrite (co_only _ _ _ _ C e e' He). reflexivity.
  - rewrite El in A. split; auto. split.
    + intros name values e t I Ht.
      assert (f e = LZ t) as E. { apply (coord_at_fun st dim e); auto. apply C, L. }
      rewrite (B (LS name) (fun e => isin values (u (time_value (f e))))).
      * apply shows_b2v. rewrite E, isin_iff. cbn [time_value]. split.
        -- intros (v & Iv & Sv). exists (u t), v. split; auto. apply (extract_value _ _ _ _ _ Eu); auto.
        -- intros (l & v & V & Iv & Sv). apply (extract_value _ _ _ _ _ Eu) in V. subst l. eauto.
      * unfold parts. apply in_app_iff. left. apply (in_map (fun ns => (LS (fst ns), fun e => isin (snd ns) (u (time_value (f e))))) _ _ I).
    + intros Hg e. rewrite (B (LS "global") (fun _ => true)); auto. unfold parts. rewrite Hg. apply in_app_iff. right. left. auto.
Qed.

(** ** ByTimeUnitFromSeconds: the coordinate is a number of seconds; it is divided with
    rounding towards minus infinity and not reduced modulo the next larger unit. *)
Definition seconds_per (unit : string) : option Q :=
  if String.eqb unit "minute" then Some 60%Q else if String.eqb unit "hour" then Some 3600%Q else None.
Definition default_bins (unit : string) : list label :=
  map (fun i => LZ (Z.of_nat i)) (seq 0 (if String.eqb unit "hour" then 24 else 60)).
Theorem C36_from_seconds unit time_dim bins st m :
  let labels := match bins with Some b => b | None => default_bins unit end in
  let d := (time_dim ++ "_" ++ unit)%string in
  wf st -> coords_local st -> NoDup labels ->
  create_bin_mask (ByTimeUnitFromSeconds unit time_dim bins) st = Ok m ->
  mask_for st m d labels /\
  forall l b e x, In l labels -> is_number l b -> number_at st time_dim e x ->
    match seconds_per unit with
    | None => unit = "second" /\ shows (in_bin m d l e) (x == b)%Q
    | Some n => shows (in_bin m d l e) (exists k, b == inject_Z k /\ n * inject_Z k <= x < n * (inject_Z k + 1))%Q
    end.
Proof.
  intros labels d W L N H. unfold ByTimeUnitFromSeconds in H. fold d in H. cbn [create_bin_mask] in H.
  destruct (get_coord KeyError st time_dim) as [[ds f]|] eqn:Ec; [|discriminate]. apply get_coord_Ok in Ec. cbn [bind fst snd] in H.
  pose proof (coord_array_ok _ _ _ _ W Ec) as C.
  assert (exists g, (forall e e', f e = f e' -> g e = g e') /\ stack_parts d ds (bits (map (fun b => (b, fun e => Qeq_bool (g e) (lnum b))) labels)) = Ok m /\
    match seconds_per unit with
    | None => unit = "second" /\ forall e, g e = lnum (f e)
    | Some n => (0 < n)%Q /\ forall e, g e = inject_Z (Qfloor (lnum (f e) / n))
    end) as (g & Gf & Hm & G).
  { unfold labels, seconds_per, default_bins. destruct (String.eqb_spec unit "second") as [->|N0].
    - cbn [bind fst snd] in H. exists (fun e => lnum (f e)). split; [intros e e' E; rewrite E; auto|]. split; [|split; auto]. destruct bins; exact H.
    - destruct (String.eqb_spec unit "minute") as [->|N1].
      + cbn [bind fst snd] in H. eexists. split; [|split; [|split; [reflexivity|intros e; reflexivity]]]; [cbn beta; congruence|].
        change (String.eqb "minute" "hour") with false. destruct bins; exact H.
      + destruct (String.eqb_spec unit "hour") as [->|N2]; [|discriminate].
        cbn [bind fst snd] in H. eexists. split; [|split; [|split; [reflexivity|intros e; reflexivity]]]; [cbn beta; congruence|]. destruct bins; exact H. }
  clear H. set (parts := map _ labels) in Hm.
  assert (map fst parts = labels) as El. { unfold parts. rewrite map_map. apply map_id. }
  destruct (bits_mask st d ds parts m) as [A B]; auto; try apply C.
  - rewrite El. auto.
  - unfold parts. apply Forall_map, Forall_forall. intros b _. cbn [snd]. intros e e' He. rewrite (Gf e e' (co_only _ _ _ _ C e e' He)). reflexivity.
  - rewrite El in A. split; auto. intros l b e x Il Hb (lx & Hx & Nx).
    assert (f e = lx) as E. { apply (coord_at_fun st time_dim e); auto. apply C, L. }
    assert (get m (upd e d l) = b2v (Qeq_bool (g e) (lnum l))) as V.
    { apply (B l (fun e => Qeq_bool (g e) (lnum l))). unfold parts. apply (in_map (fun b => (b, fun e => Qeq_bool (g e) (lnum b))) _ _ Il). }
    apply is_number_lnum in Hb, Nx. destruct (seconds_per unit) as [n|].
    + destruct G as [Hn G]. unfold in_bin. rewrite V. apply shows_b2v. rewrite Qeq_bool_iff, G, E, Nx, Hb. rewrite <- Qeq_bool_iff, Qeq_bool_iff.
      set (q := (x / n)%Q). assert (x == n * q)%Q as Eq. { unfold q. field. intros Z0. rewrite Z0 in Hn. discriminate. }
      pose proof (Qfloor_le q) as F1. pose proof (Qlt_floor q) as F2. rewrite inject_Z_plus in F2. change (inject_Z 1) with 1%Q in F2. split.
      * intros K. exists (Qfloor q). split; [symmetry; exact K|]. rewrite Eq. split; [apply Qmult_le_l; auto|apply Qmult_lt_l; auto].
      * intros (k & K1 & K2 & K3). rewrite Eq in K2, K3. apply Qmult_le_l in K2; auto. apply Qmult_lt_l in K3; auto.
        rewrite K1. assert (Qfloor q = k) as ->; [|reflexivity].
        assert (inject_Z k < inject_Z (Qfloor q + 1))%Q as I1 by (rewrite inject_Z_plus; change (inject_Z 1) with 1%Q; lra).
        assert (inject_Z (Qfloor q) < inject_Z (k + 1))%Q as I2 by (rewrite inject_Z_plus; change (inject_Z 1) with 1%Q; lra).
        rewrite <- Zlt_Qlt in I1, I2. lia.
    + destruct G as [U G]. split; auto. unfold in_bin. rewrite V. apply shows_b2v. rewrite Qeq_bool_iff, G, E, Nx, Hb. reflexivity.
Qed.

(** Consequence: with the default bins, an hour (or minute, or second) count beyond the last
    bin, e.g. a time of day plus whole days, is in no bin at all. *)
Theorem C36_from_seconds_no_wrap unit time_dim st m e x :
  wf st -> coords_local st -> create_bin_mask (ByTimeUnitFromSeconds unit time_dim None) st = Ok m -> number_at st time_dim e x ->
  (match seconds_per unit with Some n => n | None => 1 end * inject_Z (Z.of_nat (List.length (default_bins unit))) <= x \/ x < 0)%Q ->
  forall l, In l (default_bins unit) -> in_bin m (time_dim ++ "_" ++ unit)%string l e = Fin 0%R.
Proof.
  intros W L H Hx Hb l Il.
  assert (NoDup (default_bins unit)) as N. { apply NoDup_map_inj; [intros a b [= E]; lia|apply seq_NoDup]. }
  destruct (C36_from_seconds unit time_dim None st m W L N H) as [_ P].
  assert (List.length (default_bins unit) = if String.eqb unit "hour" then 24 else 60)%nat as Len. { unfold default_bins. rewrite map_length, seq_length. reflexivity. }
  unfold default_bins in Il. apply in_map_iff in Il. destruct Il as (i & <- & Ii). apply in_seq in Ii.
  specialize (P (LZ (Z.of_nat i)) (inject_Z (Z.of_nat i)) e x). rewrite Len in Hb.
  assert (In (LZ (Z.of_nat i)) (default_bins unit)) as I2. { apply (in_map (fun i => LZ (Z.of_nat i))), in_seq. auto. }
  specialize (P I2 (number_Z _) Hx). clear I2 N Len.
  assert (inject_Z (Z.of_nat i) + 1 <= inject_Z (Z.of_nat (if String.eqb unit "hour" then 24 else 60)))%Q as Hi by (apply inject_lt; lia).
  assert (0 <= inject_Z (Z.of_nat i))%Q as Hi0. { change 0%Q with (inject_Z 0). rewrite <- Zle_Qle. lia. }
  set (top := inject_Z (Z.of_nat (if String.eqb unit "hour" then 24 else 60))) in *. clearbody top. set (qi := inject_Z (Z.of_nat i)) in *.
  unfold seconds_per in *. destruct (String.eqb unit "minute"); [|destruct (String.eqb unit "hour")].
  - destruct P as [[(k & K1 & K2) _]|[_ E]]; [|exact E]. exfalso. rewrite <- K1 in K2. lra.
  - destruct P as [[(k & K1 & K2) _]|[_ E]]; [|exact E]. exfalso. rewrite <- K1 in K2. lra.
  - destruct P as [_ [[K _]|[_ E]]]; [|exact E]. exfalso. lra.
Qed.
Theorem C36_from_seconds_success unit time_dim bins st : wf st -> ~ In (time_dim ++ "_" ++ unit)%string (dnames st) ->
  ((exists m, create_bin_mask (ByTimeUnitFromSeconds unit time_dim bins) st = Ok m) <-> has_coord st time_dim /\ In unit ["second"; "minute"; "hour"]) /\
  (has_coord st time_dim -> ~ In unit ["second"; "minute"; "hour"] -> create_bin_mask (ByTimeUnitFromSeconds unit time_dim bins) st = Err ValueError).
Proof.
  intros W Nd. unfold ByTimeUnitFromSeconds. cbn [create_bin_mask]. rewrite has_coord_iff. unfold get_coord.
  destruct (coord_array st time_dim) as [[ds f]|] eqn:Ec; cbn [bind fst snd].
  - pose proof (coord_array_ok _ _ _ _ W Ec) as C.
    assert (~ In (time_dim ++ "_" ++ unit)%string (map fst ds)) as Nd'. { intros I. apply Nd. apply in_map_iff in I. destruct I as (q & <- & I). apply in_map, (co_sub _ _ _ _ C), I. }
    destruct (String.eqb_spec unit "second") as [->|N0]; [|destruct (String.eqb_spec unit "minute") as [->|N1]; [|destruct (String.eqb_spec unit "hour") as [->|N2]]]; cbn [bind fst snd];
    try (split; [split; [intros _; split; [eauto|cbn; tauto]|intros _; apply stack_parts_iff; exact Nd']|intros _ X; exfalso; apply X; cbn; tauto]).
    split; auto. split; [intros [m H]; discriminate|]. intros [_ I]. cbn in I. intuition congruence.
  - split; [split; [intros [m H]; discriminate|intros [[c H] _]; discriminate]|intros [c H]; discriminate].
Qed.

(** ** Cases meeting the hypotheses: 1969-12-31T23:30 and 2000-02-29T12:00. *)
Section Example1.
  Let t1 := -1800000000000. Let t2 := 951825600000000000.
  Let st := mkDa [("valid_time", [LZ t1; LZ t2])] (fun _ => Fin 1%R) [("tod", mkCoord ["valid_time"] (fun e => LZ 90000))].
  Example C36_example : wf st /\ coords_local st /\ (forall e, point_of (dims st) e -> exists t, time_at st "valid_time" e t) /\
    (exists m, create_bin_mask (ByTimeUnit (fun _ => "") false "month" "valid_time" false) st = Ok m) /\
    (exists m, create_bin_mask (ByTimeUnitSets false [("DJF", [LZ 12; LZ 1; LZ 2])] "month" "valid_time" None true) st = Ok m) /\
    (exists m, create_bin_mask (ByTimeUnitFromSeconds "hour" "tod" None) st = Ok m) /\ number_at st "tod" env0 90000 /\
    unit_value false "day" t2 (LZ 29) /\ unit_value false "year" t1 (LZ 1969) /\ unit_value true "day" t1 (LQ (Q2Qc (inject_Z (-1)))).
  Proof.
    split. { split; [repeat constructor; cbn; tauto|split; [|auto]]. intros d ls [[= <- <-]|[]]. repeat constructor; cbn; intuition discriminate. }
    split. { intros k c H. cbn in H. destruct (eq_dec k "tod"); [|discriminate]; injection H as <-; (split; [cbn; intros ? [<-|[]]; cbn; auto|]); auto. }
    split. { intros e P. specialize (P "valid_time" _ (or_introl eq_refl)). destruct P as [P|[P|[]]]; eexists; left; (split; [cbn; auto|exact P]). }
    split; [eexists; reflexivity|]. split; [eexists; reflexivity|]. split; [eexists; reflexivity|].
    split. { exists (LZ 90000). split; [|apply (number_Z 90000)]. right. split; [cbn; intuition discriminate|]. eexists. split; reflexivity. }
    split; [|split]; (eapply extract_value; [reflexivity|reflexivity]).
  Qed.
End Example1.

Print Assumptions C36_unit_value_unique. Print Assumptions C36_time_unit. Print Assumptions C36_time_unit_success. Print Assumptions C36_time_unit_sets.
Print Assumptions C36_from_seconds. Print Assumptions C36_from_seconds_no_wrap. Print Assumptions C36_from_seconds_success.
