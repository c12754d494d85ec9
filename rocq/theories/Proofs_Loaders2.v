(** Proofs about the xarray loaders. *)
From Coq Require Import String ZArith List Bool Lia.
Import ListNotations.
From Verif Require Import Prelude Values Model_XArray Spec_XArray Proofs_XArray Model_MetricsBase Model_Calendar Model_TimeChunks Model_Deterministic
  Model_Ensemble Proofs_Ensemble2 Model_Binning Model_Loaders Spec_Loaders Proofs_Loaders Spec_Calendar Proofs_Calendar Proofs_Calendar2 Proofs_Beam9 Proofs_AggState Spec_Binning Props_TimeBins.
Local Open Scope Z_scope.
Local Open Scope string_scope.
Local Open Scope list_scope.

(** Selection with one indexer. *)
Lemma mine_one a d f : mine a [(d, f)] = if memb d (dnames a) then [(d, f)] else [].
Proof. unfold mine. cbn [filter fst]. destruct (memb d (dnames a)); reflexivity. Qed.
Lemma sel_one_chunk ids d f ds out (at_ : env -> env -> Prop) : dataset ds -> NoDup (map fst ids) -> (forall n ls, In (n, ls) ids -> NoDup ls) ->
  (forall e e' : env, (forall k, In k (map fst ids) -> e k = e' k) -> f e = f e') ->
  (forall e e', (forall n ls, In (n, ls) ids -> In (e n) ls) -> at_ e e' -> e' d = f e /\ same_except [d] e e') ->
  sel_arrays ids [(d, f)] ds = Ok out ->
  chunk_of ds (fun a => In d (dnames a)) (answers [d] ids at_) out.
Proof.
  intros D Ni Li Lf At H. destruct (sel_arrays_spec _ _ _ _ H Ni Li) as [K S]; [intros k g [[= <- <-]|[]]; exact Lf|]. split; [exact K|].
  intros v a G. destruct (S v a G) as (b & Gb & S1 & S2). exists b. split; auto. rewrite mine_one in S1, S2. split; intros I.
  - assert (memb d (dnames a) = true) as M by (apply memb_In, I). rewrite M in S2. destruct S2 as [_ S2]; [discriminate|]. pose proof (dataset_get _ _ _ D G) as W.
    pose proof (S2 W) as An. refine (answers_weaken _ _ _ _ _ _ _ W An). intros e e' P A. exists e'. split; auto.
    assert (forall n ls, In (n, ls) ids -> In (e n) ls) as Pi by (intros n ls J; apply (P n), dget_In, (an_new _ _ _ _ _ An _ _ J)).
    destruct (At e e' Pi A) as [E1 E2]. intros n. cbn [dget]. destruct (eq_dec n d) as [->|]; auto. apply E2. intros [->|[]]. auto.
  - apply S1. apply memb_false in I. rewrite I. reflexivity.
Qed.
Lemma sel_one_ok ids d f ds : (exists out, sel_arrays ids [(d, f)] ds = Ok out) <->
  dataset_dim ds d /\ forall v a e, In (v, a) ds -> In d (dnames a) -> In e (envs ids env0) -> In (f e) (labels_of (dims a) d).
Proof.
  rewrite sel_arrays_ok. split; intros [A B]; split.
  - apply (A d f). left. auto.
  - intros v a e I Id Ie. apply (B v a e d f I (or_introl eq_refl) Id Ie).
  - intros k g [[= <- <-]|[]]. auto.
  - intros v a e k g I [[= <- <-]|[]] Id Ie. eauto.
Qed.
Lemma in_box_init_lead inits leads e : (forall n ls, In (n, ls) (init_lead inits leads) -> In (e n) ls) -> exists t l, In t inits /\ In l leads /\ at_time e t l.
Proof.
  intros P. assert (In (e "init_time") (times inits)) as I1 by (apply P; left; auto). assert (In (e "lead_time") (times leads)) as I2 by (apply P; right; left; auto).
  apply in_map_iff in I1, I2. destruct I1 as (t & E1 & I1), I2 as (l & E2 & I2). exists t, l. repeat split; auto.
Qed.
Lemma at_time_fun e t l t' l' : at_time e t l -> at_time e t' l' -> t = t' /\ l = l'.
Proof. intros [A B] [C D]. rewrite C in A. rewrite D in B. injection A. injection B. auto. Qed.

(** Orthogonal selection as a chunk. *)
Lemma sel_labels_chunk d ls ds out : dataset ds -> NoDup ls -> sel_labels d ls ds = Ok out ->
  chunk_of ds (fun a => In d (dnames a)) (answers [] [(d, ls)] (same_except [])) out.
Proof.
  intros D N H. destruct (sel_labels_spec _ _ _ _ H) as [K S]. split; [exact K|]. intros v a G. destruct (S v a G) as (b & Gb & S1 & S2). exists b. split; auto. split; auto.
  intros I. destruct (S2 I) as [_ ->]. apply restrict_answers; auto. apply (dataset_get _ _ _ D G).
Qed.
Lemma dataset_sel d ls ds out : dataset ds -> NoDup ls -> sel_labels d ls ds = Ok out -> dataset out.
Proof.
  intros [N W] Nl H. destruct (sel_labels_spec _ _ _ _ H) as [K S]. split; [unfold keys; rewrite K; exact N|]. intros v b I.
  assert (In v (keys ds)) as Iv by (unfold keys; rewrite <- K; apply (in_map fst _ _ I)). apply keys_dget in Iv. destruct Iv as [a G]. destruct (S v a G) as (b' & Gb & S1 & S2).
  assert (b' = b) as ->. { assert (NoDup (keys out)) as No by (unfold keys; rewrite K; exact N). pose proof (In_dget _ _ _ No I). congruence. }
  pose proof (W _ _ (dget_In _ _ G)) as Wa. destruct (memb d (dnames a)) eqn:M.
  - apply memb_In in M. destruct (S2 M) as [_ ->]. apply wf_restrict; auto.
  - apply memb_false in M. rewrite (S1 M). auto.
Qed.

(** ** Climatology *)
Definition clim_index (vt : env -> Z) (coords : list string) : result (list (string * (env -> label))) :=
  mapM (fun c => do f <- extract_time_unit false c; Ok (c, fun e : env => f (vt e))) coords.
Lemma clim_index_spec vt coords idx : clim_index vt coords = Ok idx ->
  map fst idx = coords /\ forall c g, In (c, g) idx -> forall e l, unit_value false c (vt e) l <-> l = g e.
Proof.
  unfold clim_index. revert idx. induction coords as [|c cs IH]; intros idx H; cbn [mapM] in H.
  - injection H as <-. split; auto. intros c g [].
  - destruct (extract_time_unit false c) as [f|] eqn:E; [|discriminate]. cbn [bind] in H. destruct (mapM _ cs) as [r|]; [|discriminate]. cbn [bind] in H. injection H as <-.
    destruct (IH r eq_refl) as [A B]. split; [cbn [map fst]; congruence|]. intros k g [[= <- <-]|I]; [|eauto]. intros e l. apply extract_value. exact E.
Qed.
Lemma clim_index_local vt coords idx (P : env -> env -> Prop) : clim_index vt coords = Ok idx -> (forall e e', P e e' -> vt e = vt e') ->
  forall c g, In (c, g) idx -> forall e e', P e e' -> g e = g e'.
Proof.
  unfold clim_index. intros H Hp c g I e e' Pe. revert idx H I. induction coords as [|c0 cs IH]; intros idx H I; cbn [mapM] in H; [injection H as <-; destruct I|].
  destruct (extract_time_unit false c0) as [f|]; [|discriminate]. cbn [bind] in H. destruct (mapM _ cs) as [r|]; [|discriminate]. cbn [bind] in H. injection H as <-.
  destruct I as [[= <- <-]|I]; [rewrite (Hp e e' Pe); reflexivity|]. apply (IH r); auto.
Qed.
Lemma clim_index_ok vt coords : (forall c, In c coords -> unit_known false c) -> exists idx, clim_index vt coords = Ok idx.
Proof. intros H. apply mapM_total. intros c I. destruct (proj2 (extract_known false c) (H c I)) as [f ->]. cbn [bind]. eauto. Qed.

(** Selection by several indexers, all found from their names. *)
Lemma mine_names a idx d : In d (map fst (mine a idx)) <-> In d (map fst idx) /\ In d (dnames a).
Proof.
  unfold mine. rewrite !in_map_iff. split.
  - intros (p & <- & I). apply filter_In in I. destruct I as [I M]. apply memb_In in M. split; auto. exists p. auto.
  - intros [(p & <- & I) M]. exists p. split; auto. apply filter_In. split; auto. apply memb_In, M.
Qed.
Lemma clim_chunk ids vt coords idx ds out (at_ : da -> env -> env -> Prop) : dataset ds -> NoDup (map fst ids) -> (forall n ls, In (n, ls) ids -> NoDup ls) ->
  (forall e e' : env, (forall k, In k (map fst ids) -> e k = e' k) -> vt e = vt e') ->
  (forall a e e', (forall n ls, In (n, ls) ids -> In (e n) ls) -> at_ a e e' -> (forall c, In c coords -> In c (dnames a) -> unit_value false c (vt e) (e' c)) /\ same_except coords e e') ->
  clim_index vt coords = Ok idx -> sel_arrays ids idx ds = Ok out ->
  chunk_of ds (fun a => exists c, In c coords /\ In c (dnames a)) (fun a => answers coords ids (at_ a) a) out.
Proof.
  intros D Ni Li Lv At Hi H. destruct (clim_index_spec _ _ _ Hi) as [Kn Un].
  destruct (sel_arrays_spec _ _ _ _ H Ni Li) as [K S]. { intros d f I e e' He. apply (clim_index_local _ _ _ (fun e e' => forall k, In k (map fst ids) -> e k = e' k) Hi Lv d f I e e' He). }
  split; [exact K|]. intros v a G. destruct (S v a G) as (b & Gb & S1 & S2). exists b. split; auto. pose proof (dataset_get _ _ _ D G) as W.
  assert (mine a idx <> [] <-> exists c, In c coords /\ In c (dnames a)) as Hm.
  { split.
    - intros M. destruct (mine a idx) as [|[c g] r] eqn:E; [congruence|]. exists c. rewrite <- Kn. apply mine_names. rewrite E. left. reflexivity.
    - intros (c & I) E. rewrite <- Kn in I. apply mine_names in I. rewrite E in I. destruct I. }
  split; intros I.
  - destruct (S2 (proj2 Hm I)) as [_ S3]. specialize (S3 W).
    assert (answers coords ids (fun e e' => forall d, e' d = match dget (mine a idx) d with Some f => f e | None => e d end) a b) as An.
    { destruct S3 as [A1 A2 A3 A4 A5]. split; auto.
      - intros d Id Nd Ib. assert (~ In d (dnames a)) as Na by (intros Ia; apply (A3 d); auto; apply mine_names; rewrite Kn; auto).
        assert (dget (dims b) d = dget (dims a) d) as E by (apply A4; auto; intros M; apply mine_names in M; tauto).
        apply keys_dget in Ib. destruct Ib as [x Ex]. rewrite Ex in E. apply Na. apply (dget_Some_keys _ _ (eq_sym E)).
      - intros d Id Nd. apply A4; auto. intros M. apply mine_names in M. rewrite Kn in M. tauto. }
    refine (answers_weaken _ _ _ _ _ _ _ W An). intros e e' P A.
    assert (forall n ls, In (n, ls) ids -> In (e n) ls) as Pi by (intros n ls J; apply (P n), dget_In, (an_new _ _ _ _ _ An _ _ J)).
    destruct (At a e e' Pi A) as [E1 E2]. exists (fun d => match dget (mine a idx) d with Some f => f e | None => e d end). split; auto. intros d Id.
    destruct (dget (mine a idx) d) as [g|] eqn:Eg.
    + apply dget_In in Eg. unfold mine in Eg. apply filter_In in Eg. destruct Eg as [Eg _]. symmetry. apply (Un d g Eg). apply E1; auto. rewrite <- Kn. apply (in_map fst _ _ Eg).
    + symmetry. apply E2. intros Ic. apply dget_None in Eg. apply Eg. apply mine_names. rewrite Kn. auto.
  - apply S1. destruct (mine a idx) eqn:E; auto. exfalso. apply I, Hm. discriminate.
Qed.
Lemma clim_ok ids vt coords idx ds : clim_index vt coords = Ok idx -> ((exists out, sel_arrays ids idx ds = Ok out) <->
  (forall c, In c coords -> dataset_dim ds c) /\
  forall v a e c l, In (v, a) ds -> In c coords -> In c (dnames a) -> In e (envs ids env0) -> unit_value false c (vt e) l -> In l (labels_of (dims a) c)).
Proof.
  intros Hi. destruct (clim_index_spec _ _ _ Hi) as [Kn Un]. rewrite sel_arrays_ok. split; intros [A B]; split.
  - intros c Ic. rewrite <- Kn in Ic. apply in_map_iff in Ic. destruct Ic as ([c' g] & <- & Ic). apply (A _ _ Ic).
  - intros v a e c l I Ic Id Ie U. rewrite <- Kn in Ic. apply in_map_iff in Ic. destruct Ic as ([c' g] & <- & Ic). cbn [fst] in *. apply (Un _ _ Ic) in U. subst l. eapply B; eauto.
  - intros d f I. apply A. rewrite <- Kn. apply (in_map fst _ _ I).
  - intros v a e d f I Ii Id Ie. eapply (B v a e d); eauto; [rewrite <- Kn; apply (in_map fst _ _ Ii)|]. apply (Un _ _ Ii). reflexivity.
Qed.

(** ** The same hour in another year *)
Lemma cat_time_iff y t T : same_hour_in_year y t T <-> T = cat_time y t.
Proof.
  unfold same_hour_in_year, cat_time. split.
  - intros (y0 & mo & d & doy & day & h & mi & s & D & C & J & ->). apply jan1_start in J. subst D. rewrite (civil_hour _ _ _ _ _ _ _ _ _ C).
    destruct (civil_date _ _ _ _ _ _ _ _ _ C) as (_ & -> & _). unfold ns_day, ns_hour. ring.
  - intros ->. destruct (civil_exists t) as (y0 & mo & d & doy & day & h & mi & s & C). exists y0, mo, d, doy, day, h, mi, s, (year_start y). split; auto. split; [apply start_jan1|].
    rewrite (civil_hour _ _ _ _ _ _ _ _ _ C). destruct (civil_date _ _ _ _ _ _ _ _ _ C) as (_ & -> & _). unfold ns_day, ns_hour. ring.
Qed.
Lemma zrange_nth a b k : 0 <= k < b - a -> nth (Z.to_nat k) (zrange a b) 0 = a + k.
Proof.
  intros H. unfold zrange. rewrite (nth_indep _ 0 (a + Z.of_nat 0)); [|rewrite map_length, seq_length; lia]. rewrite (map_nth (fun k => a + Z.of_nat k)), seq_nth by lia. lia.
Qed.
Lemma zrange_length a b : length (zrange a b) = Z.to_nat (b - a).
Proof. unfold zrange. rewrite map_length, seq_length. reflexivity. Qed.
Lemma zrange_nil a b : zrange a b = [] <-> b <= a.
Proof. rewrite <- length_zero_iff_nil, zrange_length. lia. Qed.
Lemma Forall2_in {A B} (R : A -> B -> Prop) l l' : Forall2 R l l' -> forall x, In x l -> exists y, In y l' /\ R x y.
Proof. induction 1 as [|x y l l' Hxy _ IH]; intros z [].  - subst. exists y. split; [left|]; auto. - destruct (IH z H) as (w & Iw & Rw). exists w. split; [right|]; auto. Qed.
Lemma Forall2_flip_in {A B} (R : A -> B -> Prop) l l' : Forall2 R l l' -> forall y, In y l' -> exists x, In x l /\ R x y.
Proof. induction 1 as [|x y l l' Hxy _ IH]; intros z [].  - subst. exists x. split; [left|]; auto. - destruct (IH z H) as (w & Iw & Rw). exists w. split; [right|]; auto. Qed.
