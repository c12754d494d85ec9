(** Proofs about selection from datasets. *)
From Coq Require Import String ZArith List Bool Lia.
Import ListNotations.
From Verif Require Import Prelude Values Model_XArray Spec_XArray Proofs_XArray Model_MetricsBase Model_Calendar Model_TimeChunks Model_Deterministic
  Model_Ensemble Proofs_Ensemble2 Model_Binning Model_Loaders Spec_Loaders Spec_Calendar Proofs_Calendar Proofs_Calendar2 Proofs_Beam9 Proofs_AggState Spec_Binning Props_TimeBins.
Local Open Scope Z_scope.
Local Open Scope string_scope.
Local Open Scope list_scope.

Lemma mapM_dget {V W} (f : string * V -> result (string * W)) l out k a : (forall kv r, f kv = Ok r -> fst r = fst kv) ->
  mapM f l = Ok out -> dget l k = Some a -> exists b, f (k, a) = Ok (k, b) /\ dget out k = Some b.
Proof.
  intros K. revert out. induction l as [|[k0 a0] l IH]; intros out H G; [discriminate|]. cbn [mapM] in H.
  destruct (f (k0, a0)) as [[k1 b]|] eqn:E; [|discriminate]. cbn [bind] in H. destruct (mapM f l) as [bs|]; [|discriminate]. cbn [bind] in H. injection H as <-.
  pose proof (K _ _ E) as E1. cbn [fst] in E1. subst k1. cbn [dget] in *. destruct (eq_dec k k0) as [->|].
  - injection G as <-. eauto.
  - apply IH; auto.
Qed.
Lemma mapM_keys {V W} (f : string * V -> result (string * W)) l out : (forall kv r, f kv = Ok r -> fst r = fst kv) ->
  mapM f l = Ok out -> map fst out = map fst l.
Proof.
  intros K. revert out. induction l as [|kv l IH]; intros out H; cbn [mapM] in H; [injection H as <-; reflexivity|].
  destruct (f kv) as [r|] eqn:E; [|discriminate]. cbn [bind] in H. destruct (mapM f l) as [bs|]; [|discriminate]. cbn [bind] in H. injection H as <-. cbn [map]. rewrite (K _ _ E), (IH _ eq_refl). reflexivity.
Qed.
Lemma mapM_error {A B} (f : A -> result B) l e0 : (forall x e, In x l -> f x = Err e -> e = e0) -> (exists x e, In x l /\ f x = Err e) -> mapM f l = Err e0.
Proof.
  induction l as [|x l IH]; intros H (y & e & I & E); [destruct I|]. cbn [mapM]. destruct (f x) as [b|e1] eqn:Ex.
  - cbn [bind]. destruct I as [->|I]; [congruence|]. rewrite IH; [reflexivity| |exists y, e; auto]. intros z ez Iz. apply H. right. auto.
  - cbn [bind]. rewrite (H x e1 (or_introl eq_refl) Ex). reflexivity.
Qed.

Lemma has_dim_iff ds d : has_dim ds d = true <-> dataset_dim ds d.
Proof.
  unfold has_dim, dataset_dim. rewrite existsb_exists. split.
  - intros ([v a] & I & H). apply memb_In in H. eauto.
  - intros (v & a & I & H). exists (v, a). split; auto. apply memb_In, H.
Qed.
Lemma times_NoDup ts : NoDup ts -> NoDup (times ts).
Proof. intros N. apply FinFun.Injective_map_NoDup; auto. intros x y [=]. auto. Qed.

Lemma answers_weaken gone new (r r' : env -> env -> Prop) a b : (forall e e', point_of (dims b) e -> r' e e' -> exists e'', r e e'' /\ (forall d, In d (dnames a) -> e'' d = e' d)) ->
  wf a -> answers gone new r a b -> answers gone new r' a b.
Proof.
  intros H (_ & _ & L) [A1 A2 A3 A4 A5]. split; auto. intros e e' P R'. destruct (H e e' P R') as (e'' & R'' & E). rewrite (A5 e e'' P R''). apply L, E.
Qed.
Lemma dataset_get ds v a : dataset ds -> dget ds v = Some a -> wf a.
Proof. intros [_ W] G. apply (W v), dget_In, G. Qed.
(** ** Orthogonal selection *)
Lemma restrict_dims d ls a : dims (restrict [(d, ls)] a) = map (fun p => if eq_dec (fst p) d then (fst p, ls) else p) (dims a).
Proof. unfold restrict. cbn [dims]. apply map_ext. intros [k l]. cbn [fst dget]. destruct (eq_dec k d); reflexivity. Qed.
Lemma dget_restrict d ls a k : dget (dims (restrict [(d, ls)] a)) k = if eq_dec k d then match dget (dims a) d with Some _ => Some ls | None => None end else dget (dims a) k.
Proof.
  rewrite restrict_dims. induction (dims a) as [|[k0 l0] ds IH]; cbn [map fst snd dget].
  - destruct (eq_dec k d); reflexivity.
  - destruct (eq_dec k0 d) as [->|Nd]; cbn [dget].
    + destruct (eq_dec k d) as [->|Nk]; [destruct (eq_dec d d); [reflexivity|congruence]|]. rewrite IH. destruct (eq_dec k d); [congruence|reflexivity].
    + destruct (eq_dec k k0) as [->|Nk].
      * destruct (eq_dec k0 d); [congruence|reflexivity].
      * rewrite IH. destruct (eq_dec k d) as [->|]; [|reflexivity]. destruct (eq_dec d k0); [congruence|reflexivity].
Qed.
Lemma restrict_names d ls a : dnames (restrict [(d, ls)] a) = dnames a.
Proof.
  unfold dnames. rewrite restrict_dims, map_map. apply map_ext. intros [k l]. cbn [fst]. destruct (eq_dec k d); reflexivity.
Qed.
Lemma wf_restrict d ls a : wf a -> NoDup ls -> wf (restrict [(d, ls)] a).
Proof.
  intros (A & B & C) N. split; [rewrite restrict_names; auto|]. split.
  - intros k l I. rewrite restrict_dims in I. apply in_map_iff in I. destruct I as ([k0 l0] & E & I). cbn [fst snd] in E.
    destruct (eq_dec k0 d); injection E as <- <-; auto. apply (B _ _ I).
  - intros e e' H. cbn [restrict get]. apply C. rewrite restrict_names in H. auto.
Qed.
Lemma restrict_answers d ls a : wf a -> NoDup ls -> In d (dnames a) -> answers [] [(d, ls)] (same_except []) a (restrict [(d, ls)] a).
Proof.
  intros W N I. split.
  - apply wf_restrict; auto.
  - intros k l [[= <- <-]|[]]. rewrite dget_restrict. destruct (eq_dec d d); [|congruence]. apply keys_dget in I. destruct I as [x ->]. reflexivity.
  - intros k [].
  - intros k _ Nk. rewrite dget_restrict. destruct (eq_dec k d) as [->|]; auto. exfalso. apply Nk. left. auto.
  - intros e e' _ E. destruct W as (_ & _ & L). apply L. intros k _. symmetry. apply E. intros [].
Qed.
Lemma sel_labels_fst d ls : forall (kv r : string * da), (match dget (dims (snd kv)) d with
    | None => Ok kv | Some have => if forallb (fun l => memb l have) ls then Ok (fst kv, restrict [(d, ls)] (snd kv)) else Err KeyError end) = Ok r -> fst r = fst kv.
Proof. intros [k a] r. cbn [fst snd]. destruct (dget (dims a) d); [destruct (forallb _ ls); [|discriminate]|]; intros [= <-]; reflexivity. Qed.
Lemma sel_labels_spec d ls ds out : sel_labels d ls ds = Ok out ->
  map fst out = map fst ds /\
  forall v a, dget ds v = Some a -> exists b, dget out v = Some b /\
    (~ In d (dnames a) -> b = a) /\
    (In d (dnames a) -> (forall l, In l ls -> In l (labels_of (dims a) d)) /\ b = restrict [(d, ls)] a).
Proof.
  unfold sel_labels. destruct (has_dim ds d); [|discriminate]. intros H. split; [apply (mapM_keys _ _ _ (sel_labels_fst d ls) H)|].
  intros v a G. destruct (mapM_dget _ _ _ _ _ (sel_labels_fst d ls) H G) as (b & E & Gb). exists b. split; auto. cbn [fst snd] in E.
  destruct (dget (dims a) d) as [have|] eqn:Ed.
  - split; [intros N; exfalso; apply N; apply (dget_Some_keys _ _ Ed)|]. intros _. destruct (forallb _ ls) eqn:F; [|discriminate]. injection E as <-. split; auto.
    intros l Il. rewrite forallb_forall in F. unfold labels_of. rewrite Ed. apply memb_In, F, Il.
  - split; [intros _; congruence|]. intros I. apply dget_None in Ed. contradiction.
Qed.
Lemma sel_labels_ok d ls ds : (exists out, sel_labels d ls ds = Ok out) <->
  dataset_dim ds d /\ forall v a l, In (v, a) ds -> In d (dnames a) -> In l ls -> In l (labels_of (dims a) d).
Proof.
  rewrite <- has_dim_iff. unfold sel_labels. destruct (has_dim ds d); [|split; [intros [o H]; discriminate|intros [H _]; discriminate]]. split.
  - intros [out H]. split; auto. intros v a l I Id Il. destruct (mapM_defined _ _ _ H _ I) as (r & _ & E). cbn [fst snd] in E.
    apply keys_dget in Id. destruct Id as [have Ed]. unfold labels_of. rewrite Ed in *. destruct (forallb _ ls) eqn:F; [|discriminate]. rewrite forallb_forall in F. apply memb_In, F, Il.
  - intros [_ H]. apply mapM_total. intros [v a] I. cbn [fst snd]. destruct (dget (dims a) d) as [have|] eqn:Ed; [|eauto].
    assert (forallb (fun l => memb l have) ls = true) as ->; [|eauto]. apply forallb_forall. intros l Il. apply memb_In. specialize (H v a l I (dget_Some_keys _ _ Ed) Il). unfold labels_of in H. rewrite Ed in H. exact H.
Qed.

Lemma sel_labels_err d ls ds e : sel_labels d ls ds = Err e -> e = KeyError.
Proof.
  unfold sel_labels. destruct (has_dim ds d); [|intros [= <-]; auto]. generalize ds. clear. induction ds as [|[v a] ds IH]; intros H; [discriminate|]. cbn [mapM fst snd] in H.
  destruct (dget (dims a) d); [destruct (forallb _ ls); [|injection H as <-; auto]|]; cbn [bind] in H; (destruct (mapM _ ds); [discriminate|]; cbn [bind] in H; apply IH; auto).
Qed.

(** ** Vectorised selection *)
Lemma sel_points_Ok a ids iaux idx b : sel_points a ids iaux idx = Ok b ->
  (forall e d f, In e (envs ids env0) -> In (d, f) idx -> In (f e) (labels_of (dims a) d)) /\
  b = mkDa (ids ++ filter (fun p => negb (memb (fst p) (map fst idx)) && negb (memb (fst p) (map fst ids))) (dims a))
           (fun e => get a (fun d => match dget idx d with Some f => f e | None => e d end)) (aux_without (map fst idx) (aux a) ++ iaux).
Proof.
  unfold sel_points. destruct (forallb _ _) eqn:F; [|discriminate]. intros [= <-]. split; auto. intros e d f Ie If. rewrite forallb_forall in F. specialize (F e Ie). rewrite forallb_forall in F.
  specialize (F _ If). apply memb_In, F.
Qed.
Lemma dget_app (l1 l2 : dimlist) k : dget (l1 ++ l2) k = match dget l1 k with Some v => Some v | None => dget l2 k end.
Proof. induction l1 as [|[k0 v0] l IH]; auto. cbn [app dget]. destruct (eq_dec k k0); auto. Qed.
Lemma dget_filter_fst (p : string -> bool) (ds : dimlist) k : dget (filter (fun q => p (fst q)) ds) k = if p k then dget ds k else None.
Proof. apply (dget_keep p). Qed.

Lemma sel_points_answers a ids iaux (idx : list (string * (env -> label))) b : wf a -> NoDup (map fst ids) -> (forall d ls, In (d, ls) ids -> NoDup ls) ->
  (forall d f, In (d, f) idx -> forall e e' : env, (forall k, In k (map fst ids) -> e k = e' k) -> f e = f e') ->
  sel_points a ids iaux idx = Ok b ->
  answers (map fst idx) ids (fun e e' => forall d, e' d = match dget idx d with Some f => f e | None => e d end) a b.
Proof.
  intros (A & B & C) Ni Li Lf H. apply sel_points_Ok in H. destruct H as [_ ->].
  set (keepd := fun p : string => negb (memb p (map fst idx)) && negb (memb p (map fst ids))).
  change (filter (fun p => negb (memb (fst p) (map fst idx)) && negb (memb (fst p) (map fst ids))) (dims a)) with (keep keepd (dims a)).
  split; cbn [dims get].
  - split; [|split].
    + unfold dnames. cbn [dims]. rewrite map_app. apply NoDup_app_intro; auto.
      * apply NoDup_map_filter, A.
      * intros k I1 I2. apply in_map_iff in I2. destruct I2 as (p & <- & I2). apply filter_In in I2. destruct I2 as [_ I2]. unfold keepd in I2.
        apply andb_true_iff in I2. destruct I2 as [_ I2]. apply negb_true_iff, memb_false in I2. contradiction.
    + cbn [dims]. intros d ls I. apply in_app_iff in I. destruct I as [I|I]; [apply (Li _ _ I)|]. apply filter_In in I. apply (B d), I.
    + unfold dnames. cbn [dims get]. intros e e' H. apply C. intros d Hd. destruct (dget idx d) as [f|] eqn:E.
      * apply dget_In in E. apply (Lf d f E). intros k Hk. apply H. rewrite map_app, in_app_iff. auto.
      * apply H. rewrite map_app, in_app_iff. destruct (memb d (map fst ids)) eqn:M; [left; apply memb_In, M|]. right.
        apply in_map_iff in Hd. destruct Hd as (p & <- & Hd). apply in_map. apply filter_In. split; auto. unfold keepd. rewrite M.
        apply dget_None in E. apply memb_false in E. unfold keys in E. rewrite E. reflexivity.
  - intros d ls I. rewrite dget_app, (@In_dget string (list label) _ ids d ls); auto.
  - intros d Hd Nd. unfold dnames. cbn [dims]. rewrite map_app, in_app_iff. intros [I|I]; [contradiction|]. apply in_map_iff in I. destruct I as (p & <- & I). apply filter_In in I.
    destruct I as [_ I]. unfold keepd in I. apply andb_true_iff in I. destruct I as [I _]. apply negb_true_iff, memb_false in I. contradiction.
  - intros d Hd Nd. rewrite dget_app. destruct (dget ids d) as [x|] eqn:E; [exfalso; apply Nd; apply (dget_Some_keys _ _ E)|]. rewrite dget_keep. unfold keepd.
    apply memb_false in Hd, Nd. rewrite Hd, Nd. reflexivity.
  - intros e e' _ E. apply C. intros k _. symmetry. apply E.
Qed.

Definition sel_one (ids : dimlist) (idx : list (string * (env -> label))) (kv : string * da) : result (string * da) :=
  let mine := filter (fun df => memb (fst df) (dnames (snd kv))) idx in
  match mine with
  | [] => Ok kv
  | _ => do a <- sel_points (snd kv) ids (map (fun df => (fst df, mkCoord (map fst ids) (snd df))) mine) mine; Ok (fst kv, a)
  end.
Lemma sel_one_fst ids idx kv r : sel_one ids idx kv = Ok r -> fst r = fst kv.
Proof. unfold sel_one. destruct (filter _ idx); [intros [= <-]; auto|]. destruct (sel_points _ _ _ _); [|discriminate]. cbn [bind]. intros [= <-]. reflexivity. Qed.

(** The indexers that concern a variable. *)
Definition mine (a : da) (idx : list (string * (env -> label))) := filter (fun df => memb (fst df) (dnames a)) idx.

Lemma sel_arrays_spec ids idx ds out : sel_arrays ids idx ds = Ok out -> NoDup (map fst ids) -> (forall d ls, In (d, ls) ids -> NoDup ls) ->
  (forall d f, In (d, f) idx -> forall e e' : env, (forall k, In k (map fst ids) -> e k = e' k) -> f e = f e') ->
  map fst out = map fst ds /\
  forall v a, dget ds v = Some a -> exists b, dget out v = Some b /\
    (mine a idx = [] -> b = a) /\
    (mine a idx <> [] -> (forall e d f, In e (envs ids env0) -> In (d, f) (mine a idx) -> In (f e) (labels_of (dims a) d)) /\
       (wf a -> answers (map fst (mine a idx)) ids (fun e e' => forall d, e' d = match dget (mine a idx) d with Some f => f e | None => e d end) a b)).
Proof.
  unfold sel_arrays. destruct (forallb _ idx); [|discriminate]. intros H Ni Li Lf. change (mapM (sel_one ids idx) ds = Ok out) in H.
  split; [apply (mapM_keys _ _ _ (sel_one_fst ids idx) H)|]. intros v a G. destruct (mapM_dget _ _ _ _ _ (sel_one_fst ids idx) H G) as (b & E & Gb). exists b. split; auto.
  unfold sel_one in E. cbn [fst snd] in E. fold (mine a idx) in E. destruct (mine a idx) as [|m ms] eqn:Em; [split; [intros _; congruence|congruence]|].
  split; [discriminate|]. intros _. destruct (sel_points _ _ _ _) as [b'|] eqn:Es; [|discriminate]. cbn [bind] in E. injection E as <-. split.
  - apply (sel_points_Ok _ _ _ _ _ Es).
  - intros W. eapply sel_points_answers; eauto. intros d f If. apply (Lf d f). rewrite <- Em in If. unfold mine in If. apply filter_In in If. apply If.
Qed.
Lemma sel_arrays_ok ids idx ds : (exists out, sel_arrays ids idx ds = Ok out) <->
  (forall d f, In (d, f) idx -> dataset_dim ds d) /\
  forall v a e d f, In (v, a) ds -> In (d, f) idx -> In d (dnames a) -> In e (envs ids env0) -> In (f e) (labels_of (dims a) d).
Proof.
  unfold sel_arrays. destruct (forallb _ idx) eqn:F.
  2:{ split; [intros [o H]; discriminate|]. intros [H _]. exfalso. assert (forallb (fun df => has_dim ds (fst df)) idx = true); [|congruence]. apply forallb_forall. intros [d f] I. apply has_dim_iff, (H d f I). }
  rewrite forallb_forall in F. change (mapM _ ds) with (mapM (sel_one ids idx) ds). split.
  - intros [out H]. split; [intros d f I; apply has_dim_iff, (F _ I)|]. intros v a e d f I If Id Ie. destruct (mapM_defined _ _ _ H _ I) as (r & _ & E). unfold sel_one in E. cbn [fst snd] in E.
    assert (In (d, f) (filter (fun df => memb (fst df) (dnames a)) idx)) as Im by (apply filter_In; split; auto; apply memb_In, Id).
    destruct (filter _ idx) as [|m ms]; [destruct Im|]. destruct (sel_points _ _ _ _) as [b'|] eqn:Es; [|discriminate]. apply sel_points_Ok in Es. destruct Es as [Es _]. apply (Es e d f Ie Im).
  - intros [_ H]. apply mapM_total. intros [v a] I. unfold sel_one. cbn [fst snd]. destruct (filter _ idx) as [|m ms] eqn:Em; [eauto|].
    unfold sel_points. assert (forallb (fun e => forallb (fun df => memb (snd df e) (labels_of (dims a) (fst df))) (m :: ms)) (envs ids env0) = true) as ->; [|cbn [bind]; eauto].
    apply forallb_forall. intros e Ie. apply forallb_forall. intros [d f] If. rewrite <- Em in If. apply filter_In in If. destruct If as [If Id]. apply memb_In in Id. cbn [fst snd] in *. apply memb_In. eapply H; eauto.
Qed.
Lemma sel_arrays_err ids idx ds e : sel_arrays ids idx ds = Err e -> e = KeyError.
Proof.
  unfold sel_arrays. destruct (forallb _ idx); [|intros [= <-]; auto]. change (mapM _ ds) with (mapM (sel_one ids idx) ds). induction ds as [|kv ds IH]; intros H; [discriminate|]. cbn [mapM] in H.
  destruct (sel_one ids idx kv) eqn:E.
  - cbn [bind] in H. destruct (mapM _ ds); [discriminate|]. cbn [bind] in H. apply IH. exact H.
  - cbn [bind] in H. injection H as <-. unfold sel_one in E. destruct (filter _ idx); [discriminate|]. unfold sel_points in E. destruct (forallb _ _); [discriminate|]. cbn [bind] in E. injection E as <-. reflexivity.
Qed.

(** The points of the box of init and lead times. *)
Lemma init_lead_ok inits leads : NoDup inits -> NoDup leads -> NoDup (map fst (init_lead inits leads)) /\ (forall d ls, In (d, ls) (init_lead inits leads) -> NoDup ls).
Proof.
  intros A B. split.
  - repeat constructor; cbn; intuition discriminate.
  - intros d ls [[= <- <-]|[[= <- <-]|[]]]; apply times_NoDup; auto.
Qed.
Lemma envs_init_lead inits leads e : NoDup inits -> NoDup leads -> In e (envs (init_lead inits leads) env0) ->
  exists t l, In t inits /\ In l leads /\ at_time e t l.
Proof.
  intros A B I. apply envs_spec in I; [|apply init_lead_ok; auto]. destruct I as [P _]. 
  assert (In (e "init_time") (times inits)) as I1 by (apply P; left; auto). assert (In (e "lead_time") (times leads)) as I2 by (apply P; right; left; auto).
  apply in_map_iff in I1, I2. destruct I1 as (t & E1 & I1), I2 as (l & E2 & I2). exists t, l. repeat split; auto.
Qed.
Lemma point_init_lead inits leads ds e : dget ds "init_time" = Some (times inits) -> dget ds "lead_time" = Some (times leads) -> point_of ds e ->
  exists t l, In t inits /\ In l leads /\ at_time e t l.
Proof.
  intros D1 D2 P. apply dget_In in D1, D2. apply P in D1, D2. apply in_map_iff in D1, D2. destruct D1 as (t & E1 & I1), D2 as (l & E2 & I2). exists t, l. repeat split; auto.
Qed.
Lemma envs_exists inits leads t l : NoDup inits -> NoDup leads -> In t inits -> In l leads -> exists e, In e (envs (init_lead inits leads) env0) /\ at_time e t l.
Proof.
  intros A B It Il. exists (upd (upd env0 "init_time" (LZ t)) "lead_time" (LZ l)). split; [|split; reflexivity]. apply envs_spec; [apply init_lead_ok; auto|]. split.
  - intros d ls [[= <- <-]|[[= <- <-]|[]]]; cbn; apply in_map; auto.
  - intros d Hd. cbn in Hd. unfold upd. destruct (string_dec d "lead_time") as [->|]; [exfalso; tauto|]. destruct (string_dec d "init_time") as [->|]; [exfalso; tauto|]. reflexivity.
Qed.
Lemma at_valid e t l : at_time e t l -> valid_time e = t + l.
Proof. intros [A B]. unfold valid_time. rewrite A, B. reflexivity. Qed.
Lemma valid_local inits leads e e' : (forall k, In k (map fst (init_lead inits leads)) -> e k = e' k) -> valid_time e = valid_time e'.
Proof. intros H. unfold valid_time. rewrite (H "init_time"), (H "lead_time"); cbn; auto. Qed.
