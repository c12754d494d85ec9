(** Proofs about the latency wrappers. *)
From Coq Require Import String ZArith List Bool Lia.
Import ListNotations.
From Verif Require Import Prelude Values Model_XArray Spec_XArray Proofs_XArray Model_MetricsBase Model_TimeChunks Model_Deterministic
  Model_Loaders Model_Latency Spec_Loaders Proofs_Loaders Proofs_Loaders2 Proofs_Beam9 Proofs_AggState.
Local Open Scope Z_scope.
Local Open Scope string_scope.
Local Open Scope list_scope.

(** ** The available run *)
Lemma nanargmax_spec l : forall i best,
  match nanargmax_from i best l with
  | None => best = None /\ forall x, ~ In (Some x) l
  | Some (j, x) =>
      ((best = Some (j, x)) \/ exists k, j = (i + k)%nat /\ nth_error l k = Some (Some x)) /\
      (forall y, In (Some y) l -> y <= x) /\ (forall m y, best = Some (m, y) -> y <= x)
  end.
Proof.
  induction l as [|o l IH]; intros i best; cbn [nanargmax_from].
  - destruct best as [[j x]|]; [|split; auto]. split; [left; auto|]. split; [intros y []|]. intros m y [= -> ->]. lia.
  - destruct o as [v|].
    + set (best' := match best with Some (_, y) => if Z.ltb y v then Some (i, v) else best | None => Some (i, v) end). specialize (IH (S i) best').
      assert (exists m y, best' = Some (m, y) /\ v <= y /\ (forall m0 y0, best = Some (m0, y0) -> y0 <= y) /\ (best' = Some (i, v) \/ best' = best)) as (m & y & Eb & Hv & Hb & Hor).
      { unfold best'. destruct best as [[m y]|].
        - destruct (Z.ltb_spec y v).
          + exists i, v. split; auto. split; [lia|]. split; [|auto]. intros m0 y0 [= -> ->]. lia.
          + exists m, y. split; auto. split; [lia|]. split; [|auto]. intros m0 y0 [= -> ->]. lia.
        - exists i, v. split; auto. split; [lia|]. split; [discriminate|auto]. }
      destruct (nanargmax_from (S i) best' l) as [[j x]|]; [|destruct IH; congruence]. destruct IH as (A & B & C). pose proof (C _ _ Eb) as Cy. split; [|split].
      * destruct A as [A|(k & Ej & Ek)].
        -- destruct Hor as [Ho|Ho]; [|left; congruence]. rewrite Ho in A. injection A as <- <-. right. exists 0%nat. split; [lia|reflexivity].
        -- right. exists (S k). split; [lia|exact Ek].
      * intros z [[= <-]|I]; [lia|auto].
      * intros m0 y0 E0. pose proof (Hb _ _ E0). lia.
    + specialize (IH (S i) best). destruct (nanargmax_from (S i) best l) as [[j x]|].
      * destruct IH as (A & B & C). split; [|split; auto].
        -- destruct A as [A|(k & Ej & Ek)]; [left; auto|]. right. exists (S k). split; [lia|exact Ek].
        -- intros y [E|I]; [discriminate|auto].
      * destruct IH as [A B]. split; auto. intros x [E|I]; [discriminate|]. apply (B x I).
Qed.
Lemma available_Ok nominal latency t n : get_available_init_time nominal latency t = Ok n <-> latest_issued nominal latency t n.
Proof.
  unfold get_available_init_time, nanargmax, latest_issued, issued. set (f := fun n => let diff := n + latency - t in if Z.leb diff 0 then Some diff else None).
  assert (forall x d, f x = Some d <-> x + latency <= t /\ d = x + latency - t) as F by (intros x d; unfold f; cbv zeta; destruct (Z.leb_spec (x + latency - t) 0); split; [intros [= <-]; lia|intros [_ ->]; reflexivity|discriminate|lia]).
  pose proof (nanargmax_spec (map f nominal) 0 None) as S. destruct (nanargmax_from 0 None (map f nominal)) as [[j x]|].
  - destruct S as ([E|(k & Ej & Ek)] & B & _); [discriminate|]. cbn [Nat.add] in Ej. subst j. rewrite nth_error_map in Ek. destruct (nth_error nominal k) as [m|] eqn:Em; [|discriminate]. cbn in Ek.
    injection Ek as Ek. apply F in Ek. destruct Ek as [Hm ->]. cbn [bind]. rewrite (nth_error_nth _ _ 0 Em). pose proof (nth_error_In _ _ Em) as Im.
    assert (forall y, In y nominal -> y + latency <= t -> y <= m) as Hmax. { intros y Iy Hy. assert (y + latency - t <= m + latency - t); [|lia]. apply B. apply in_map_iff. exists y. split; auto. apply F. split; auto. }
    split; [intros [= <-]; auto|]. intros (In' & Hn & Hx). f_equal. assert (m <= n) by (apply Hx; auto). assert (n <= m) by (apply Hmax; auto). lia.
  - destruct S as [_ B]. cbn [bind]. split; [discriminate|]. intros (In' & Hn & _). exfalso. apply (B (n + latency - t)). apply in_map_iff. exists n. split; auto. apply F. split; auto.
Qed.
Lemma available_Err nominal latency t e : get_available_init_time nominal latency t = Err e <-> e = ValueError /\ forall n, In n nominal -> ~ issued latency t n.
Proof.
  split.
  - intros H. split.
    + unfold get_available_init_time, nanargmax in H. destruct (nanargmax_from _ _ _) as [[j x]|]; cbn [bind] in H; congruence.
    + intros n I Hi. unfold get_available_init_time, nanargmax in H. pose proof (nanargmax_spec (map (fun n => let diff := n + latency - t in if Z.leb diff 0 then Some diff else None) nominal) 0 None) as S.
      destruct (nanargmax_from _ _ _) as [[j x]|]; [cbn [bind] in H; congruence|]. destruct S as [_ B]. apply (B (n + latency - t)). apply in_map_iff. exists n. split; auto. cbv zeta. unfold issued in Hi. destruct (Z.leb_spec (n + latency - t) 0); [reflexivity|lia].
  - intros [-> H]. destruct (get_available_init_time nominal latency t) as [n|e'] eqn:E.
    + apply available_Ok in E. destruct E as (I & Hi & _). exfalso. apply (H n I Hi).
    + unfold get_available_init_time, nanargmax in E. destruct (nanargmax_from _ _ _) as [[j x]|]; cbn [bind] in E; congruence.
Qed.

(** ** Shifting the time labels *)
Lemma shift_shift off z : shift_label (- off) (LZ (z + off)) = LZ z.
Proof. unfold shift_label. cbn [time_value]. f_equal. lia. Qed.
Lemma dget_shift d off (ds : dimlist) k : dget (map (fun p => if eqb (fst p) d then (d, map (shift_label off) (snd p)) else p) ds) k =
  if eq_dec k d then option_map (map (shift_label off)) (dget ds d) else dget ds k.
Proof.
  induction ds as [|[k0 l0] ds IH]; cbn [map fst snd dget]; [destruct (eq_dec k d); reflexivity|]. unfold eqb at 1. destruct (eq_dec k0 d) as [->|N0]; cbn [dget].
  - destruct (eq_dec k d) as [->|]; [destruct (eq_dec d d); [reflexivity|congruence]|]. rewrite IH. destruct (eq_dec k d); [congruence|reflexivity].
  - destruct (eq_dec k k0) as [->|]; [destruct (eq_dec k0 d); [congruence|reflexivity]|]. rewrite IH. destruct (eq_dec k d) as [->|]; [|reflexivity]. destruct (eq_dec d k0); [congruence|reflexivity].
Qed.
Lemma shift_names d off (ds : dimlist) : map fst (map (fun p => if eqb (fst p) d then (d, map (shift_label off) (snd p)) else p) ds) = map fst ds.
Proof. rewrite map_map. apply map_ext. intros [k l]. unfold eqb. cbn [fst]. destruct (eq_dec k d); [cbn; congruence|reflexivity]. Qed.
Lemma shift_coord_Ok d off zs a r : wf a -> NoDup zs -> dget (dims a) d = Some (map LZ zs) -> shift_coord d off a = Ok r ->
  wf r /\ dget (dims r) d = Some (map LZ (map (fun z => z + off) zs)) /\ (forall k, k <> d -> dget (dims r) k = dget (dims a) k) /\
  dnames r = dnames a /\ (forall e, get r e = get a (upd e d (shift_label (- off) (e d)))).
Proof.
  intros (A & B & C) N G. unfold shift_coord. rewrite G. intros [= <-].
  assert (map (shift_label off) (map LZ zs) = map LZ (map (fun z => z + off) zs)) as El by (rewrite !map_map; reflexivity).
  assert (dnames (mkDa (map (fun p => if eqb (fst p) d then (d, map (shift_label off) (snd p)) else p) (dims a)) (fun e => get a (upd e d (shift_label (- off) (e d))))
     (map (fun c => (fst c, mkCoord (c_dims (snd c)) (fun e => c_get (snd c) (upd e d (shift_label (- off) (e d)))))) (aux a))) = dnames a) as Nm by (unfold dnames; cbn [dims]; apply shift_names).
  split; [|split; [|split; [|split; [exact Nm|reflexivity]]]].
  - split; [rewrite Nm; exact A|]. cbn [dims get]. split.
    + intros k ls I. apply in_map_iff in I. destruct I as ([k0 l0] & E & I). cbn [fst snd] in E. unfold eqb in E. destruct (eq_dec k0 d) as [->|]; [|injection E as <- <-; apply (B _ _ I)].
      injection E as <- <-. assert (l0 = map LZ zs) as -> by (pose proof (In_dget _ _ _ A I); congruence). rewrite El. apply FinFun.Injective_map_NoDup; [intros x y [=]; auto|].
      apply FinFun.Injective_map_NoDup; auto. intros x y. lia.
    + intros e e' H. rewrite Nm in H. apply C. intros k Ik. unfold upd. destruct (string_dec k d) as [->|]; [rewrite (H d Ik); reflexivity|apply H, Ik].
  - cbn [dims]. rewrite dget_shift, G. destruct (eq_dec d d); [|congruence]. cbn [option_map]. rewrite El. reflexivity.
  - intros k Nk. cbn [dims]. rewrite dget_shift. destruct (eq_dec k d); [congruence|reflexivity].
Qed.

(** A raw array for the run [n] and adjusted lead times, relabelled for the query [t]. *)
Definition raw_point (t n : Z) (e e' : env) : Prop :=
  e' "init_time" = shift_label (n - t) (e "init_time") /\ e' "lead_time" = shift_label (t - n) (e "lead_time") /\ same_except ["init_time"; "lead_time"] e e'.
Lemma adjust_Ok t n leads a r : wf a -> NoDup leads -> dget (dims a) "init_time" = Some [LZ n] ->
  dget (dims a) "lead_time" = Some (map LZ (map (fun x => x + (t - n)) leads)) -> adjust_init_and_lead_times (t - n) a = Ok r ->
  wf r /\ dget (dims r) "init_time" = Some [LZ t] /\ dget (dims r) "lead_time" = Some (map LZ leads) /\
  (forall k, k <> "init_time" -> k <> "lead_time" -> dget (dims r) k = dget (dims a) k) /\ dnames r = dnames a /\
  (forall e e', raw_point t n e e' -> get r e = get a e').
Proof.
  intros W N Gi Gl H. unfold adjust_init_and_lead_times in H. destruct (shift_coord "init_time" (t - n) a) as [x|] eqn:E; [|discriminate]. cbn [bind] in H.
  assert (NoDup [n]) as N1 by (repeat constructor; intros []). assert (NoDup (map (fun x => x + (t - n)) leads)) as N2 by (apply FinFun.Injective_map_NoDup; auto; intros u v; lia).
  destruct (shift_coord_Ok "init_time" (t - n) [n] a x W N1 Gi E) as (Wx & Dx & Kx & Nx & Vx).
  rewrite <- (Kx "lead_time") in Gl by discriminate. destruct (shift_coord_Ok "lead_time" (- (t - n)) _ x r Wx N2 Gl H) as (Wr & Dr & Kr & Nr & Vr).
  split; auto. split; [rewrite Kr by discriminate; rewrite Dx; cbn [map]; do 3 f_equal; lia|]. split.
  - rewrite Dr. assert (map (fun z => z + - (t - n)) (map (fun x => x + (t - n)) leads) = leads) as ->; [|reflexivity]. rewrite map_map, (map_ext _ (fun z => z)); [apply map_id|]. intros z. lia.
  - split; [intros k K1 K2; rewrite Kr, Kx; auto|]. split; [congruence|]. intros e e' (P1 & P2 & P3). rewrite Vr, Vx. destruct W as (_ & _ & L). apply L. intros k _. unfold upd.
    destruct (string_dec k "init_time") as [->|]; [|destruct (string_dec k "lead_time") as [->|]].
    + rewrite P1. destruct (string_dec "init_time" "lead_time"); [discriminate|]. f_equal. lia.
    + rewrite P2. f_equal. lia.
    + symmetry. apply P3. cbn. intuition congruence.
Qed.

(** ** Concatenation along the init times *)
Lemma union_same l : union_labels l l = l.
Proof.
  unfold union_labels. replace (filter (fun x => negb (memb x l)) l) with (@nil label); [apply app_nil_r|].
  assert (forall m, incl m l -> filter (fun x => negb (memb x l)) m = []) as Q. { induction m as [|x m IH]; intros H; [reflexivity|]. cbn [filter]. rewrite (proj2 (memb_In x l)) by (apply H; left; auto). cbn [negb]. apply IH. intros y Iy. apply H. right. auto. }
  symmetry. apply Q, incl_refl.
Qed.
Lemma dget_joint_same k o : forall dss acc, (forall ds, In ds dss -> dget ds k = o) -> (dget acc k = o \/ dget acc k = None /\ dss <> []) -> dget (joint dss acc) k = o.
Proof.
  induction dss as [|ds dss IH]; intros acc H Ha; [destruct Ha as [Ha|[_ Ha]]; [exact Ha|congruence]|]. unfold joint in *. cbn [fold_left]. apply IH; [intros; apply H; right; auto|].
  left. rewrite dget_merge. rewrite (H ds (or_introl eq_refl)). destruct Ha as [->|[-> _]]; [|reflexivity]. destruct o as [l|]; [|reflexivity]. rewrite union_same. reflexivity.
Qed.
Lemma dget_replace d ls (J : dimlist) k : dget (map (fun p => if eqb (fst p) d then (d, ls) else p) J) k =
  if eq_dec k d then match dget J d with Some _ => Some ls | None => None end else dget J k.
Proof.
  induction J as [|[k0 l0] J IH]; cbn [map fst snd dget]; [destruct (eq_dec k d); reflexivity|]. unfold eqb at 1. destruct (eq_dec k0 d) as [->|N0]; cbn [dget].
  - destruct (eq_dec k d) as [->|]; [destruct (eq_dec d d); [reflexivity|congruence]|]. rewrite IH. destruct (eq_dec k d); [congruence|reflexivity].
  - destruct (eq_dec k k0) as [->|]; [destruct (eq_dec k0 d); [congruence|reflexivity]|]. rewrite IH. destruct (eq_dec k d) as [->|]; [|reflexivity]. destruct (eq_dec d k0); [congruence|reflexivity].
Qed.
Lemma replace_names d ls (J : dimlist) : map fst (map (fun p => if eqb (fst p) d then (d, ls) else p) J) = map fst J.
Proof. rewrite map_map. apply map_ext. intros [k l]. unfold eqb. cbn [fst]. destruct (eq_dec k d); [cbn; congruence|reflexivity]. Qed.

Lemma concat_Ok d arrs b : concat d arrs = Ok b -> (forall a, In a arrs -> wf a) -> NoDup (flat_map (fun a => labels_of (dims a) d) arrs) ->
  wf b /\ dget (dims b) d = Some (flat_map (fun a => labels_of (dims a) d) arrs) /\
  (forall k o, k <> d -> (forall a, In a arrs -> dget (dims a) k = o) -> dget (dims b) k = o) /\
  (forall k l, k <> d -> (In l (labels_of (dims b) k) <-> exists a, In a arrs /\ In l (labels_of (dims a) k))) /\
  (forall e, get b e = match piece_at d arrs e with Some a => if in_box (dims a) e then get a e else NaN | None => NaN end).
Proof.
  unfold concat. destruct arrs as [|first rest] eqn:Earr; [discriminate|]. rewrite <- Earr. destruct (forallb (fun a => memb d (dnames a)) arrs) eqn:F; [|discriminate].
  destruct (mapM _ (aux first)) as [cs|]; [|discriminate]. cbn [bind]. intros H W N. injection H as <-. rewrite forallb_forall in F. assert (In first arrs) as If0 by (rewrite Earr; left; reflexivity). assert (arrs <> []) as Ne by (rewrite Earr; discriminate). clear Earr.
  change (fold_left (merge_dims union_labels) (map dims arrs) []) with (joint (map dims arrs) []). set (J := joint (map dims arrs) []).
  assert (NoDup (map fst J)) as NJ. { apply NoDup_joint; [constructor|]. intros ds I. apply in_map_iff in I. destruct I as (a & <- & I). apply (W a I). }
  assert (forall k, In k (map fst J) <-> exists a, In a arrs /\ In k (dnames a)) as KJ.
  { intros k. unfold J. rewrite names_joint. split; [intros [[]|(ds & I & Ik)]; apply in_map_iff in I; destruct I as (a & <- & I); eauto|intros (a & I & Ik); right; exists (dims a); split; [apply in_map, I|exact Ik]]. }
  assert (exists x, dget J d = Some x) as [x Ex]. { apply keys_dget. apply KJ. exists first. split; [exact If0|]. apply memb_In, F, If0. }
  split; [|split; [|split; [|split]]].
  - split; [unfold dnames; cbn [dims]; rewrite replace_names; exact NJ|]. split.
    + cbn [dims]. intros k ls I. apply in_map_iff in I. destruct I as ([k0 l0] & E & I). cbn [fst] in E. unfold eqb in E. destruct (eq_dec k0 d) as [->|]; injection E as <- <-; [exact N|].
      pose proof (NoDup_labels_joint (map dims arrs) []) as Q. specialize (Q (fun _ => NoDup_nil _)). assert (NoDup (labels_of J k0)) as Q'. { apply Q. intros ds dd Ids. apply in_map_iff in Ids. destruct Ids as (a & <- & Ia). apply wf_labels_NoDup, W, Ia. }
      unfold labels_of in Q'. rewrite (In_dget _ _ _ NJ I) in Q'. exact Q'.
    + unfold dnames. cbn [dims get]. rewrite replace_names. intros e e' He.
      assert (piece_at d arrs e = piece_at d arrs e') as Ep by (unfold piece_at; rewrite (He d); [reflexivity|apply (dget_Some_keys _ _ Ex)]). rewrite Ep.
      destruct (piece_at d arrs e') as [a|] eqn:Ea; [|reflexivity]. apply find_some in Ea. destruct Ea as [Ia _].
      assert (forall k, In k (dnames a) -> e k = e' k) as Hk by (intros k Ik; apply He, KJ; eauto). rewrite (in_box_local (dims a) e e' Hk). destruct (in_box (dims a) e'); auto. apply (W a Ia); auto.
  - cbn [dims]. rewrite dget_replace. destruct (eq_dec d d); [|congruence]. rewrite Ex. reflexivity.
  - intros k o Nk Ho. cbn [dims]. rewrite dget_replace. destruct (eq_dec k d); [congruence|]. apply dget_joint_same; [intros ds I; apply in_map_iff in I; destruct I as (a & <- & I); auto|]. right. split; [reflexivity|]. destruct arrs; [congruence|discriminate].
  - intros k l Nk. unfold labels_of at 1. cbn [dims]. rewrite dget_replace. destruct (eq_dec k d); [congruence|]. fold (labels_of J k). unfold J. rewrite labels_joint. split.
    + intros [[]|(ds & I & Il)]. apply in_map_iff in I. destruct I as (a & <- & I). eauto.
    + intros (a & I & Il). right. exists (dims a). split; [apply in_map, I|exact Il].
  - reflexivity.
Qed.

Lemma concat_chunks_parts d chunks out : concat_chunks d chunks = Ok out ->
  exists first rest, chunks = first :: rest /\ keys out = keys first /\
  forall v a, dget first v = Some a -> exists arrs b, Forall2 (fun c r => dget c v = Some r) chunks arrs /\ concat d arrs = Ok b /\ dget out v = Some b.
Proof.
  unfold concat_chunks. destruct chunks as [|first rest]; [discriminate|]. intros H. exists first, rest. split; auto.
  assert (forall kv r : string * da, (do others <- mapM (fun c => dgetE c (fst kv)) rest; do a <- concat d (snd kv :: others); Ok (fst kv, a)) = Ok r -> fst r = fst kv) as K.
  { intros kv r Hr. destruct (mapM (fun c => dgetE c (fst kv)) rest) as [os|]; [|discriminate]. cbn [bind] in Hr. destruct (concat d (snd kv :: os)) as [r'|]; [|discriminate]. cbn [bind] in Hr. injection Hr as <-. reflexivity. }
  split; [apply (mapM_keys _ _ _ K H)|]. intros v a G. destruct (mapM_dget _ _ _ _ _ K H G) as (b & E & Gb). cbn [fst snd] in E.
  destruct (mapM (fun c => dgetE c v) rest) as [others|] eqn:Eo; [|discriminate]. cbn [bind] in E. destruct (concat d (a :: others)) as [b'|] eqn:Ec; [|discriminate]. cbn [bind] in E. injection E as ->.
  exists (a :: others), b. split; [|auto]. constructor; auto. apply mapM_Ok_Forall2 in Eo. clear - Eo. induction Eo as [|c r cs rs Hc _ IH]; constructor; auto. unfold dgetE in Hc. destruct (dget c v); congruence.
Qed.

(** One array per query. *)
Lemma piece_query (P : Z -> da -> Prop) inits arrs : Forall2 (fun t r => dget (dims r) "init_time" = Some [LZ t] /\ P t r) inits arrs ->
  forall (e : env) t, e "init_time" = LZ t -> In t inits -> exists r : da, piece_at "init_time" arrs e = Some r /\ dget (dims r) "init_time" = Some [LZ t] /\ P t r.
Proof.
  intros F e t Et. induction F as [|t0 r0 ts rs (D0 & P0) F IH]; intros I; [destruct I|]. unfold piece_at. cbn [find]. unfold labels_of at 1. rewrite D0, Et. destruct (memb (LZ t) [LZ t0]) eqn:M.
  - apply memb_In in M. destruct M as [[= ->]|[]]. exists r0. auto.
  - apply memb_false in M. destruct I as [->|I]; [exfalso; apply M; left; auto|]. destruct (IH I) as (r & Er & Hr). exists r. split; auto. unfold piece_at in Er. rewrite Et in Er. exact Er.
Qed.
Lemma flat_labels inits arrs : Forall2 (fun t r => dget (dims r) "init_time" = Some [LZ t]) inits arrs -> flat_map (fun a => labels_of (dims a) "init_time") arrs = map LZ inits.
Proof. induction 1 as [|t r ts rs D F IH]; [reflexivity|]. cbn [flat_map map]. rewrite IH. unfold labels_of. rewrite D. reflexivity. Qed.
Lemma Forall2_trans_in {A B C} (R : A -> B -> Prop) (S : B -> C -> Prop) (T : A -> C -> Prop) l m n :
  (forall a b c, R a b -> S b c -> T a c) -> Forall2 R l m -> Forall2 S m n -> Forall2 T l n.
Proof. intros H F. revert n. induction F as [|a b l m Rab F IH]; intros n G; inversion G; subst; constructor; eauto. Qed.

Lemma Forall2_add_in {A B} (R : A -> B -> Prop) l m : Forall2 R l m -> Forall2 (fun a b => R a b /\ In b m) l m.
Proof.
  intros F. assert (forall big, incl m big -> Forall2 (fun a b => R a b /\ In b big) l m) as Q; [|apply Q, incl_refl]. intros big. induction F as [|a b l m H F IH]; intros Hi; constructor.
  - split; auto. apply Hi. left. auto.
  - apply IH. intros x Ix. apply Hi. right. auto.
Qed.
(** The chunks, one per query, put together. *)
Lemma concat_queries (P : Z -> vars da -> Prop) inits chunks out : NoDup inits ->
  Forall2 (fun t c => P t c /\ forall v r, dget c v = Some r -> wf r /\ dget (dims r) "init_time" = Some [LZ t]) inits chunks ->
  concat_chunks "init_time" chunks = Ok out ->
  exists first, hd_error chunks = Some first /\ keys out = keys first /\
  forall v b, dget out v = Some b ->
    wf b /\ dget (dims b) "init_time" = Some (map LZ inits) /\
    (forall k o, k <> "init_time" -> (forall c r, In c chunks -> dget c v = Some r -> dget (dims r) k = o) -> dget (dims b) k = o) /\
    (forall k l, k <> "init_time" -> In l (labels_of (dims b) k) -> exists c r, In c chunks /\ dget c v = Some r /\ In l (labels_of (dims r) k)) /\
    (forall t, In t inits -> exists c r, In c chunks /\ P t c /\ dget c v = Some r /\ wf r /\ dget (dims r) "init_time" = Some [LZ t] /\
       forall e, e "init_time" = LZ t -> (point_of (dims r) e -> get b e = get r e) /\ (~ point_of (dims r) e -> get b e = NaN)).
Proof.
  intros N F H. destruct (concat_chunks_parts _ _ _ H) as (first & rest & -> & K & V). exists first. split; [reflexivity|]. split; auto. intros v b Gb.
  assert (exists a, dget first v = Some a) as [a Ga] by (apply keys_dget; rewrite <- K; apply (dget_Some_keys _ _ Gb)). destruct (V v a Ga) as (arrs & b' & Fa & Ec & Gb'). assert (b' = b) as -> by congruence.
  set (chunks := first :: rest) in *.
  assert (Forall2 (fun t r => dget (dims r) "init_time" = Some [LZ t] /\ (wf r /\ exists c, In c chunks /\ P t c /\ dget c v = Some r)) inits arrs) as Fq.
  { assert (Forall2 (fun t c => (P t c /\ forall v r, dget c v = Some r -> wf r /\ dget (dims r) "init_time" = Some [LZ t]) /\ In c chunks) inits chunks) as F'.
    { apply Forall2_add_in, F. }
    refine (Forall2_trans_in _ _ _ _ _ _ _ F' Fa). intros t c r ((Pc & Hc) & Ic) G. destruct (Hc v r G) as [W D]. split; auto. split; auto. exists c. auto. }
  assert (forall r, In r arrs -> wf r /\ exists c, In c chunks /\ dget c v = Some r) as Har.
  { intros r Ir. destruct (Forall2_flip_in _ _ _ Fq _ Ir) as (t & _ & (_ & W & c & Ic & _ & G)). eauto. }
  assert (Forall2 (fun t r => dget (dims r) "init_time" = Some [LZ t]) inits arrs) as Fd by (clear - Fq; induction Fq; constructor; tauto).
  destruct (concat_Ok _ _ _ Ec) as (W & D & Kk & Kl & Vl); [intros r Ir; apply (Har r Ir)|rewrite (flat_labels _ _ Fd); apply (times_NoDup _ N)|].
  split; auto. split; [rewrite D, (flat_labels _ _ Fd); reflexivity|]. split; [|split].
  - intros k o Nk Ho. apply Kk; auto. intros r Ir. destruct (Har r Ir) as (_ & c & Ic & G). eauto.
  - intros k l Nk Il. apply Kl in Il; auto. destruct Il as (r & Ir & Il). destruct (Har r Ir) as (_ & c & Ic & G). eauto.
  - intros t It. destruct (piece_query _ _ _ Fq (upd env0 "init_time" (LZ t)) t eq_refl It) as (r & Ep & Dr & Wr & c & Ic & Pc & Gc).
    exists c, r. split; auto. split; auto. split; auto. split; auto. split; auto. intros e Ee. rewrite Vl. assert (piece_at "init_time" arrs e = Some r) as -> by (unfold piece_at in *; rewrite Ee; exact Ep).
    split; intros Hp; [rewrite (proj2 (in_box_iff _ _) Hp); reflexivity|]. destruct (in_box (dims r) e) eqn:Eb; [|reflexivity]. apply in_box_iff in Eb. contradiction.
Qed.
