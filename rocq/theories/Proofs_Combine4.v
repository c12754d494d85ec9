(** Merging result files (C70). *)
From Coq Require Import String Ascii ZArith List Bool Reals FunctionalExtensionality.
Import ListNotations.
From Verif Require Import Prelude Values Model_XArray Spec_XArray Proofs_XArray Model_MetricsBase Model_Aggregation Model_Categorical
  Model_Prepare Proofs_RoundTrip Proofs_Deterministic Proofs_AggState Model_Combine Spec_Combine Proofs_Combine Proofs_Combine2 Proofs_Combine3.
Local Open Scope string_scope.
Local Open Scope list_scope.

(** ** expand_dims *)
Definition expanded (M r y : string) (a : da) : da :=
  mkDa (("model", [LS M]) :: ("resolution", [LS r]) :: ("year", [LS y]) :: dims a) (get a) (aux a).
Lemma expand_realizes M r y D C :
  (forall w b, dget D w = Some b -> ~ In "model" (dnames b) /\ ~ In "resolution" (dnames b) /\ ~ In "year" (dnames b)) -> realizes D C ->
  expand M r y D = Ok (map (fun kv => (fst kv, expanded M r y (snd kv))) D) /\
  realizes (map (fun kv => (fst kv, expanded M r y (snd kv))) D) (fun w e x => e "model" = LS M /\ e "resolution" = LS r /\ e "year" = LS y /\ C w e x).
Proof.
  intros H (N & W & A & B). split.
  - unfold expand. replace (existsb _ D) with false; [reflexivity|]. symmetry. apply not_true_iff_false. intros E. apply existsb_exists in E. destruct E as ([w b] & I & E). cbn [fst snd] in E.
    apply (In_dget _ _ _ N) in I. destruct (H w b I) as (H1 & H2 & H3). apply existsb_exists in E. destruct E as (d & Id & E). apply memb_In in E. destruct Id as [<-|[<-|[<-|[]]]]; contradiction.
  - pose proof (dget_map_some (expanded M r y) D) as G. split; [rewrite keys_map_val; exact N|]. split; [|split].
    + intros w b' Hb. apply G in Hb. destruct Hb as (b & Hb & ->). destruct (W _ _ Hb) as [(W1 & W2 & W3) X]. destruct (H _ _ Hb) as (H1 & H2 & H3). split; [|exact X]. split; [|split].
      * change (NoDup ("model" :: "resolution" :: "year" :: dnames b)). repeat constructor; auto; cbn [In]; intros K; repeat (destruct K as [K|K]; [discriminate|]); auto.
      * intros d ls [[= <- <-]|[[= <- <-]|[[= <- <-]|I]]]; try (repeat constructor; intros []; fail). eapply W2; eauto.
      * intros e e' He. cbn [expanded get]. apply W3. intros d Id. apply He. right. right. right. exact Id.
    + intros w e x (E1 & E2 & E3 & Hc). destruct (A _ _ _ Hc) as (b & Hb & P & E). exists (expanded M r y b). split; [apply G; eauto|]. split; [|exact E].
      intros d ls [[= <- <-]|[[= <- <-]|[[= <- <-]|I]]]; try (left; congruence). apply (P d ls I).
    + intros w b' e Hb P. apply G in Hb. destruct Hb as (b & Hb & ->). destruct (B w b e Hb) as [E|E]; [intros d ls I; apply (P d ls); right; right; right; exact I|left; exact E|right].
      assert (forall d l, In (d, [l]) (dims (expanded M r y b)) -> e d = l) as K by (intros d l I; destruct (P d [l] I) as [<-|[]]; reflexivity).
      split; [apply K; left; reflexivity|]. split; [apply K; right; left; reflexivity|]. split; [apply K; right; right; left; reflexivity|exact E].
Qed.

(** ** xr.merge *)
Lemma union_same l : union_labels l l = l.
Proof.
  unfold union_labels. replace (filter _ l) with (@nil label); [apply app_nil_r|]. symmetry.
  assert (forall l', (forall x, In x l' -> In x l) -> filter (fun x => negb (memb x l)) l' = []) as H; [|apply H; auto].
  induction l' as [|x l' IH]; intros H; [reflexivity|]. cbn [filter]. assert (memb x l = true) as -> by (apply memb_In, H; left; reflexivity). cbn [negb]. apply IH. intros z I. apply H. right. exact I.
Qed.
Lemma fillna_labels J a b : same_dims a b -> forall d, In d (dnames a) -> labels_of (dims (fillna (reindexed J a) (reindexed J b))) d = labels_of J d.
Proof.
  intros S d I. unfold fillna. cbn [dims]. unfold labels_of at 1. rewrite dget_merge.
  assert (forall c, In d (dnames c) -> dget (dims (reindexed J c)) d = Some (labels_of J d)) as K.
  { intros c Ic. unfold reindexed. cbn [dims]. rewrite (dget_map_snd (fun n _ => labels_of J n)). unfold dnames in Ic. apply names_dget in Ic. destruct (dget (dims c) d); congruence. }
  rewrite (K a I), (K b (proj1 (S d) I)). apply union_same.
Qed.
Lemma fillna_dnames J a b : forall d, In d (dnames (fillna (reindexed J a) (reindexed J b))) <-> In d (dnames a) \/ In d (dnames b).
Proof.
  intros d. unfold fillna, dnames at 1. cbn [dims]. rewrite merge_names, in_app_iff, filter_In.
  change (map fst (dims (reindexed J a))) with (dnames (reindexed J a)). change (map fst (dims (reindexed J b))) with (dnames (reindexed J b)). rewrite !reindexed_dnames.
  split; [tauto|]. intros [H|H]; [tauto|]. destruct (in_dec string_dec d (dnames a)); [tauto|]. right. split; auto. apply negb_true_iff, memb_false. exact n.
Qed.
Lemma fillna_wf J a b : wf a -> wf b -> same_dims a b -> (forall d, NoDup (labels_of J d)) -> wf (fillna (reindexed J a) (reindexed J b)).
Proof.
  intros Wa Wb S NJ. pose proof (reindexed_wf J a Wa NJ) as Ra. pose proof (reindexed_wf J b Wb NJ) as Rb.
  assert (NoDup (dnames (fillna (reindexed J a) (reindexed J b)))) as N by (apply NoDup_merge; [apply Ra|apply Rb]).
  split; [exact N|]. split.
  - intros d ls I. assert (labels_of (dims (fillna (reindexed J a) (reindexed J b))) d = ls) as E by (unfold labels_of; rewrite (In_dget _ _ _ N I); reflexivity).
    assert (In d (dnames a)) as Ia. { assert (In d (dnames (fillna (reindexed J a) (reindexed J b)))) as Id by (apply in_map_iff; exists (d, ls); auto). apply fillna_dnames in Id. destruct Id as [Id|Id]; [exact Id|]. apply S, Id. }
    rewrite (fillna_labels J a b S d Ia) in E. rewrite <- E. apply NJ.
  - intros e e' H. assert (get (reindexed J a) e = get (reindexed J a) e') as E1 by (apply Ra; intros d I; apply H, fillna_dnames; left; rewrite reindexed_dnames in I; exact I).
    assert (get (reindexed J b) e = get (reindexed J b) e') as E2 by (apply Rb; intros d I; apply H, fillna_dnames; right; rewrite reindexed_dnames in I; exact I).
    unfold fillna. cbn [get]. now rewrite E1, E2.
Qed.
Lemma dget_app' {V} (l1 l2 : list (string * V)) k : dget (l1 ++ l2) k = match dget l1 k with Some x => Some x | None => dget l2 k end.
Proof. induction l1 as [|[k0 v0] l1 IH]; [reflexivity|]. cbn [app dget]. destruct (eq_dec k k0); auto. Qed.
Lemma dget_filter_out {V} (l : list (string * V)) (ks : list string) k : ~ In k ks -> dget (filter (fun kv => negb (memb (fst kv) ks)) l) k = dget l k.
Proof.
  intros H. induction l as [|[k0 v0] l IH]; [reflexivity|]. cbn [filter fst dget]. destruct (eq_dec k k0) as [->|E].
  - replace (memb k0 ks) with false by (symmetry; apply memb_false, H). cbn [negb dget]. destruct (eq_dec k0 k0); congruence.
  - destruct (negb (memb k0 ks)); [cbn [dget]; destruct (eq_dec k k0); [congruence|exact IH]|exact IH].
Qed.
Lemma dget_map_key {V W} (F : string -> V -> W) (l : list (string * V)) k : dget (map (fun kv => (fst kv, F (fst kv) (snd kv))) l) k = match dget l k with Some v => Some (F k v) | None => None end.
Proof. induction l as [|[k0 v0] l IH]; [reflexivity|]. cbn [map fst snd dget]. destruct (eq_dec k k0) as [->|]; auto. Qed.

Lemma merge_realizes X Y CX CY : realizes X CX -> realizes Y CY ->
  (forall w a b, dget X w = Some a -> dget Y w = Some b -> same_dims a b) ->
  (forall w e x y, CX w e x -> CY w e y -> False) ->
  exists Z, merge X Y = Ok Z /\ realizes Z (fun w e x => CX w e x \/ CY w e x) /\
    (forall w, In w (keys Z) <-> In w (keys X) \/ In w (keys Y)) /\
    (forall w z d, dget Z w = Some z -> In d (dnames z) <-> (exists a, dget X w = Some a /\ In d (dnames a)) \/ (exists b, dget Y w = Some b /\ In d (dnames b))) /\
    (forall w z d l, dget Z w = Some z -> In l (labels_of (dims z) d) -> exists w' c, (dget X w' = Some c \/ dget Y w' = Some c) /\ In l (labels_of (dims c) d)) /\
    (forall w w' z z' d, dget Z w = Some z -> dget Z w' = Some z' -> In d (dnames z) -> In d (dnames z') -> labels_of (dims z) d = labels_of (dims z') d).
Proof.
  intros (NX & WX & AX & BX) (NY & WY & AY & BY) S Dj. set (J := fold_left (merge_dims union_labels) (map dims (map snd (X ++ Y))) []).
  set (F := fun w a => match dget Y w with None => reindexed J a | Some b => fillna (reindexed J a) (reindexed J b) end).
  set (Z := map (fun kv => (fst kv, F (fst kv) (snd kv))) X ++ map (fun kv => (fst kv, reindexed J (snd kv))) (filter (fun kv => negb (memb (fst kv) (keys X))) Y)).
  assert (forall w c, dget X w = Some c \/ dget Y w = Some c -> wf c) as Wc by (intros w c [H|H]; [apply (WX _ _ H)|apply (WY _ _ H)]).
  assert (forall c, In c (map snd (X ++ Y)) <-> exists w, dget X w = Some c \/ dget Y w = Some c) as Iall.
  { intros c. rewrite in_map_iff. split.
    - intros ([w c'] & <- & I). apply in_app_iff in I. exists w. cbn [snd]. destruct I as [I|I]; [left|right]; now apply In_dget.
    - intros (w & H). exists (w, c). split; [reflexivity|]. apply in_app_iff. destruct H as [H|H]; [left|right]; apply dget_In, H. }
  assert (forall d, NoDup (labels_of J d)) as NJ by (apply joint_NoDup; intros c I; apply Iall in I; destruct I as (w & H); eapply Wc; eauto).
  assert (forall d l, In l (labels_of J d) <-> exists w c, (dget X w = Some c \/ dget Y w = Some c) /\ In l (labels_of (dims c) d)) as LJ.
  { intros d l. unfold J. rewrite joint_labels. split.
    - intros (c & I & Il). apply Iall in I. destruct I as (w & H). eauto.
    - intros (w & c & H & Il). exists c. split; [apply Iall; eauto|exact Il]. }
  assert (forall w c e, dget X w = Some c \/ dget Y w = Some c -> point_of (dims c) e -> forall d, In d (dnames c) -> In (e d) (labels_of J d)) as PJ.
  { intros w c e H P d I. apply LJ. exists w, c. split; [exact H|]. rewrite point_of_labels in P by apply (Wc w c H). apply P, I. }
  assert (forall c e, get (reindexed J c) e = if in_box (dims c) e then get c e else NaN) as GJ by reflexivity.
  assert (forall w a b e, dget X w = Some a -> dget Y w = Some b -> get (reindexed J a) e = NaN \/ get (reindexed J b) e = NaN) as Dis.
  { intros w a b e Ha Hb. rewrite !GJ. destruct (in_box (dims a) e) eqn:Ea; [|left; reflexivity]. destruct (in_box (dims b) e) eqn:Eb; [|right; reflexivity]. apply in_box_iff in Ea, Eb.
    destruct (BX _ _ _ Ha Ea) as [E|E]; [left; exact E|]. destruct (BY _ _ _ Hb Eb) as [E'|E']; [right; exact E'|]. exfalso. eapply Dj; eauto. }
  assert (merge X Y = Ok Z) as EZ.
  { unfold merge. fold J. rewrite (mapM_ext _ (fun kv => Ok (fst kv, F (fst kv) (snd kv)))).
    - rewrite mapM_pure. reflexivity.
    - intros [w a] I. cbn [fst snd]. unfold F. destruct (dget Y w) as [b|] eqn:Eb; [|reflexivity].
      replace (compatible (reindexed J a) (reindexed J b)) with true; [reflexivity|]. symmetry. unfold compatible. apply forallb_forall. intros e _.
      destruct (Dis w a b e) as [E|E]; auto; [apply In_dget; auto|rewrite E; reflexivity|rewrite E, orb_true_r; reflexivity]. }
  assert (forall w, dget Z w = match dget X w with Some a => Some (F w a) | None => match dget Y w with Some b => Some (reindexed J b) | None => None end end) as GZ.
  { intros w. unfold Z. rewrite dget_app', dget_map_key. destruct (dget X w) as [a|] eqn:Ea; [reflexivity|]. rewrite (dget_map_key (fun _ => reindexed J)). rewrite dget_filter_out; [reflexivity|]. apply dget_None, Ea. }
  (* the entries of the result *)
  assert (forall w z, dget Z w = Some z -> exists c, (dget X w = Some c \/ dget Y w = Some c) /\ (forall d, In d (dnames z) <-> In d (dnames c)) /\ (forall d, In d (dnames z) -> labels_of (dims z) d = labels_of J d) /\ wf z /\ aux z = [] /\
     (forall d, In d (dnames z) <-> (exists a, dget X w = Some a /\ In d (dnames a)) \/ (exists b, dget Y w = Some b /\ In d (dnames b)))) as HZ.
  { intros w z Hz. rewrite GZ in Hz. destruct (dget X w) as [a|] eqn:Ea.
    - injection Hz as <-. unfold F. destruct (dget Y w) as [b|] eqn:Eb.
      + pose proof (S w a b Ea Eb) as Sab. assert (forall d, In d (dnames (fillna (reindexed J a) (reindexed J b))) <-> In d (dnames a)) as Hd by (intros d; rewrite fillna_dnames; pose proof (Sab d); tauto).
        exists a. split; [left; reflexivity|]. split; [exact Hd|]. split; [intros d I; apply fillna_labels; [exact Sab|apply Hd, I]|]. split; [apply fillna_wf; auto; [apply (WX _ _ Ea)|apply (WY _ _ Eb)]|]. split; [reflexivity|].
        intros d. rewrite fillna_dnames. split; (intros [H|H]; [left|right]); try (eexists; split; [reflexivity|exact H]); destruct H as (c & [= <-] & H); exact H.
      + exists a. rewrite reindexed_dnames. split; [left; reflexivity|]. split; [reflexivity|]. split; [intros d I; apply reindexed_labels, I|]. split; [apply reindexed_wf; auto; apply (WX _ _ Ea)|]. split; [reflexivity|].
        intros d. split; [intros H; left; eauto|]. intros [(c & [= <-] & H)|(c & [=] & _)]. exact H.
    - destruct (dget Y w) as [b|] eqn:Eb; [|discriminate]. injection Hz as <-. exists b. rewrite reindexed_dnames. split; [right; reflexivity|]. split; [reflexivity|]. split; [intros d I; apply reindexed_labels, I|]. split; [apply reindexed_wf; auto; apply (WY _ _ Eb)|]. split; [reflexivity|].
      intros d. split; [intros H; right; eauto|]. intros [(c & [=] & _)|(c & [= <-] & H)]. exact H. }
  assert (keys Z = keys X ++ filter (fun w => negb (memb w (keys X))) (keys Y)) as KZ.
  { unfold Z, keys. rewrite map_app, !map_map. cbn [fst]. f_equal. generalize (map fst X). intros ks. clear. induction Y as [|[k v] Y IH]; [reflexivity|]. cbn [filter map fst]. destruct (negb (memb k ks)); cbn [map fst]; now rewrite IH. }
  exists Z. split; [exact EZ|]. split; [|split; [|split; [|split]]].
  - split; [|split; [|split]].
    + rewrite KZ. apply NoDup_app_intro; auto; [apply NoDup_filter, NY|]. intros w I1 I2. apply filter_In in I2. destruct I2 as [_ I2]. apply negb_true_iff, memb_false in I2. contradiction.
    + intros w z Hz. destruct (HZ w z Hz) as (c & _ & _ & _ & W & X0 & _). auto.
    + intros w e x [Hc|Hc].
      * destruct (AX _ _ _ Hc) as (a & Ha & P & E). exists (F w a). assert (dget Z w = Some (F w a)) as Gw by (rewrite GZ, Ha; reflexivity). split; [exact Gw|]. split.
        -- destruct (HZ w _ Gw) as (c & Hcc & Hd & HL & Wz & _ & Hd2). rewrite point_of_labels by apply Wz. intros d I. change (In d (dnames (F w a))) in I. rewrite (HL d I). apply (PJ w a e (or_introl Ha) P).
           apply Hd2 in I. destruct I as [(a' & Ha' & I)|(b & Hb & I)]; [congruence|]. apply (S w a b Ha Hb), I.
        -- unfold F. apply in_box_iff in P. destruct (dget Y w) as [b|] eqn:Eb; [|rewrite GJ, P; exact E]. unfold fillna. cbn [get].
           assert (get (reindexed J a) e = x) as Gx by (rewrite GJ, P; exact E). rewrite Gx. destruct (isnan x) eqn:En; [|reflexivity]. destruct x; try discriminate. rewrite GJ. destruct (in_box (dims b) e) eqn:Pb; [|reflexivity]. apply in_box_iff in Pb.
           destruct (BY _ _ _ Eb Pb) as [Ey|Ey]; [exact Ey|]. exfalso. eapply Dj; eauto.
      * destruct (AY _ _ _ Hc) as (b & Hb & P & E). destruct (dget X w) as [a|] eqn:Ea.
        -- exists (F w a). assert (dget Z w = Some (F w a)) as Gw by (rewrite GZ, Ea; reflexivity). split; [exact Gw|]. split.
           ++ destruct (HZ w _ Gw) as (c & Hcc & Hd & HL & Wz & _ & Hd2). rewrite point_of_labels by apply Wz. intros d I. change (In d (dnames (F w a))) in I. rewrite (HL d I). apply (PJ w b e (or_intror Hb) P).
              apply Hd2 in I. destruct I as [(a' & Ha' & I)|(b' & Hb' & I)]; [|congruence]. assert (a' = a) as -> by congruence. apply (S w a b Ea Hb), I.
           ++ unfold F. rewrite Hb. unfold fillna. cbn [get]. apply in_box_iff in P. destruct (isnan (get (reindexed J a) e)) eqn:En; [rewrite GJ, P; exact E|].
              exfalso. rewrite GJ in En. destruct (in_box (dims a) e) eqn:Pa; [|discriminate]. apply in_box_iff in Pa. destruct (BX _ _ _ Ea Pa) as [Ex|Ex]; [rewrite Ex in En; discriminate|]. eapply Dj; eauto.
        -- exists (reindexed J b). assert (dget Z w = Some (reindexed J b)) as Gw by (rewrite GZ, Ea, Hb; reflexivity). split; [exact Gw|]. split.
           ++ apply point_reindexed; [apply (WY _ _ Hb)|]. apply (PJ w b e (or_intror Hb) P).
           ++ rewrite GJ. apply in_box_iff in P. rewrite P. exact E.
    + intros w z e Hz P. rewrite GZ in Hz. destruct (dget X w) as [a|] eqn:Ea.
      * injection Hz as <-. unfold F in *. destruct (dget Y w) as [b|] eqn:Eb.
        -- unfold fillna. cbn [get]. destruct (isnan (get (reindexed J a) e)) eqn:En.
           ++ rewrite GJ. destruct (in_box (dims b) e) eqn:Pb; [|left; reflexivity]. apply in_box_iff in Pb. destruct (BY _ _ _ Eb Pb) as [E|E]; [left; exact E|right; right; exact E].
           ++ rewrite GJ in *. destruct (in_box (dims a) e) eqn:Pa; [|discriminate]. apply in_box_iff in Pa. destruct (BX _ _ _ Ea Pa) as [E|E]; [left; exact E|right; left; exact E].
        -- rewrite GJ. destruct (in_box (dims a) e) eqn:Pa; [|left; reflexivity]. apply in_box_iff in Pa. destruct (BX _ _ _ Ea Pa) as [E|E]; [left; exact E|right; left; exact E].
      * destruct (dget Y w) as [b|] eqn:Eb; [|discriminate]. injection Hz as <-. rewrite GJ. destruct (in_box (dims b) e) eqn:Pb; [|left; reflexivity]. apply in_box_iff in Pb. destruct (BY _ _ _ Eb Pb) as [E|E]; [left; exact E|right; right; exact E].
  - intros w. rewrite KZ, in_app_iff, filter_In. split; [tauto|]. intros [H|H]; [tauto|]. destruct (in_dec string_dec w (keys X)) as [I|I]; [tauto|]. right. split; [exact H|]. apply negb_true_iff, memb_false, I.
  - intros w z d Hz. destruct (HZ w z Hz) as (c & _ & _ & _ & _ & _ & H). apply H.
  - intros w z d l Hz Il. destruct (HZ w z Hz) as (c & _ & _ & HL & _). assert (In d (dnames z)) as I by (eapply labels_of_In; eauto). rewrite (HL d I) in Il. apply LJ, Il.
  - intros w w' z z' d Hz Hz' I I'. destruct (HZ w z Hz) as (c & _ & _ & HL & _). destruct (HZ w' z' Hz') as (c' & _ & _ & HL' & _). rewrite (HL d I), (HL' d I'). reflexivity.
Qed.
