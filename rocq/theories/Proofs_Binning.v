(** Proofs for bin masks: coordinate arrays, stacks of masks, longitude arcs. *)
From Coq Require Import String ZArith QArith Qround Qcanon Bool List Lia Lqa.
Import ListNotations.
From Verif Require Import Prelude Values Model_XArray Spec_XArray Proofs_XArray Model_Deterministic Model_Aggregation
  Model_Binning Spec_Binning.
From Coq Require Import Reals.
Local Open Scope string_scope.
Local Open Scope list_scope.

(** ** Coordinate arrays *)
Definition only (ds : dimlist) {A} (f : env -> A) : Prop :=
  forall e e', (forall d, In d (map fst ds) -> e d = e' d) -> f e = f e'.

Lemma project_ext ds e e' : (forall d, In d (map fst ds) -> e d = e' d) -> forall d, project ds e d = project ds e' d.
Proof. intros H d. unfold project. destruct (memb d (map fst ds)) eqn:E; auto. apply H, memb_In, E. Qed.

Lemma only_project ds {A} (f : env -> A) : only ds (fun e => f (project ds e)).
Proof.
  intros e e' H. f_equal. apply FunctionalExtensionality.functional_extensionality. intros d. apply project_ext, H.
Qed.

Record coord_ok (st : da) (name : string) (ds : dimlist) (f : env -> label) : Prop := {
  co_sub : incl ds (dims st);
  co_nodup : NoDup (map fst ds);
  co_only : only ds f;
  co_at : coords_local st -> forall e, coord_at st name e (f e) }.

Lemma coord_array_ok st name ds f : wf st -> coord_array st name = Some (ds, f) -> coord_ok st name ds f.
Proof.
  intros (N & _ & _) H. unfold coord_array in H. destruct (coord_of st name) as [[ds' f']|] eqn:E; [|discriminate].
  injection H as <- <-. unfold coord_of in E. destruct (dget (dims st) name) as [ls|] eqn:Ed.
  - injection E as <- <-. split.
    + intros p [<-|[]]. apply dget_In, Ed.
    + repeat constructor. simpl. tauto.
    + apply (only_project [(name, ls)] (fun e => e name)).
    + intros _ e. left. split. { apply (in_map fst) with (x := (name, ls)). apply dget_In, Ed. }
      unfold project. cbn [map fst]. replace (memb name [name]) with true; auto. symmetry. apply memb_In. left. auto.
  - destruct (dget (aux st) name) as [c|] eqn:Ec; [|discriminate]. injection E as <- <-. split.
    + intros p Hp. apply filter_In in Hp. tauto.
    + apply NoDup_map_filter, N.
    + apply (only_project _ (c_get c)).
    + intros L e. right. split. { intros I. apply dget_None in Ed. auto. }
      exists c. split; auto. destruct (L _ _ Ec) as [I Hc]. apply Hc. intros d Hd. unfold project.
      replace (memb d _) with true; auto. symmetry. apply memb_In. apply in_map_iff.
      specialize (I d Hd). unfold dnames in I. apply in_map_iff in I. destruct I as (p & Hp & Ip). exists p. split; auto.
      apply filter_In. split; auto. rewrite Hp. apply memb_In, Hd.
Qed.

Lemma has_coord_iff st name : has_coord st name <-> exists c, coord_array st name = Some c.
Proof.
  unfold has_coord, coord_array, coord_of. destruct (dget (dims st) name) as [ls|] eqn:Ed.
  - split; [eauto|]. intros _. left. apply (in_map fst) with (x := (name, ls)). apply dget_In, Ed.
  - destruct (dget (aux st) name) as [c|] eqn:Ec.
    + split; eauto.
    + split. * intros [I|[c H]]; [|discriminate]. apply dget_None in Ed. contradiction.
      * intros [c H]. discriminate.
Qed.

Lemma get_coord_Ok k st name c : get_coord k st name = Ok c <-> coord_array st name = Some c.
Proof. unfold get_coord. destruct (coord_array st name); split; intros H; try discriminate; congruence. Qed.

Lemma coord_at_fun st name e l l' : coord_at st name e l -> coord_at st name e l' -> l = l'.
Proof. intros [[A ->]|[A (c & B & ->)]] [[A' ->]|[A' (c' & B' & ->)]]; try contradiction; auto. congruence. Qed.

Lemma is_number_lnum l q : is_number l q -> lnum l = q.
Proof. intros []; reflexivity. Qed.

Lemma coord_number st name ds f e q : coord_ok st name ds f -> coords_local st -> number_at st name e q -> lnum (f e) = q.
Proof.
  intros H L (l & A & B). apply is_number_lnum in B. rewrite <- B. f_equal.
  apply (coord_at_fun st name e); auto. apply (co_at _ _ _ _ H L).
Qed.

(** ** Stacks *)
Definition part_ok (ds : dimlist) (p : label * (env -> val)) : Prop :=
  only ds (snd p) /\ forall e, snd p e = Fin 0%R \/ snd p e = Fin 1%R.

Lemma upd_other_all e d l k : k <> d -> upd e d l k = e k.
Proof. intros H. unfold upd. destruct (string_dec k d); congruence. Qed.
Lemma upd_at e d l : upd e d l d = l.
Proof. unfold upd. destruct (string_dec d d); congruence. Qed.

Lemma stack_parts_Ok d ds parts m : stack_parts d ds parts = Ok m ->
  ~ In d (map fst ds) /\ dims m = (d, map fst parts) :: ds /\ aux m = [] /\
  forall e, get m e = match dget parts (e d) with Some f => f e | None => NaN end.
Proof.
  unfold stack_parts. destruct (memb d (map fst ds)) eqn:E; [discriminate|]. intros [= <-]. apply memb_false in E. auto.
Qed.

Lemma stack_mask st d ds parts m : wf st -> incl ds (dims st) -> NoDup (map fst ds) -> NoDup (map fst parts) ->
  Forall (part_ok ds) parts -> stack_parts d ds parts = Ok m ->
  mask_for st m d (map fst parts) /\
  (forall l f e, In (l, f) parts -> in_bin m d l e = f e).
Proof.
  intros W S N NP P H. apply stack_parts_Ok in H. destruct H as (Hd & Hm & _ & Hg). rewrite Forall_forall in P.
  assert (forall l f e, In (l, f) parts -> in_bin m d l e = f e) as B.
  { intros l f e I. unfold in_bin. rewrite Hg, upd_at. rewrite (In_dget _ _ _ NP I).
    apply (proj1 (P _ I)). intros k Hk. apply upd_other_all. congruence. }
  split; auto. split.
  - split; [|split].
    + unfold dnames. rewrite Hm. simpl. constructor; auto.
    + intros k ls I. rewrite Hm in I. destruct I as [[= <- <-]|I]; auto. destruct W as (_ & W & _). apply (W k), S, I.
    + intros e e' He. unfold dnames in He. rewrite Hm in He. cbn [map fst] in He. rewrite !Hg. rewrite (He d) by (left; auto).
      destruct (dget parts (e' d)) as [f|] eqn:E; auto. apply dget_In in E. apply (proj1 (P _ E)). intros k Hk. apply He. right. auto.
  - rewrite Hm. simpl. destruct (eq_dec d d); congruence.
  - intros k ls I. rewrite Hm in I. destruct I as [[= <- <-]|I]; auto.
  - intros e He. rewrite Hg. destruct (dget parts (e d)) as [f|] eqn:E.
    + apply dget_In in E. apply (proj2 (P _ E)).
    + exfalso. apply dget_None in E. apply E. apply (He d (map fst parts)). rewrite Hm. left. auto.
Qed.

Lemma bits_part_ok ds parts : Forall (fun p => only ds (snd p)) parts -> Forall (part_ok ds) (bits parts).
Proof.
  intros H. unfold bits. apply Forall_map. eapply Forall_impl; [|exact H]. intros p Hp. split; cbn [snd].
  - intros e e' He. f_equal. apply Hp, He.
  - intros e. destruct (snd p e); [right|left]; reflexivity.
Qed.
Lemma bits_labels parts : map fst (bits parts) = map fst parts.
Proof. unfold bits. rewrite map_map. reflexivity. Qed.
Lemma bits_In l f parts : In (l, f) parts -> In (l, fun e => b2v (f e)) (bits parts).
Proof. intros I. unfold bits. apply (in_map (fun p => (fst p, fun e => b2v (snd p e))) parts (l, f) I). Qed.

Lemma bits_mask st d ds parts m : wf st -> incl ds (dims st) -> NoDup (map fst ds) -> NoDup (map fst parts) ->
  Forall (fun p => only ds (snd p)) parts -> stack_parts d ds (bits parts) = Ok m ->
  mask_for st m d (map fst parts) /\ (forall l f e, In (l, f) parts -> in_bin m d l e = b2v (f e)).
Proof.
  intros W S N NP P H. destruct (stack_mask st d ds (bits parts) m) as [A B]; auto.
  - rewrite bits_labels. auto.
  - apply bits_part_ok, P.
  - rewrite bits_labels in A. split; auto. intros l f e I. apply (B l _ e (bits_In _ _ _ I)).
Qed.

Lemma stack_Ok d ds parts m : stack d ds parts = Ok m <-> parts <> [] /\ stack_parts d ds (bits parts) = Ok m.
Proof. unfold stack. destruct parts; split; [discriminate|intros [[] _]; auto|split; [discriminate|auto]|tauto]. Qed.

Lemma stack_parts_iff d ds parts : (exists m, stack_parts d ds parts = Ok m) <-> ~ In d (map fst ds).
Proof.
  unfold stack_parts. destruct (memb d (map fst ds)) eqn:E.
  - apply memb_In in E. split; [intros [m H]; discriminate|tauto].
  - apply memb_false in E. split; eauto.
Qed.

Lemma shows_b2v (b : bool) P : (b = true <-> P) -> shows (b2v b) P.
Proof. intros H. destruct b; [left|right]; split; try reflexivity; intuition congruence. Qed.
Lemma shows_fun v v' P P' : (P <-> P') -> shows v P -> shows v' P' -> v = v'.
Proof. intros H [[A ->]|[A ->]] [[B ->]|[B ->]]; auto; tauto. Qed.

(** ** np.mod and longitude arcs *)
Lemma qmod_spec x : (0 <= qmod x 360 < 360)%Q /\ (x == qmod x 360 + turns (Qfloor (x / 360)))%Q.
Proof.
  unfold qmod, turns. pose proof (Qfloor_le (x / 360)) as A. pose proof (Qlt_floor (x / 360)) as B.
  rewrite inject_Z_plus in B. change (inject_Z 1) with 1%Q in B.
  assert (x == 360 * (x / 360))%Q as C by field. set (y := (x / 360)%Q) in *. clearbody y.
  set (n := inject_Z (Qfloor y)) in *. clearbody n. split; [split|]; lra.
Qed.

Lemma Qle_bool_true x y : Qle_bool x y = true <-> (x <= y)%Q.
Proof. apply Qle_bool_iff. Qed.
Lemma Qltb_true x y : Qltb x y = true <-> (x < y)%Q.
Proof.
  unfold Qltb. rewrite negb_true_iff. split.
  - intros H. apply Qnot_le_lt. intros C. apply Qle_bool_iff in C. congruence.
  - intros H. destruct (Qle_bool y x) eqn:E; auto. apply Qle_bool_iff in E. lra.
Qed.

Lemma inject_lt n m : (n < m)%Z -> (inject_Z n + 1 <= inject_Z m)%Q.
Proof. intros H. replace 1%Q with (inject_Z 1) by reflexivity. rewrite <- inject_Z_plus. rewrite <- Zle_Qle. lia. Qed.

Lemma lon_mask_arc lims x : create_lon_mask lims x = true <-> on_arc (fst lims) (snd lims) x.
Proof.
  destruct lims as [a b]. unfold create_lon_mask. cbn [fst snd].
  destruct (qmod_spec a) as [A1 A2], (qmod_spec b) as [B1 B2], (qmod_spec x) as [X1 X2].
  set (a0 := qmod a 360) in *. set (b0 := qmod b 360) in *. set (x0 := qmod x 360) in *.
  set (fa := Qfloor (a / 360)) in *. set (fb := Qfloor (b / 360)) in *. set (fx := Qfloor (x / 360)) in *.
  clearbody a0 b0 x0 fa fb fx. split.
  - intros H. destruct (Qltb a0 b0) eqn:E.
    + apply Qltb_true in E. apply andb_true_iff in H. rewrite !Qle_bool_true in H.
      exists (b0 - a0)%Q, (fa - fx)%Z, (fb - fa)%Z. unfold turns in *. unfold Z.sub. rewrite !inject_Z_plus, !inject_Z_opp.
      split; [|split]; try split; lra.
    + assert (b0 <= a0)%Q as E' by (destruct (Qlt_le_dec a0 b0) as [C|C]; auto; apply Qltb_true in C; congruence).
      apply orb_true_iff in H. rewrite !Qle_bool_true in H. destruct H as [H|H].
      * exists (b0 - a0 + 360)%Q, (fa - fx + 1)%Z, (fb - fa - 1)%Z. unfold turns in *. unfold Z.sub. rewrite !inject_Z_plus, !inject_Z_opp.
        change (inject_Z 1) with 1%Q. split; [|split]; try split; lra.
      * exists (b0 - a0 + 360)%Q, (fa - fx)%Z, (fb - fa - 1)%Z. unfold turns in *. unfold Z.sub. rewrite !inject_Z_plus, !inject_Z_opp.
        change (inject_Z 1) with 1%Q. split; [|split]; try split; lra.
  - intros (w & k & j & Hw & Hb & Hx). unfold turns in *.
    assert (b0 == a0 + w + 360 * inject_Z (j + fa - fb))%Q as N.
    { unfold Z.sub. rewrite !inject_Z_plus, inject_Z_opp. lra. }
    assert (a0 <= x0 + 360 * inject_Z (k + fx - fa) <= a0 + w)%Q as M.
    { unfold Z.sub. rewrite !inject_Z_plus, inject_Z_opp. lra. }
    set (n := (j + fa - fb)%Z) in *. set (m := (k + fx - fa)%Z) in *. clearbody n m.
    assert (n = 0 \/ n = -1)%Z as Hn.
    { destruct (Z_lt_le_dec n (-1)) as [C|C]. { apply inject_lt in C. change (inject_Z (-1)) with (-1)%Q in C. lra. }
      destruct (Z_lt_le_dec 0 n) as [D|D]. { apply inject_lt in D. change (inject_Z 0) with 0%Q in D. lra. } lia. }
    destruct Hn as [-> | ->].
    + change (inject_Z 0) with 0%Q in N. assert (m = 0)%Z as ->.
      { destruct (Z_lt_le_dec m 0) as [C|C]. { apply inject_lt in C. change (inject_Z 0) with 0%Q in C. lra. }
        destruct (Z_lt_le_dec 0 m) as [D|D]. { apply inject_lt in D. change (inject_Z 0) with 0%Q in D. lra. } lia. }
      change (inject_Z 0) with 0%Q in M. replace (Qltb a0 b0) with true by (symmetry; apply Qltb_true; lra).
      apply andb_true_iff. rewrite !Qle_bool_true. split; lra.
    + change (inject_Z (-1)) with (-1)%Q in N. replace (Qltb a0 b0) with false.
      2:{ destruct (Qltb a0 b0) eqn:E; auto. apply Qltb_true in E. lra. }
      apply orb_true_iff. rewrite !Qle_bool_true.
      destruct (Z_lt_le_dec m 1) as [C|C].
      * right. apply inject_lt in C. change (inject_Z 1) with 1%Q in C. lra.
      * left. rewrite Zle_Qle in C. change (inject_Z 1) with 1%Q in C. lra.
Qed.

Lemma lat_mask_spec lims f x : create_lat_mask lims = Ok f -> (f x = true <-> (fst lims <= x <= snd lims)%Q).
Proof.
  unfold create_lat_mask. destruct (Qle_bool (snd lims) (fst lims)); [discriminate|]. intros [= <-].
  rewrite andb_true_iff, !Qle_bool_true. tauto.
Qed.
Lemma lat_mask_Ok lims : (exists f, create_lat_mask lims = Ok f) <-> (fst lims < snd lims)%Q.
Proof.
  unfold create_lat_mask. destruct (Qle_bool (snd lims) (fst lims)) eqn:E.
  - apply Qle_bool_true in E. split; [intros [f H]; discriminate|intros H; lra].
  - split; eauto. intros _. apply Qltb_true. unfold Qltb. rewrite E. reflexivity.
Qed.
