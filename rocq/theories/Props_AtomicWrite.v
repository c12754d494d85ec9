(** C16: atomic_write. *)
From Coq Require Import String List Arith Lia Ascii.
Import ListNotations.
From Verif Require Import Prelude Model_AtomicWrite.

(** The environment: uuids of different calls differ (and have one length); no file name
    involved is one of the temporary names. *)
Record fresh (calls : nat -> option call) (fs0 : filesystem) : Prop := {
  f_uuid : forall i j c d, calls i = Some c -> calls j = Some d -> i <> j -> uuid c <> uuid d;
  f_len : forall i j c d, calls i = Some c -> calls j = Some d -> String.length (uuid c) = String.length (uuid d);
  f_target : forall i j c d, calls i = Some c -> calls j = Some d -> target d <> tmp_path c;
  f_absent : forall i c, calls i = Some c -> fs0 (tmp_path c) = None }.

(** [p] is not the temporary file of any call. *)
Definition not_tmp (calls : nat -> option call) (p : path) : Prop := forall i c, calls i = Some c -> p <> tmp_path c.

Lemma append_inj a b c d : String.length a = String.length b -> (a ++ c = b ++ d)%string -> a = b.
Proof.
  revert b. induction a as [|x a IH]; intros [|y b] H E; simpl in *; try discriminate; auto.
  injection E as -> E. f_equal. apply IH; auto.
Qed.
Lemma tmp_distinct calls fs0 i j c d : fresh calls fs0 -> calls i = Some c -> calls j = Some d -> i <> j -> tmp_path c <> tmp_path d.
Proof.
  intros F Hi Hj Hn E. unfold tmp_path in E. injection E as _ E. apply (f_uuid _ _ F i j c d Hi Hj Hn).
  eapply append_inj; [apply (f_len _ _ F i j); auto|exact E].
Qed.

(** The invariant. *)
Record inv (calls : nat -> option call) (fs0 : filesystem) (s : state) : Prop := {
  i_target : forall p, not_tmp calls p ->
    fst s p = fs0 p /\ (forall i c, calls i = Some c -> target c = p -> snd s i <> Returned) \/
    exists i c, calls i = Some c /\ target c = p /\ snd s i = Returned /\ fst s p = Some (data c);
  i_tmp : forall i c, calls i = Some c ->
    match snd s i with
    | Start | Ready | Returned | Raised MakedirsFailed | Raised WriteFailed => fst s (tmp_path c) = None
    | Writing n => n <= length (data c) /\ fst s (tmp_path c) = Some (firstn n (data c))
    | Closed | Raised MoveFailed => fst s (tmp_path c) = Some (data c)
    | Cleaning | Raised RemoveFailed | Crashed =>
        fst s (tmp_path c) = None \/ exists n, fst s (tmp_path c) = Some (firstn n (data c))
    end }.

Lemma upd_same fs p c : fupd fs p c p = c.
Proof. unfold fupd. now destruct (eq_dec p p). Qed.
Lemma upd_other fs p c q : q <> p -> fupd fs p c q = fs q.
Proof. unfold fupd. now destruct (eq_dec q p). Qed.
Lemma sp_same ph i p : set_phase ph i p i = p.
Proof. unfold set_phase. now destruct (eq_dec i i). Qed.
Lemma sp_other ph i p j : j <> i -> set_phase ph i p j = ph j.
Proof. unfold set_phase. now destruct (eq_dec j i). Qed.

Lemma inv_step calls fs0 s i s' : fresh calls fs0 -> inv calls fs0 s -> step calls s i s' -> inv calls fs0 s'.
Proof.
  intros F [It Ip] Hs. destruct Hs as [fs ph i c fs' p' Hi Hc]. cbn [fst snd] in *.
  assert (forall j d, calls j = Some d -> j <> i -> tmp_path d <> tmp_path c) as Ht.
  { intros j d Hj Hn. eapply tmp_distinct; eauto. }
  (* steps that only touch the temporary file of [i] *)
  assert ((forall q, q <> tmp_path c -> fs' q = fs q) -> p' <> Returned -> ph i <> Returned ->
     match p' with
    | Start | Ready | Returned | Raised MakedirsFailed | Raised WriteFailed => fs' (tmp_path c) = None
    | Writing n => n <= length (data c) /\ fs' (tmp_path c) = Some (firstn n (data c))
    | Closed | Raised MoveFailed => fs' (tmp_path c) = Some (data c)
    | Cleaning | Raised RemoveFailed | Crashed => fs' (tmp_path c) = None \/ exists n, fs' (tmp_path c) = Some (firstn n (data c))
    end -> inv calls fs0 (fs', set_phase ph i p')) as Hlocal.
  { intros H1 H2 H3 H4. split; cbn [fst snd].
    - intros p Hp. rewrite H1 by now apply (Hp i). destruct (It p Hp) as [[E Hr]|(j & d & Hj & Et & Er & Ed)].
      + left. split; auto. intros j d Hj Et. destruct (Nat.eq_dec j i) as [->|Hn]; [now rewrite sp_same|]. rewrite sp_other by auto. eauto.
      + right. exists j, d. destruct (Nat.eq_dec j i) as [->|Hn]; [congruence|]. rewrite sp_other; auto.
    - intros j d Hj. destruct (Nat.eq_dec j i) as [->|Hn].
      + assert (d = c) as -> by congruence. rewrite sp_same. exact H4.
      + rewrite sp_other by auto. rewrite H1 by eauto. now apply Ip. }
  pose proof (Ip i c Hi) as Hp. remember (ph i) as p eqn:Ep.
  destruct Hc; cbn [fst snd] in *;
    try (apply Hlocal; try discriminate; try congruence; try (intros q Hq; now rewrite ?upd_other by auto); rewrite ?upd_same; auto; fail).
  - (* open *) apply Hlocal; try discriminate; try (intros q Hq; now rewrite upd_other by auto). rewrite upd_same. split; [lia|reflexivity].
  - (* write fails *) apply Hlocal; try discriminate; try congruence. right. exists n. tauto.
  - (* close *) apply Hlocal; try discriminate; try congruence. destruct Hp as [_ Hp]. subst n. now rewrite firstn_all in Hp.
  - (* mv *) rewrite Hp. split; cbn [fst snd].
    + intros p Hpn. rewrite upd_other by now apply (Hpn i). destruct (eq_dec p (target c)) as [->|Hn].
      * right. exists i, c. rewrite upd_same, sp_same. auto.
      * rewrite upd_other by auto. destruct (It p Hpn) as [[E Hr]|(j & d & Hj & Et & Er & Ed)].
        -- left. split; auto. intros j d Hj Et. destruct (Nat.eq_dec j i) as [->|Hji]; [assert (d = c) as -> by congruence; congruence|]. rewrite sp_other; eauto.
        -- right. exists j, d. destruct (Nat.eq_dec j i) as [->|Hji]; [congruence|]. rewrite sp_other; auto.
    + intros j d Hj. destruct (Nat.eq_dec j i) as [->|Hji].
      * assert (d = c) as -> by congruence. rewrite sp_same. now rewrite upd_same.
      * rewrite sp_other by auto. rewrite upd_other by eauto. rewrite upd_other by (intros E; symmetry in E; revert E; now apply (f_target _ _ F j i)). now apply Ip.
  - (* crash *) apply Hlocal; try discriminate; auto.
    destruct p as [| |n| | | |[]|]; try congruence; auto.
    + right. exists n. tauto. + right. exists (length (data c)). now rewrite firstn_all.
Qed.
Lemma inv_reachable calls fs0 s : fresh calls fs0 -> reachable calls fs0 s -> inv calls fs0 s.
Proof.
  intros F H. induction H as [|s i s' H IH Hs].
  - split; cbn [fst snd]; [intros p Hp; left; split; auto; discriminate|]. intros i c Hi. now apply (f_absent _ _ F i).
  - eapply inv_step; eauto.
Qed.

(** ** C16 *)

(** At every point of every interleaving of any number of calls, each failing or crashing
    wherever it likes: a path that is not a temporary file holds either what it held before
    any call or the complete data of one call that has returned. *)
Theorem C16_no_partial_content calls fs0 fs ph p : fresh calls fs0 -> reachable calls fs0 (fs, ph) ->
  not_tmp calls p ->
  fs p = fs0 p \/ exists i c, calls i = Some c /\ target c = p /\ ph i = Returned /\ fs p = Some (data c).
Proof.
  intros F H Hp. destruct (i_target _ _ _ (inv_reachable _ _ _ F H) p Hp) as [[E _]|X]; auto.
Qed.

(** In particular targets are never temporary files; other files never change. *)
Theorem C16_targets calls fs0 fs ph i c : fresh calls fs0 -> reachable calls fs0 (fs, ph) -> calls i = Some c ->
  fs (target c) = fs0 (target c) \/ exists j d, calls j = Some d /\ target d = target c /\ ph j = Returned /\ fs (target c) = Some (data d).
Proof.
  intros F H Hi. eapply C16_no_partial_content; eauto. intros j d Hj. now apply (f_target _ _ F j i).
Qed.
Theorem C16_other_files_untouched calls fs0 fs ph p : fresh calls fs0 -> reachable calls fs0 (fs, ph) ->
  not_tmp calls p -> (forall i c, calls i = Some c -> target c <> p) -> fs p = fs0 p.
Proof.
  intros F H Hp Hn. destruct (C16_no_partial_content _ _ _ _ p F H Hp) as [E|(i & c & Hi & Et & _)]; auto. exfalso. now apply (Hn i c).
Qed.

(** The step that makes a call return installs its data at that moment... *)
Theorem C16_return_installs calls fs0 fs ph i c fs' ph' : fresh calls fs0 -> reachable calls fs0 (fs, ph) ->
  calls i = Some c -> step calls (fs, ph) i (fs', ph') -> ph i <> Returned -> ph' i = Returned -> fs' (target c) = Some (data c).
Proof.
  intros F H Hi Hs Hn Hr. pose proof (i_tmp _ _ _ (inv_reachable _ _ _ F H) i c Hi) as Hp. cbn [fst snd] in Hp.
  inversion Hs as [? ? ? c' ? p' Hi' Hc]; subst. assert (c' = c) as -> by congruence. rewrite sp_same in Hr. subst p'.
  remember (ph i) as p. remember Returned as q. destruct Hc; try discriminate.
  rewrite upd_other by (eapply (f_target _ _ F); eauto). rewrite upd_same. exact Hp.
Qed.
(** ... and from then on the target holds the data of a returned call, never the old content
    coming back or anything else. *)
Theorem C16_returned_stays calls fs0 fs ph i c : fresh calls fs0 -> reachable calls fs0 (fs, ph) ->
  calls i = Some c -> ph i = Returned ->
  exists j d, calls j = Some d /\ target d = target c /\ ph j = Returned /\ fs (target c) = Some (data d).
Proof.
  intros F H Hi Hr. assert (not_tmp calls (target c)) as Hp by (intros j d Hj; now apply (f_target _ _ F j i)).
  destruct (i_target _ _ _ (inv_reachable _ _ _ F H) _ Hp) as [[_ E]|X]; auto. exfalso. now apply (E i c).
Qed.

(** No temporary file is left by a call that returned, or raised in makedirs, open, write or
    close (the removal succeeding). *)
Theorem C16_no_leftovers calls fs0 fs ph i c : fresh calls fs0 -> reachable calls fs0 (fs, ph) ->
  calls i = Some c -> ph i = Returned \/ ph i = Raised MakedirsFailed \/ ph i = Raised WriteFailed -> fs (tmp_path c) = None.
Proof.
  intros F H Hi Hr. pose proof (i_tmp _ _ _ (inv_reachable _ _ _ F H) i c Hi) as Hp. cbn [fst snd] in Hp.
  destruct Hr as [E|[E|E]]; rewrite E in Hp; exact Hp.
Qed.

(** A call left alone can always complete. *)
Theorem C16_can_complete calls fs0 fs ph i c : fresh calls fs0 -> reachable calls fs0 (fs, ph) -> calls i = Some c -> ph i = Start ->
  exists fs' ph', reachable calls fs0 (fs', ph') /\ ph' i = Returned /\ (forall j, j <> i -> ph' j = ph j).
Proof.
  intros F H Hi E.
  assert (forall fs ph fs' p', reachable calls fs0 (fs, ph) -> call_step c fs (ph i) fs' p' -> reachable calls fs0 (fs', set_phase ph i p')) as Hgo.
  { intros f1 p1 f2 p2 Hr Hc. eapply r_step; [exact Hr|]. econstructor; eauto. }
  eapply Hgo in H; [|rewrite E; constructor]. eapply Hgo in H; [|rewrite sp_same; constructor].
  eapply Hgo in H; [|rewrite sp_same; apply (s_write c _ 0 (length (data c))); lia]. eapply Hgo in H; [|rewrite sp_same; apply s_close; reflexivity].
  eapply Hgo in H; [|rewrite sp_same; constructor]. eexists _, _. split; [exact H|]. split; [apply sp_same|]. intros j Hj. now rewrite !sp_other.
Qed.

(** A failing move does leave the temporary file behind: line 101 is outside the try. *)
Definition ex_call : call := mkCall ("d", "out.nc")%string [1; 2] "u".
Definition ex_calls (i : nat) : option call := match i with 0 => Some ex_call | _ => None end.
Lemma ex_fresh : fresh ex_calls (fun _ => None).
Proof.
  split; intros; repeat match goal with H : ex_calls ?i = Some _ |- _ => destruct i; simpl in H; [injection H as <-|discriminate] end; try reflexivity; try congruence. discriminate.
Qed.
Theorem C16_move_failure_leaves_tmp_refuted :
  ~ (forall calls fs0 fs ph i c r, fresh calls fs0 -> reachable calls fs0 (fs, ph) -> calls i = Some c -> ph i = Raised r -> fs (tmp_path c) = None).
Proof.
  intros H.
  assert (exists fs ph, reachable ex_calls (fun _ => None) (fs, ph) /\ ph 0 = Closed) as (fs & ph & Hr & Ep).
  { assert (forall fs ph fs' p', reachable ex_calls (fun _ => None) (fs, ph) -> call_step ex_call fs (ph 0) fs' p' -> reachable ex_calls (fun _ => None) (fs', set_phase ph 0 p')) as Hgo.
    { intros f1 p1 f2 p2 Hr Hc. eapply r_step; [exact Hr|]. econstructor; [reflexivity|exact Hc]. }
    pose proof (r_init ex_calls (fun _ => None)) as R. eapply Hgo in R; [|constructor]. eapply Hgo in R; [|rewrite sp_same; constructor].
    eapply Hgo in R; [|rewrite sp_same; apply (s_write ex_call _ 0 2); simpl; lia]. eapply Hgo in R; [|rewrite sp_same; apply s_close; reflexivity].
    eexists _, _. split; [exact R|apply sp_same]. }
  assert (reachable ex_calls (fun _ => None) (fs, set_phase ph 0 (Raised MoveFailed))) as Hr'.
  { eapply r_step; [exact Hr|]. apply (step_call ex_calls fs ph 0 ex_call); [reflexivity|]. rewrite Ep. constructor. }
  pose proof (i_tmp _ _ _ (inv_reachable _ _ _ ex_fresh Hr') 0 ex_call eq_refl) as X. cbn [fst snd] in X. rewrite sp_same in X.
  rewrite (H _ _ _ _ 0 ex_call MoveFailed ex_fresh Hr' eq_refl (sp_same _ _ _)) in X. discriminate.
Qed.

(** Two racing writers of one file (hypotheses are satisfiable, executions exist). *)
Example C16_example : exists calls fs0, fresh calls fs0 /\ calls 0 = Some (mkCall ("d", "out")%string [1] "a") /\ calls 1 = Some (mkCall ("d", "out")%string [2; 3] "b") /\
  exists fs ph, reachable calls fs0 (fs, ph) /\ ph 0 = Returned /\ ph 1 = Returned /\ fs0 ("d", "out")%string = Some [9].
Proof.
  set (calls := fun i : nat => match i with 0 => Some (mkCall ("d", "out")%string [1] "a") | 1 => Some (mkCall ("d", "out")%string [2; 3] "b") | _ => None end).
  set (fs0 := fun p : path => if eq_dec p ("d", "out")%string then Some [9] else None).
  assert (fresh calls fs0) as F.
  { split; intros; repeat match goal with H : calls ?i = Some _ |- _ => destruct i as [|[|i]]; simpl in H; [injection H as <-|injection H as <-|discriminate] end; try reflexivity; try congruence; try discriminate. }
  exists calls, fs0. split; auto. split; auto. split; auto.
  destruct (C16_can_complete calls fs0 fs0 (fun _ => Start) 0 _ F (r_init _ _) eq_refl eq_refl) as (fs1 & ph1 & R1 & E1 & O1).
  destruct (C16_can_complete calls fs0 fs1 ph1 1 _ F R1 eq_refl) as (fs2 & ph2 & R2 & E2 & O2); [now rewrite O1|].
  exists fs2, ph2. split; auto. split; [rewrite O2; auto|]. split; auto.
Qed.

Print Assumptions C16_no_partial_content.
Print Assumptions C16_no_leftovers.
