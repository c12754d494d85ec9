From Coq Require Import String ZArith List Bool Reals Lra Lia.
Import ListNotations.
From Verif Require Import Prelude Values Model_XArray Spec_XArray Proofs_XArray Model_MetricsBase Model_Calendar Model_Deterministic Model_Categorical Model_Ensemble
  Proofs_Deterministic Spec_Reduce Proofs_Reduce Proofs_Ensemble2 Model_Wrappers Spec_Wrappers Proofs_Transforms.
Local Open Scope R_scope.
Local Open Scope string_scope.
Local Open Scope list_scope.

Lemma sel_points_Ok a ids iaux (idx : list (string * (env -> label))) r : sel_points a ids iaux idx = Ok r ->
  dims r = ids ++ filter (fun p => negb (memb (fst p) (map fst idx)) && negb (memb (fst p) (map fst ids))) (dims a) /\
  forall e, get r e = get a (fun d => match dget idx d with Some f => f e | None => e d end).
Proof. unfold sel_points. destruct (forallb _ _); [|discriminate]. intros [= <-]. auto. Qed.
Lemma wf_sel_points a ids iaux (idx : list (string * (env -> label))) r : wf a -> NoDup (map fst ids) -> (forall d ls, In (d, ls) ids -> NoDup ls) ->
  (forall d (f : env -> label) (e e' : env), dget idx d = Some f -> (forall n, In n (map fst ids) -> e n = e' n) -> f e = f e') ->
  sel_points a ids iaux idx = Ok r -> wf r.
Proof.
  intros W HN HL Hf H. apply sel_points_Ok in H. destruct H as [Hd Hg]. split; [|split].
  - unfold dnames. rewrite Hd, map_app. apply NoDup_app_intro; [exact HN|apply NoDup_map_filter, W|].
    intros n Hn Hin. apply in_map_iff in Hin. destruct Hin as ([k l] & <- & Hin). apply filter_In in Hin. destruct Hin as [_ Hin]. cbn [fst] in *.
    apply andb_true_iff in Hin. destruct Hin as [_ Hin]. apply negb_true_iff, memb_false in Hin. contradiction.
  - intros d ls Hin. rewrite Hd in Hin. apply in_app_iff in Hin. destruct Hin as [Hin|Hin]; [eauto|]. apply filter_In in Hin. destruct Hin as [Hin _]. now apply (proj1 (proj2 W) d).
  - intros e e' He. rewrite !Hg. apply W. intros n Hn.
    assert (forall k, In k (map fst ids) -> e k = e' k) as Hi by (intros k Hk; apply He; unfold dnames; rewrite Hd, map_app; apply in_app_iff; now left).
    destruct (@dget string (env -> label) _ idx n) as [f|] eqn:E; [now apply (Hf n)|]. apply He. unfold dnames. rewrite Hd, map_app. apply in_app_iff.
    destruct (memb n (map fst ids)) eqn:M; [left; now apply memb_In|right]. apply in_map_iff in Hn. destruct Hn as ([k l] & <- & Hin). cbn [fst] in *.
    apply in_map_iff. exists (k, l). split; [reflexivity|]. apply filter_In. split; [exact Hin|]. cbn [fst]. rewrite M.
    assert (memb k (map fst idx) = false) as ->; [|reflexivity]. apply memb_false. intros K. apply dget_None in E. apply E. exact K.
Qed.
Lemma dget_filter_names (ds : dimlist) D n : In n D -> dget (filter (fun p => memb (fst p) D) ds) n = dget ds n.
Proof.
  intros H. induction ds as [|[k l] ds IH]; [reflexivity|]. cbn [filter fst]. destruct (memb k D) eqn:M.
  - cbn [dget]. now rewrite IH.
  - cbn [dget fst]. destruct (eq_dec n k) as [->|]; [apply memb_false in M; contradiction|exact IH].
Qed.
Lemma names_filter (ds : dimlist) D n : In n (map fst (filter (fun p => memb (fst p) D) ds)) <-> In n D /\ In n (map fst ds).
Proof.
  rewrite !in_map_iff. split.
  - intros ([k l] & <- & H). apply filter_In in H. destruct H as [H1 H2]. apply memb_In in H2. split; [exact H2|]. now exists (k, l).
  - intros [H1 ([k l] & <- & H2)]. exists (k, l). split; [reflexivity|]. apply filter_In. split; [exact H2|]. now apply memb_In.
Qed.
Lemma subsetb_iff l1 l2 : subsetb l1 l2 = true <-> incl l1 l2.
Proof. unfold subsetb. rewrite forallb_forall. split; intros H x Hx; [apply memb_In|apply memb_In]; auto. Qed.

Definition time_dims : list string := ["init_time"; "lead_time"; "valid_time"; "dayofyear"].
(** The selected thresholds: well-formed, read at [time_point], same labels along other dimensions *)
Lemma select_spec th chunk r : wf th -> wf chunk -> select_by_time th chunk = Ok r ->
  wf r /\ (forall e, get r e = get th (time_point th chunk e)) /\
  forall d, ~ In d time_dims -> dget (dims r) d = dget (dims th) d.
Proof.
  intros W Wc H. unfold select_by_time in H. unfold time_point.
  assert (subsetb ["init_time"; "lead_time"] (dnames chunk) = memb "init_time" (dnames chunk) && memb "lead_time" (dnames chunk)) as E1 by (cbn; now rewrite andb_true_r).
  assert (subsetb ["init_time"; "lead_time"] (dnames th) = memb "init_time" (dnames th) && memb "lead_time" (dnames th)) as E2 by (cbn; now rewrite andb_true_r).
  assert (subsetb ["dayofyear"; "lead_time"] (dnames th) = memb "dayofyear" (dnames th) && memb "lead_time" (dnames th)) as E3 by (cbn; now rewrite andb_true_r).
  rewrite E1, E2, E3 in H. clear E1 E2 E3.
  assert (forall D, NoDup (map fst (filter (fun p => memb (fst p) D) (dims chunk)))) as N1 by (intros; apply NoDup_map_filter, Wc).
  assert (forall D d ls, In (d, ls) (filter (fun p => memb (fst p) D) (dims chunk)) -> NoDup ls) as N2.
  { intros D d ls Hin. apply filter_In in Hin. destruct Hin as [Hin _]. now apply (proj1 (proj2 Wc) d). }
  assert (forall D (idx : list (string * (env -> label))) iaux, (forall n, In n (map fst idx) -> In n time_dims) -> incl D time_dims -> forall r', sel_points th (filter (fun p => memb (fst p) D) (dims chunk)) iaux idx = Ok r' ->
    forall d, ~ In d time_dims -> dget (dims r') d = dget (dims th) d) as G.
  { intros D idx iaux Hidx HD r' H' d Hd. apply sel_points_Ok in H'. destruct H' as [Hdim _]. rewrite Hdim.
    assert (forall l1 l2 : dimlist, ~ In d (map fst l1) -> dget (l1 ++ l2) d = dget l2 d) as Gap.
    { induction l1 as [|[k l] l1 IH]; intros l2 Hn; [reflexivity|]. cbn [app dget fst]. destruct (eq_dec d k) as [->|]; [exfalso; apply Hn; now left|]. apply IH. intros K. apply Hn. now right. }
    rewrite Gap by (intros K; apply names_filter in K; apply Hd, HD, K).
    assert (forall l : dimlist, dget (filter (fun p => negb (memb (fst p) (map fst idx)) && negb (memb (fst p) (map fst (filter (fun p => memb (fst p) D) (dims chunk))))) l) d = dget l d) as ->; [|reflexivity].
    induction l as [|[k ls] l IH]; [reflexivity|]. cbn [filter fst]. destruct (eq_dec d k) as [<-|Hne].
    - assert (memb d (map fst idx) = false) as -> by (apply memb_false; intros K; apply Hd, Hidx, K).
      assert (memb d (map fst (filter (fun p => memb (fst p) D) (dims chunk))) = false) as -> by (apply memb_false; intros K; apply names_filter in K; apply Hd, HD, K).
      cbn [negb andb dget fst]. destruct (eq_dec d d); congruence.
    - assert (forall l', dget ((k, ls) :: l') d = dget l' d) as Sk by (intros l'; cbn [dget fst]; destruct (eq_dec d k); [contradiction|reflexivity]).
      rewrite Sk. match goal with |- dget (if ?b then _ else _) d = _ => destruct b end; [rewrite Sk|]; exact IH. }
  assert (forall D n, In n D -> In n (dnames chunk) -> In n (map fst (filter (fun p => memb (fst p) D) (dims chunk)))) as N3 by (intros; apply names_filter; auto).
  destruct (memb "init_time" (dnames chunk) && memb "lead_time" (dnames chunk)) eqn:B1.
  - apply andb_true_iff in B1. destruct B1 as [Bi Bl]. apply memb_In in Bi. apply memb_In in Bl.
    assert (forall n, In n ["init_time"; "lead_time"] -> In n (map fst (filter (fun p => memb (fst p) ["init_time"; "lead_time"]) (dims chunk)))) as N4.
    { intros n Hn. apply N3; [exact Hn|]. destruct Hn as [<-|[<-|[]]]; auto. }
    destruct (memb "valid_time" (dnames th)); [|destruct (memb "init_time" (dnames th) && memb "lead_time" (dnames th)); [|destruct (memb "dayofyear" (dnames th) && memb "lead_time" (dnames th))]].
    + split; [|split].
      * eapply wf_sel_points; [exact W|apply N1|apply N2| |exact H]. intros d f e e' Hf Hn. cbn [dget fst] in Hf. destruct (eq_dec d "valid_time"); [|discriminate]. injection Hf as <-.
        rewrite (Hn "init_time"), (Hn "lead_time") by (apply N4; simpl; auto). reflexivity.
      * intros e. pose proof (proj2 (sel_points_Ok _ _ _ _ _ H)) as Hg. rewrite Hg. apply W. intros n _. cbn [dget fst]. unfold upd. destruct (eq_dec n "valid_time"), (string_dec n "valid_time"); congruence.
      * eapply G; [| |exact H]; [intros n [<-|[]]; simpl; auto|intros n [<-|[<-|[]]]; simpl; auto].
    + split; [|split].
      * eapply wf_sel_points; [exact W|apply N1|apply N2| |exact H]. intros d f e e' Hf Hn. cbn [dget fst] in Hf. destruct (eq_dec d "init_time"); [|destruct (eq_dec d "lead_time"); [|discriminate]]; injection Hf as <-; apply Hn, N4; simpl; auto.
      * intros e. pose proof (proj2 (sel_points_Ok _ _ _ _ _ H)) as Hg. rewrite Hg. apply W. intros n _. cbn [dget fst]. destruct (eq_dec n "init_time"), (eq_dec n "lead_time"); congruence.
      * eapply G; [| |exact H]; [intros n [<-|[<-|[]]]; simpl; auto|intros n [<-|[<-|[]]]; simpl; auto].
    + split; [|split].
      * eapply wf_sel_points; [exact W|apply N1|apply N2| |exact H]. intros d f e e' Hf Hn. cbn [dget fst] in Hf. destruct (eq_dec d "dayofyear"); [|destruct (eq_dec d "lead_time"); [|discriminate]]; injection Hf as <-; [rewrite (Hn "init_time") by (apply N4; simpl; auto); reflexivity|apply Hn, N4; simpl; auto].
      * intros e. pose proof (proj2 (sel_points_Ok _ _ _ _ _ H)) as Hg. rewrite Hg. apply W. intros n _. cbn [dget fst]. unfold upd. destruct (eq_dec n "dayofyear"), (string_dec n "dayofyear"), (eq_dec n "lead_time"); congruence.
      * eapply G; [| |exact H]; [intros n [<-|[<-|[]]]; simpl; auto|intros n [<-|[<-|[]]]; simpl; auto].
    + injection H as <-. auto.
  - destruct (memb "valid_time" (dnames chunk)) eqn:B2; [|injection H as <-; auto]. apply memb_In in B2.
    assert (In "valid_time" (map fst (filter (fun p => memb (fst p) ["valid_time"]) (dims chunk)))) as N4 by (apply N3; simpl; auto).
    destruct (memb "valid_time" (dnames th)); [|destruct (memb "dayofyear" (dnames th))].
    + split; [|split].
      * eapply wf_sel_points; [exact W|apply N1|apply N2| |exact H]. intros d f e e' Hf Hn. cbn [dget fst] in Hf. destruct (eq_dec d "valid_time"); [|discriminate]. injection Hf as <-. now apply Hn.
      * intros e. pose proof (proj2 (sel_points_Ok _ _ _ _ _ H)) as Hg. rewrite Hg. apply W. intros n _. cbn [dget fst]. destruct (eq_dec n "valid_time"); congruence.
      * eapply G; [| |exact H]; [intros n [<-|[]]; simpl; auto|intros n [<-|[]]; simpl; auto].
    + split; [|split].
      * eapply wf_sel_points; [exact W|apply N1|apply N2| |exact H]. intros d f e e' Hf Hn. cbn [dget fst] in Hf. destruct (eq_dec d "dayofyear"); [|discriminate]. injection Hf as <-. now rewrite (Hn "valid_time").
      * intros e. pose proof (proj2 (sel_points_Ok _ _ _ _ _ H)) as Hg. rewrite Hg. apply W. intros n _. cbn [dget fst]. unfold upd. destruct (eq_dec n "dayofyear"), (string_dec n "dayofyear"); congruence.
      * eapply G; [| |exact H]; [intros n [<-|[]]; simpl; auto|intros n [<-|[]]; simpl; auto].
    + injection H as <-. auto.
Qed.

(** The chosen thresholds *)
Lemma chosen_spec name ts a d th c : thresholds_for name ts d th -> wf th -> wf a -> (forall vs, ts = TList vs -> NoDup (map fst vs)) ->
  chosen_thresholds name ts a d = Ok c ->
  wf c /\ (forall e, listed ts d e -> get c e = threshold_used ts th a e) /\ (~ In d time_dims -> dget (dims c) d = dget (dims th) d).
Proof.
  intros Ht W Wa HL H. destruct ts as [vs|arr|ds]; cbn [chosen_thresholds thresholds_for listed threshold_used] in *.
  - injection H as <-. destruct Ht as (Hd & _ & Hv). split; [apply wf_threshold_array; eauto|]. split.
    + intros e He. destruct (@dget label val _ vs (e d)) as [v|] eqn:E; [|apply dget_None in E; contradiction].
      cbn [threshold_array get]. rewrite E. symmetry. eapply Hv; eauto.
    + intros _. now rewrite Hd.
  - subst arr. destruct (select_spec th a c W Wa H) as (W' & Hg & Hd). split; [exact W'|]. split; [intros e _; apply Hg|apply Hd].
  - unfold dgetE in H. rewrite Ht in H. cbn [bind] in H. destruct (select_spec th a c W Wa H) as (W' & Hg & Hd). split; [exact W'|]. split; [intros e _; apply Hg|apply Hd].
Qed.

Lemma neighbours_NoDup {A} (ls : list A) : NoDup ls -> NoDup (neighbours ls).
Proof.
  induction ls as [|x ls IH]; intros H; [constructor|]. inversion H as [|? ? Hn HN]; subst. destruct ls as [|y ls]; [constructor|]. change (neighbours (x :: y :: ls)) with ((x, y) :: neighbours (y :: ls)). constructor; [|now apply IH].
  intros K. change (In (x, y) (neighbours (y :: ls))) in K. rewrite <- consecutive_neighbours in K. apply consecutive_In in K. tauto.
Qed.
Lemma names_NoDup str2f labels : NoDup labels -> names_distinct str2f labels -> NoDup (map (fun lr => bin_name str2f (fst lr) (snd lr)) (neighbours labels)).
Proof.
  intros HN Hd. assert (forall l, incl l (neighbours labels) -> NoDup l -> NoDup (map (fun lr => bin_name str2f (fst lr) (snd lr)) l)) as G.
  { induction l as [|[a b] l IH]; intros Hi HNl; cbn [map]; [constructor|]. inversion HNl as [|? ? Hn HN']; subst. constructor; [|apply IH; [intros z Hz; apply Hi; now right|exact HN']].
    intros K. apply in_map_iff in K. destruct K as ([a' b'] & E & Hin). cbn [fst snd] in E. unfold bin_name in E. injection E as E.
    destruct (Hd a' b' a b) as [-> ->]; [apply consecutive_neighbours, Hi; now right|apply consecutive_neighbours, Hi; now left|exact E|]. contradiction. }
  apply G; [apply incl_refl|now apply neighbours_NoDup].
Qed.
Lemma telescope (c : label -> R) l0 ls : rsum (map (fun lr => c (snd lr) - c (fst lr)) (neighbours (l0 :: ls))) = c (last (l0 :: ls) l0) - c l0.
Proof.
  revert l0. induction ls as [|l1 ls IH]; intros l0; [cbn; lra|]. change (neighbours (l0 :: l1 :: ls)) with ((l0, l1) :: neighbours (l1 :: ls)). rewrite map_cons. cbn [fst snd].
  change (rsum ((c l1 - c l0) :: map (fun lr => c (snd lr) - c (fst lr)) (neighbours (l1 :: ls)))) with ((c l1 - c l0) + rsum (map (fun lr => c (snd lr) - c (fst lr)) (neighbours (l1 :: ls)))).
  rewrite IH. assert (last (l1 :: ls) l1 = last (l1 :: ls) l0) as E.
  { clear. revert l1. induction ls as [|l2 ls IH]; intros l1; [reflexivity|]. change (last (l2 :: ls) l1 = last (l2 :: ls) l0). 
    assert (forall d d' (m : label) ms, last (m :: ms) d = last (m :: ms) d') as K by (intros d d' m ms; revert m; induction ms as [|m' ms IHm]; intros m; [reflexivity|]; apply IHm). apply K. }
  change (last (l0 :: l1 :: ls) l0) with (last (l1 :: ls) l0). rewrite E. lra.
Qed.
Lemma vleb_trans_neg x a b : isnan x = false -> vltb a b = true -> vsub (b2v (vleb x b)) (b2v (vleb x a)) = b2v (vltb a x && vleb x b).
Proof.
  intros Hx Hab. assert (vleb x a = negb (vltb a x)) as E.
  { destruct x as [x| | |], a as [a| | |]; cbn in *; try discriminate; try reflexivity. unfold vleb. cbn.
    destruct (Rltb x a) eqn:B1; cbn [orb]; [apply Rltb_true in B1; assert (Rltb a x = false) as -> by (apply Rltb_false; lra); reflexivity|].
    apply Rltb_false in B1. destruct (Reqb x a) eqn:B2; [apply Reqb_true in B2; subst; assert (Rltb a a = false) as -> by (apply Rltb_false; lra); reflexivity|].
    apply Reqb_false in B2. assert (Rltb a x = true) as -> by (apply Rltb_true; lra). reflexivity. }
  rewrite E. assert (vltb a x = false -> vleb x b = true) as K.
  { destruct x as [x| | |], a as [a| | |], b as [b| | |]; cbn in *; try discriminate; try reflexivity. unfold vleb. cbn. intros H. apply Rltb_false in H. apply Rltb_true in Hab.
    assert (Rltb x b = true) as -> by (apply Rltb_true; lra). reflexivity. }
  destruct (vltb a x); cbn [negb andb].
  - destruct (vleb x b); unfold b2v, vsub; cbn [vneg vadd]; f_equal; lra.
  - rewrite K by reflexivity. unfold b2v, vsub; cbn [vneg vadd]. f_equal. lra.
Qed.
Lemma dget_map_const (N : list label) (ds : dimlist) d n :
  dget (map (fun p => if eqb (fst p) d then (fst p, N) else p) ds) n = match dget ds n with Some l => Some (if eqb n d then N else l) | None => None end.
Proof. exact (dget_map_at (fun _ => N) ds d n). Qed.
Lemma names_map_const (N : list label) (ds : dimlist) d : map fst (map (fun p => if eqb (fst p) d then (fst p, N) else p) ds) = map fst ds.
Proof. exact (names_map_at (fun _ => N) ds d). Qed.
