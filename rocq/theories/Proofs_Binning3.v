(** Proofs for bins by intervals, values and sets. *)
From Coq Require Import String ZArith QArith Qround Qcanon Bool List Lia Lqa Sorting.Sorted.
Import ListNotations.
From Verif Require Import Prelude Values Model_XArray Spec_XArray Proofs_XArray Model_Deterministic Model_Aggregation
  Model_Binning Spec_Binning Proofs_AggState Proofs_Beam9 Proofs_Binning Proofs_Binning2.
From Coq Require Import Reals.
Local Open Scope string_scope.
Local Open Scope list_scope.

(** ** Consecutive pairs *)
Lemma pairs_fst {A} (l : list A) : map fst (pairs l) = removelast l.
Proof. induction l as [|a [|b l] IH]; auto. change (pairs (a :: b :: l)) with ((a, b) :: pairs (b :: l)). cbn [map fst]. rewrite IH. reflexivity. Qed.
Lemma pairs_nth {A} (l : list A) i a b : nth_error l i = Some a -> nth_error l (S i) = Some b -> In (a, b) (pairs l).
Proof.
  revert i. induction l as [|x [|y l] IH]; intros i H1 H2; [destruct i; discriminate|destruct i as [|[|i]]; discriminate|].
  change (pairs (x :: y :: l)) with ((x, y) :: pairs (y :: l)). destruct i.
  - cbn in H1, H2. injection H1 as <-. injection H2 as <-. left. auto.
  - right. apply (IH i); auto.
Qed.
Lemma pairs_In {A} (l : list A) a b : In (a, b) (pairs l) -> exists i, nth_error l i = Some a /\ nth_error l (S i) = Some b.
Proof.
  induction l as [|x [|y l] IH]; intros H; [destruct H|destruct H|].
  change (pairs (x :: y :: l)) with ((x, y) :: pairs (y :: l)) in H. destruct H as [[= <- <-]|H].
  - exists 0%nat. auto.
  - destruct (IH H) as (i & A1 & A2). exists (S i). auto.
Qed.

(** ** ByCoordBins *)
Definition coord_bin_parts (f : env -> label) (lab : label -> label) (edges : list label) : list (label * (env -> bool)) :=
  map (fun ab => (lab (fst ab), fun e => Qle_bool (lnum (fst ab)) (lnum (f e)) && Qltb (lnum (f e)) (lnum (snd ab)))) (pairs edges).
Definition glob (g : bool) : list (label * (env -> bool)) := if g then [(LS "global", fun _ => true)] else [].
Lemma glob_fst g : map fst (glob g) = glob_labels g.
Proof. destruct g; reflexivity. Qed.
Lemma glob_only ds g : Forall (fun p : label * (env -> bool) => only ds (snd p)) (glob g).
Proof. destruct g; repeat constructor. Qed.

Lemma coord_bins_create fmt name edges g st :
  create_bin_mask (ByCoordBins fmt name edges g) st =
  match coord_array st name with
  | None => Err KeyError
  | Some c =>
      match coord_bin_parts (snd c) (bin_label fmt g) edges ++ glob g with
      | [] => stack_parts name (dims st) []
      | ps => stack name (fst c) ps
      end
  end.
Proof.
  unfold ByCoordBins, get_coord. cbn [create_bin_mask]. destruct (coord_array st name) as [[ds f]|]; auto. cbn [bind snd fst].
  unfold coord_bin_parts, glob, bin_label. destruct (map _ _ ++ _); reflexivity.
Qed.

Lemma coord_bins_spec fmt name edges g st m : wf st ->
  NoDup (map (bin_label fmt g) (removelast edges) ++ glob_labels g) ->
  create_bin_mask (ByCoordBins fmt name edges g) st = Ok m ->
  mask_for st m name (map (bin_label fmt g) (removelast edges) ++ glob_labels g) /\
  (coords_local st -> forall a b qa qb e x, In (a, b) (pairs edges) -> is_number a qa -> is_number b qb -> number_at st name e x ->
     shows (in_bin m name (bin_label fmt g a) e) (qa <= x < qb)%Q) /\
  (g = true -> forall e, in_bin m name (LS "global") e = Fin 1%R).
Proof.
  intros W N H. rewrite coord_bins_create in H. destruct (coord_array st name) as [[ds f]|] eqn:E; [|discriminate]. cbn [fst snd] in H.
  pose proof (coord_array_ok _ _ _ _ W E) as C.
  set (ps := coord_bin_parts f (bin_label fmt g) edges ++ glob g) in *.
  assert (map fst ps = map (bin_label fmt g) (removelast edges) ++ glob_labels g) as El.
  { unfold ps. rewrite map_app, glob_fst. f_equal. unfold coord_bin_parts. rewrite map_map. cbn [fst]. rewrite <- (map_map fst), pairs_fst. reflexivity. }
  destruct ps as [|p0 pr] eqn:Ep.
  - cbn [map] in El. rewrite <- El in N. destruct (stack_mask st name (dims st) [] m) as [A B]; auto.
    { intros q Hq; exact Hq. } { apply W. }
    cbn [map] in A. rewrite <- El. split; auto. unfold ps in Ep. apply app_eq_nil in Ep. destruct Ep as [Ep1 Ep2]. split.
    + intros _ a b qa qb e x I. apply (in_map (fun ab => (bin_label fmt g (fst ab), fun e => Qle_bool (lnum (fst ab)) (lnum (f e)) && Qltb (lnum (f e)) (lnum (snd ab))))) in I.
      fold (coord_bin_parts f (bin_label fmt g) edges) in I. rewrite Ep1 in I. destruct I.
    + intros ->. discriminate.
  - rewrite <- Ep in *. clear Ep p0 pr. apply stack_Ok in H. destruct H as [_ H].
    destruct (bits_mask st name ds ps m) as [A B]; auto; try apply C; [rewrite El; auto| |].
    { unfold ps. apply Forall_app. split; [|apply glob_only]. unfold coord_bin_parts. apply Forall_map. apply Forall_forall. intros ab _.
      cbn [snd]. intros e e' He. rewrite (co_only _ _ _ _ C e e' He). reflexivity. }
    rewrite El in A. split; auto. split.
    + intros L a b qa qb e x I Ha Hb Hx.
      assert (In (bin_label fmt g a, fun e => Qle_bool (lnum a) (lnum (f e)) && Qltb (lnum (f e)) (lnum b)) ps) as Ip.
      { unfold ps. apply in_app_iff. left.
        apply (in_map (fun ab => (bin_label fmt g (fst ab), fun e => Qle_bool (lnum (fst ab)) (lnum (f e)) && Qltb (lnum (f e)) (lnum (snd ab)))) _ _ I). }
      rewrite (B _ _ e Ip). apply shows_b2v. rewrite (coord_number _ _ _ _ e x C L Hx).
      apply is_number_lnum in Ha, Hb. rewrite Ha, Hb, andb_true_iff, Qle_bool_true, Qltb_true. tauto.
    + intros Hg e. rewrite (B (LS "global") (fun _ => true)); auto. unfold ps, glob. rewrite Hg. apply in_app_iff. right. left. auto.
Qed.

Lemma coord_bins_ok fmt name edges g st : wf st ->
  ((exists m, create_bin_mask (ByCoordBins fmt name edges g) st = Ok m) <-> has_coord st name /\ ~ In name (dnames st)).
Proof.
  intros W. rewrite coord_bins_create, has_coord_iff. destruct (coord_array st name) as [[ds f]|] eqn:E; cbn [fst snd].
  2:{ split; [intros [m H]; discriminate|intros ((c & H) & _); discriminate]. }
  pose proof (coord_array_ok _ _ _ _ W E) as C.
  assert (In name (map fst ds) <-> In name (dnames st)) as A.
  { split; [|intros; eapply coord_array_dim; eauto]. intros I. apply in_map_iff in I. destruct I as (q & <- & I). apply in_map, (co_sub _ _ _ _ C), I. }
  destruct (coord_bin_parts f (bin_label fmt g) edges ++ glob g) as [|p ps].
  - rewrite stack_parts_iff. unfold dnames. split; [intros H; split; eauto|tauto].
  - unfold stack. rewrite stack_parts_iff, A. split; [intros H; split; eauto|tauto].
Qed.

Lemma is_number_fun a p q : is_number a p -> is_number a q -> p = q.
Proof. intros H1 H2. apply is_number_lnum in H1, H2. congruence. Qed.

(** Sorted edges: the interval a number is in. *)
Lemma sorted_edges edges qs x : Forall2 is_number edges qs -> StronglySorted Qlt qs ->
  forall q0 q1, hd_error qs = Some q0 -> last qs q0 = q1 -> (q0 <= x < q1)%Q ->
  exists a b pa pb, In (a, b) (pairs edges) /\ is_number a pa /\ is_number b pb /\ (pa <= x < pb)%Q.
Proof.
  intros F. induction F as [|a qa l ql Ha F IH]; intros S q0 q1 H0 H1 Hx; [discriminate|].
  cbn in H0. injection H0 as <-. inversion S as [|? ? S' SF]; subst.
  destruct F as [|b qb l ql Hb F]; [cbn in Hx; lra|].
  destruct (Qlt_le_dec x qb) as [C|C].
  - exists a, b, qa, qb. split; [left; auto|]. split; auto. split; auto. lra.
  - destruct (IH S' qb (last (qb :: ql) qb) eq_refl eq_refl) as (a' & b' & pa & pb & I & R).
    + split; auto. change (last (qa :: qb :: ql) qa) with (last (qb :: ql) qa) in Hx.
      assert (forall l (y z : Q), last (qb :: l) y = last (qb :: l) z) as LL. { clear. intros l. induction l as [|a l IH]; intros; auto. destruct l; auto. apply (IH y z). }
      rewrite (LL ql qb qa). lra.
    + exists a', b', pa, pb. split; auto. right. auto.
Qed.

Lemma sorted_pairs edges qs : Forall2 is_number edges qs -> StronglySorted Qlt qs -> forall q0 q1, hd_error qs = Some q0 -> last qs q0 = q1 ->
  forall a b pa pb, In (a, b) (pairs edges) -> is_number a pa -> is_number b pb -> (q0 <= pa /\ pa < pb /\ pb <= q1)%Q.
Proof.
  intros F. induction F as [|a0 qa l ql Ha F IH]; intros S q0 q1 H0 H1 a b pa pb I Na Nb; [discriminate|].
  cbn in H0. injection H0 as <-. inversion S as [|? ? S' SF]; subst.
  destruct F as [|b0 qb l ql Hb F]; [destruct I|].
  assert (forall l (y z : Q), last (qb :: l) y = last (qb :: l) z) as LL. { clear. intros l. induction l as [|a l IH]; intros; auto. destruct l; auto. apply (IH y z). }
  change (last (qa :: qb :: ql) qa) with (last (qb :: ql) qa). rewrite (LL ql qa qb).
  inversion SF; subst.
  assert (qb <= last (qb :: ql) qb)%Q as LE.
  { inversion S' as [|? ? _ SF']; subst. destruct ql as [|q2 ql]; [cbn; lra|]. rewrite Forall_forall in SF'.
    change (last (qb :: q2 :: ql) qb) with (last (q2 :: ql) qb). assert (In (last (q2 :: ql) qb) (q2 :: ql)) as I2.
    { clear. revert q2. induction ql as [|a l IH]; intros q2; [left; auto|]. right. apply (IH a). }
    apply SF' in I2. lra. }
  change (pairs (a0 :: b0 :: l)) with ((a0, b0) :: pairs (b0 :: l)) in I. destruct I as [[= <- <-]|I].
  - rewrite (is_number_fun _ _ _ Na Ha), (is_number_fun _ _ _ Nb Hb). lra.
  - destruct (IH S' qb _ eq_refl eq_refl a b pa pb I Na Nb) as (A & B & C). lra.
Qed.

Lemma sorted_disjoint edges qs : Forall2 is_number edges qs -> StronglySorted Qlt qs ->
  forall a b pa pb a' b' pa' pb' x, In (a, b) (pairs edges) -> is_number a pa -> is_number b pb -> (pa <= x < pb)%Q ->
  In (a', b') (pairs edges) -> is_number a' pa' -> is_number b' pb' -> (pa' <= x < pb')%Q -> a = a'.
Proof.
  intros F. induction F as [|a0 qa l ql Ha F IH]; intros S a b pa pb a' b' pa' pb' x I Na Nb Hx I' Na' Nb' Hx'; [destruct I|].
  inversion S as [|? ? S' SF]; subst.
  pose proof F as F0. destruct F as [|b0 qb l ql Hb F]; [destruct I|].
  pose proof (sorted_pairs _ _ F0 S' qb _ eq_refl eq_refl) as SP.
  change (pairs (a0 :: b0 :: l)) with ((a0, b0) :: pairs (b0 :: l)) in I, I'.
  destruct I as [E|I], I' as [E'|I'].
  - congruence.
  - injection E as <- <-. pose proof (is_number_fun _ _ _ Nb Hb). subst pb. destruct (SP _ _ _ _ I' Na' Nb') as (A & _). lra.
  - injection E' as <- <-. pose proof (is_number_fun _ _ _ Nb' Hb). subst pb'. destruct (SP _ _ _ _ I Na Nb) as (A & _). lra.
  - eapply (IH S' a b pa pb a' b' pa' pb' x); eauto.
Qed.

Lemma sorted_NoDup edges qs : Forall2 is_number edges qs -> StronglySorted Qlt qs -> NoDup edges.
Proof.
  intros F. induction F as [|a qa l ql Ha F IH]; intros S; constructor; inversion S as [|? ? S' SF]; subst; auto.
  intros I. assert (exists q, In q ql /\ is_number a q) as (q & Iq & Hq).
  { clear -F I. induction F as [|b qb l ql Hb F IH]; [destruct I|]. destruct I as [->|I]; [exists qb; split; [left|]; auto|].
    destruct (IH I) as (q & ? & ?). exists q. split; [right|]; auto. }
  rewrite Forall_forall in SF. apply SF in Iq. rewrite (is_number_fun _ _ _ Hq Ha) in Iq. lra.
Qed.
Lemma NoDup_removelast {A} (l : list A) : NoDup l -> NoDup (removelast l).
Proof.
  intros N. destruct l as [|a l] using rev_ind; auto. rewrite removelast_last. apply NoDup_app_l in N. auto.
Qed.
Lemma pairs_of_removelast {A} (l : list A) a : In a (removelast l) -> exists b, In (a, b) (pairs l).
Proof. rewrite <- pairs_fst. intros I. apply in_map_iff in I. destruct I as ([x b] & <- & I). eauto. Qed.
