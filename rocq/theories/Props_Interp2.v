(** C47, continued: wrapped longitudes, several dimensions, cropping and subsampling. *)
From Coq Require Import String ZArith QArith Qreals Qcanon Bool List Sorted Permutation Lia.
Import ListNotations.
From Verif Require Import Prelude Values Model_XArray Spec_XArray Proofs_XArray Model_Tree Proofs_Tree Model_MetricsBase Model_Deterministic Proofs_Baseline Model_Binning
  Proofs_Ensemble2 Model_Interp Spec_Interp Proofs_Interp Props_Interp.
From Coq Require Import Reals Lra.
Local Open Scope R_scope.
Local Open Scope string_scope.
Local Open Scope list_scope.

(** With wrap_longitude, positions between the last longitude and the first one a full circle later
    are interpolated between the values there, on both sides; positions between two longitudes as
    without wrapping. *)
Theorem C47_wrapped : forall name (t : target) ext a ref first rest,
  let ls := first :: rest in let last_ := last rest first in
  wf a -> dget (dims a) "longitude" = Some ls -> numeric ls -> ascending ls -> number last_ - number first < 360 ->
  exists out, InterpolateToFixedCoords Linear [("longitude", t)] true ext name a ref = Ok out /\
  forall e, numeric [t_get t e] -> let x := number (t_get t e) in
    (forall yl yf, get a (upd e "longitude" last_) = Fin yl -> get a (upd e "longitude" first) = Fin yf ->
       (number last_ < x <= number first + 360 -> get out e = Fin (on_line (number last_) yl (number first + 360) yf x)) /\
       (number last_ - 360 < x <= number first -> get out e = Fin (on_line (number last_ - 360) yl (number first) yf x))) /\
    (forall l1 l2 y1 y2, encloses ls l1 l2 x -> number l1 < x -> get a (upd e "longitude" l1) = Fin y1 -> get a (upd e "longitude" l2) = Fin y2 ->
       get out e = Fin (on_line (number l1) y1 (number l2) y2 x)).
Proof.
  intros name t ext a ref first rest ls last_ W D Nu S Sp.
  destruct (C47_pad_longitude a first rest W D Nu S Sp) as (b & before & after & Eb & Wb & Vb & Va & Db & Sb & Nb & _ & _ & G).
  fold ls in Db, Sb, Nb, G. fold last_ in Vb, G. pose proof (ascending_distinct _ Sb) as Di.
  destruct (C47_linear name "longitude" t ext b ref _ Wb Db Nb Di) as (out & Eo & K).
  exists out. split. { unfold InterpolateToFixedCoords in *. rewrite Eb. exact Eo. }
  assert (last ls first = last_) as El. { unfold ls, last_. destruct rest; reflexivity. }
  assert (In last_ ls) as Il. { rewrite <- El. apply last_In. discriminate. }
  assert (forall l, In l ls -> number first <= number l <= number last_) as B.
  { intros l Hl. split.
    - destruct Hl as [<-|Hl]; [lra|]. apply StronglySorted_inv in S. destruct S as [_ F]. rewrite Forall_forall in F. left. now apply F.
    - rewrite <- El. now apply (ascending_last ls first). }
  assert (forall l, In l (before :: ls ++ [after]) <-> l = before \/ In l ls \/ l = after) as M.
  { intros l. cbn [In]. rewrite in_app_iff. cbn [In]. intuition. }
  assert (number first <= number last_) as Fl by (destruct (B last_ Il); lra).
  intros e Ne x. destruct (K e Ne) as (K1 & _ & _). fold x in K1.
  assert (forall l, In l ls -> get b (upd e "longitude" l) = get a (upd e "longitude" l)) as Gi.
  { intros l Hl. destruct (G (upd e "longitude" l)) as [G1 _]. apply G1. now rewrite upd_same. }
  destruct (G e) as (_ & G2 & G3). split.
  - intros yl yf El' Ef. split; intros X.
    + rewrite <- Va. apply (K1 last_ after); auto; [|lra|rewrite Gi by auto; exact El'|now rewrite G3].
      split; [apply M; auto|]. split; [apply M; auto|]. split; [lra|]. split; [lra|]. intros l Hl. apply M in Hl. destruct Hl as [->|[Hl| ->]]; [lra| |lra]. specialize (B l Hl). lra.
    + rewrite <- Vb. apply (K1 before first); auto; [|lra|now rewrite G2|rewrite Gi by (now left); exact Ef].
      split; [apply M; auto|]. split; [apply M; right; left; now left|]. split; [lra|]. split; [lra|]. intros l Hl. apply M in Hl. destruct Hl as [->|[Hl| ->]]; [lra| |lra]. specialize (B l Hl). lra.
  - intros l1 l2 y1 y2 (I1 & I2 & Lt & T & Bt) Lx E1 E2. apply (K1 l1 l2); auto; [|rewrite Gi by auto; exact E1|rewrite Gi by auto; exact E2].
    split; [apply M; auto|]. split; [apply M; auto|]. split; [exact Lt|]. split; [exact T|]. intros l Hl. apply M in Hl. pose proof (B l1 I1). pose proof (B l2 I2). destruct Hl as [->|[Hl| ->]]; [lra|auto|lra].
Qed.
Print Assumptions C47_wrapped.

(** ** Several dimensions *)
Definition convex (C : R -> Prop) : Prop := forall x y w, C x -> C y -> 0 <= w <= 1 -> C (x + w * (y - x)).
Lemma on_line_convex C x1 y1 x2 y2 t : convex C -> C y1 -> C y2 -> x1 < x2 -> x1 <= t <= x2 -> C (on_line x1 y1 x2 y2 t).
Proof.
  intros H H1 H2 L T. unfold on_line. apply H; auto. split; [apply Rmult_le_pos; [lra|]; left; apply Rinv_0_lt_compat; lra|].
  apply (Rmult_le_reg_r (x2 - x1)); [lra|]. unfold Rdiv. rewrite Rmult_assoc, Rinv_l by lra. lra.
Qed.
Lemma keep_In p (ds : dimlist) k m : In (k, m) (keep p ds) <-> In (k, m) ds /\ p k = true.
Proof. unfold keep. rewrite filter_In. reflexivity. Qed.
Lemma kept_name (ds : dimlist) d k : In k (map fst (keep (fun k => negb (eqb k d)) ds)) <-> In k (map fst ds) /\ k <> d.
Proof.
  split.
  - intros H. apply in_map_iff in H. destruct H as ([k' m] & <- & H). apply keep_In in H. destruct H as [H N]. cbn [fst]. split; [apply in_map_iff; now exists (k', m)|].
    apply negb_true_iff, eqb_false_iff in N. exact N.
  - intros [H N]. apply in_map_iff in H. destruct H as ([k' m] & <- & H). apply in_map_iff. exists (k', m). split; [reflexivity|]. apply keep_In. split; [exact H|]. apply negb_true_iff, eqb_false_iff. exact N.
Qed.
(** The dimensions after one step. *)
Definition next_dims (a : da) (d : string) (t : target) : dimlist :=
  let kept := keep (fun k => negb (eqb k d)) (dims a) in kept ++ keep (fun k => negb (memb k (map fst kept))) (t_dims t).
Lemma next_dims_In a d t k m : In (k, m) (next_dims a d t) <->
  (In (k, m) (dims a) /\ k <> d) \/ (In (k, m) (t_dims t) /\ ~ (In k (dnames a) /\ k <> d)).
Proof.
  unfold next_dims. cbv zeta. rewrite in_app_iff, !keep_In.
  assert (negb (eqb k d) = true <-> k <> d) as -> by (rewrite negb_true_iff; apply eqb_false_iff).
  assert (negb (memb k (map fst (keep (fun k => negb (eqb k d)) (dims a)))) = true <-> ~ (In k (dnames a) /\ k <> d)) as ->; [|tauto].
  rewrite negb_true_iff, memb_false, kept_name. reflexivity.
Qed.
Lemma NoDup_next a d t : NoDup (dnames a) -> NoDup (map fst (t_dims t)) -> NoDup (map fst (next_dims a d t)).
Proof.
  intros W Nt. unfold next_dims. cbv zeta. rewrite map_app. set (kept := keep (fun k => negb (eqb k d)) (dims a)).
  assert (NoDup (map fst kept)) as Nk by (now apply keep_NoDup).
  assert (NoDup (map fst (keep (fun k => negb (memb k (map fst kept))) (t_dims t)))) as Nt' by (now apply keep_NoDup).
  assert (forall k, In k (map fst kept) -> ~ In k (map fst (keep (fun k => negb (memb k (map fst kept))) (t_dims t)))) as Dj.
  { intros k Hk H. apply in_map_iff in H. destruct H as ([k' m] & <- & H). apply keep_In in H. destruct H as [_ H]. apply negb_true_iff, memb_false in H. contradiction. }
  revert Nk Nt' Dj. generalize (map fst (keep (fun k => negb (memb k (map fst kept))) (t_dims t))). generalize (map fst kept). clear. intros xs0 ys Nk Nt' Dj. induction xs0 as [|x xs IH]; [exact Nt'|]. inversion Nk as [|? ? Nx Nxs]; subst. cbn [app]. constructor.
  - rewrite in_app_iff. intros [H|H]; [contradiction|]. apply (Dj x); [now left|exact H].
  - apply IH; auto. intros k Hk. apply Dj. now right.
Qed.

(** Interpolation of an array with values in a convex set along one dimension, at points where the
    target is in range. *)
Lemma step_values C d t ext a ls : convex C -> NoDup (dnames a) -> dget (dims a) d = Some ls -> NoDup ls -> distinct ls -> (2 <= length ls)%nat ->
  values_in C a -> forall e, (forall k m, In (k, m) (dims a) -> k <> d -> In (e k) m) -> numeric [t_get t e] -> in_range ls (number (t_get t e)) ->
  let v := interp1 Linear ext (points_along d a e) (coord_val (t_get t e)) in
  (exists y, v = Fin y /\ C y) /\ forall l, In l ls -> number l = number (t_get t e) -> v = get a (upd e d l).
Proof.
  intros HC Na D N Di Len V e P Nu R v. assert (v = interp1 Linear ext (points_along d a e) (Fin (number (t_get t e)))) as Ev.
  { unfold v. rewrite coord_val_number; [reflexivity|]. apply is_numeric_iff, Nu. now left. }
  set (x := number (t_get t e)) in *. rewrite Ev. clear v Ev.
  assert (forall l, In l ls -> exists y, get a (upd e d l) = Fin y /\ C y) as Vl.
  { intros l Hl. apply V. intros k m Hk. destruct (string_dec k d) as [->|Nk].
    - rewrite upd_same. assert (dget (dims a) d = Some m) as Q by (now apply In_dget). congruence.
    - rewrite upd_other by auto. now apply P. }
  destruct (enclosing ls N Di x R) as [(l1 & l2 & En & Cs)|(l & -> & _)]; [|cbn in Len; lia].
  assert (interp1 Linear ext (points_along d a e) (Fin x) = line (point_at d a e l1) (point_at d a e l2) x) as ->.
  { destruct Cs as [Cs|[C1 C2]]; [now apply (interp_linear d a ls)|now apply (interp_linear_first d a ls)]. }
  destruct En as (I1 & I2 & Lt & T & B). destruct (Vl l1 I1) as (y1 & E1 & H1). destruct (Vl l2 I2) as (y2 & E2 & H2).
  unfold point_at. rewrite E1, E2, line_Fin by exact Lt. split.
  - exists (on_line (number l1) y1 (number l2) y2 x). split; [reflexivity|]. now apply on_line_convex.
  - intros l I El. destruct (B l I) as [Q|Q].
    + assert (l = l1) as -> by (apply Di; auto; lra). rewrite E1. f_equal. unfold on_line. rewrite <- El. field. lra.
    + assert (l = l2) as -> by (apply Di; auto; lra). rewrite E2. f_equal. unfold on_line. rewrite <- El. field. lra.
Qed.

(** Linear interpolation along any number of dimensions, to the points of a grid or to single
    points: if the targets are in range, every value is finite and within any interval (or other
    convex set) that contains the values of the array; and at targets that are grid points it is
    the value of the array there. *)
Lemma several_dims ext G : forall args a,
  NoDup (dnames a) -> target_grid args a G -> targets_inside args a -> (forall d t ls, In (d, t) args -> dget (dims a) d = Some ls -> NoDup ls) ->
  exists out, interpolate_to_coords a args Linear ext = Ok out /\
  (forall k m, In (k, m) (dims out) -> (In (k, m) (dims a) /\ ~ In k (map fst args)) \/ In (k, m) G) /\
  (forall k m, In (k, m) (dims a) -> ~ In k (map fst args) -> In (k, m) (dims out)) /\
  forall C, convex C -> values_in C a -> values_in C out /\
    forall e g, point_of (dims out) e -> (forall d t, In (d, t) args -> In (g d) (labels_of (dims a) d) /\ number (g d) = number (t_get t e)) -> get out e = get a (at_labels args g e).
Proof.
  induction args as [|[d t] args IH]; intros a Na TG TI NL.
  - exists a. split; [reflexivity|]. split; [intros k m H; left; split; [exact H|intros []]|]. split; [auto|]. intros C HC V. split; [exact V|]. intros e g _ _. reflexivity.
  - destruct TG as (Nargs & NG & Ht & Hs). cbn [map fst] in Nargs. inversion Nargs as [|? ? Nd Nargs']; subst.
    destruct (TI d t (or_introl eq_refl)) as (ls & D & Nu & Di & Len & Rng). destruct (Ht d t (or_introl eq_refl)) as (It & Nt & Ot & Lt).
    destruct (interp_dim_Ok Linear ext d t a ls D Nu) as (a1 & E1 & D1 & G1). change (dims a1 = next_dims a d t) in D1.
    pose proof (NL d t ls (or_introl eq_refl) D) as Nls.
    assert (NoDup (dnames a1)) as Na1. { unfold dnames. rewrite D1. now apply NoDup_next. }
    assert (forall d' ls', d' <> d -> dget (dims a) d' = Some ls' -> dget (dims a1) d' = Some ls') as Keep.
    { intros d' ls' Nd' H. apply In_dget; [exact Na1|]. rewrite D1. apply next_dims_In. left. split; [now apply dget_In|exact Nd']. }
    assert (forall d' t', In (d', t') args -> d' <> d) as Other. { intros d' t' H ->. apply Nd. apply in_map_iff. now exists (d, t'). }
    assert (forall k m, In (k, m) (dims a1) -> (In (k, m) (dims a) /\ k <> d) \/ In (k, m) G) as From.
    { intros k m H. rewrite D1 in H. apply next_dims_In in H. destruct H as [[H1 H2]|[H1 H2]]; [now left|]. right. now apply It. }
    destruct (IH a1) as (out & Eo & Dfrom & Dto & K).
    + exact Na1.
    + split; [exact Nargs'|]. split; [exact NG|]. split.
      * intros d' t' H. destruct (Ht d' t' (or_intror H)) as (A1 & A2 & A3 & A4). split; [exact A1|]. split; [exact A2|]. split; [|exact A4]. intros d'' H'' N''. apply A3; [now right|exact N''].
      * intros k m m' H Nk Hm. destruct (From k m H) as [[H1 H2]|H1].
        -- apply (Hs k m m' H1); [|exact Hm]. cbn [map fst]. intros [<-|I]; [congruence|contradiction].
        -- assert (dget G k = Some m) as Q1 by (now apply In_dget). assert (dget G k = Some m') as Q2 by (now apply In_dget). congruence.
    + intros d' t' H. destruct (TI d' t' (or_intror H)) as (ls' & A1 & A2). exists ls'. split; [|exact A2]. apply Keep; [eapply Other; eauto|exact A1].
    + intros d' t' ls' H H'. destruct (TI d' t' (or_intror H)) as (ls'' & A1 & _). pose proof (Keep d' ls'' (Other _ _ H) A1) as Q. assert (ls'' = ls') as -> by congruence. exact (NL d' t' ls' (or_intror H) A1).
    + exists out. split. { cbn [interpolate_to_coords]. rewrite E1. exact Eo. }
      split. { intros k m H. destruct (Dfrom k m H) as [[H1 H2]|H1]; [|now right]. destruct (From k m H1) as [[H3 H4]|H3]; [|now right]. left. split; [exact H3|]. cbn [map fst]. intros [<-|I]; [congruence|contradiction]. }
      split. { intros k m H Nk. cbn [map fst] in Nk. apply Dto; [|intros I; apply Nk; now right]. rewrite D1. apply next_dims_In. left. split; [exact H|]. intros ->. apply Nk. now left. }
      intros C HC V.
      (* at every point of a1 the target is in range *)
      assert (forall e, point_of (dims a1) e -> point_of (t_dims t) e) as Pt.
      { intros e P k m H. destruct (in_dec string_dec k (dnames a)) as [Ik|Ik].
        - destruct (string_dec k d) as [->|Nk]; [apply (P d m); rewrite D1; apply next_dims_In; right; split; [exact H|intros [_ Q]; congruence]|].
          assert (~ In k (map fst ((d, t) :: args))) as Nk'. { cbn [map fst]. intros [<-|I]; [congruence|]. apply (Ot k); [now right|exact Nk|]. apply in_map_iff. now exists (k, m). }
          apply in_map_iff in Ik. destruct Ik as ([k' m'] & <- & Ik). cbn [fst] in *. assert (m' = m) as -> by (apply (Hs k' m' m Ik Nk'); now apply It). apply (P k' m). rewrite D1. apply next_dims_In. now left.
        - apply (P k m). rewrite D1. apply next_dims_In. right. split; [exact H|]. intros [Q _]. contradiction. }
      assert (forall e, point_of (dims a1) e -> forall k m, In (k, m) (dims a) -> k <> d -> In (e k) m) as Pa.
      { intros e P k m H Nk. apply (P k m). rewrite D1. apply next_dims_In. now left. }
      assert (forall e, point_of (dims a1) e -> (exists y, get a1 e = Fin y /\ C y) /\ forall l, In l ls -> number l = number (t_get t e) -> get a1 e = get a (upd e d l)) as Step.
      { intros e P. destruct (Rng e (Pt e P)) as [Ne Re]. rewrite G1. exact (step_values C d t ext a ls HC Na D Nls Di Len V e (Pa e P) Ne Re). }
      destruct (K C HC) as [K1 K2]. { intros e P. apply Step, P. }
      split; [exact K1|]. intros e g P Hg. rewrite (K2 e g P).
      * set (e1 := at_labels args g e).
        assert (forall k, ~ In k (map fst args) -> e1 k = e k) as Ek. { intros k Hk. unfold e1, at_labels. now rewrite (proj2 (memb_false k (map fst args)) Hk). }
        assert (t_get t e1 = t_get t e) as Et. { apply Lt. intros k Hk. apply Ek. intros I. destruct (string_dec k d) as [->|Nk]; [contradiction|]. apply (Ot k); [now right|exact Nk|exact Hk]. }
        destruct (Hg d t (or_introl eq_refl)) as [Hg1 Hg2]. unfold labels_of in Hg1. rewrite D in Hg1.
        assert (point_of (dims a1) e1) as P1.
        { intros k m H. unfold e1, at_labels. destruct (memb k (map fst args)) eqn:Mk.
          - apply memb_In in Mk. apply in_map_iff in Mk. destruct Mk as ([k' t'] & <- & Mk). cbn [fst] in *. destruct (Hg k' t' (or_intror Mk)) as [Hk _].
            destruct (TI k' t' (or_intror Mk)) as (ls' & A1 & _). unfold labels_of in Hk. rewrite A1 in Hk. pose proof (Keep k' ls' (Other _ _ Mk) A1) as Q.
            assert (dget (dims a1) k' = Some m) as Q' by (now apply In_dget). congruence.
          - apply memb_false in Mk. apply (P k m). now apply Dto. }
        destruct (Step e1 P1) as [_ St]. rewrite (St (g d)); [|exact Hg1|now rewrite Et].
        f_equal. apply FunctionalExtensionality.functional_extensionality. intros k. unfold at_labels. cbn [map fst]. destruct (string_dec k d) as [->|Nk].
        -- rewrite upd_same. assert (memb d (d :: map fst args) = true) as -> by (apply memb_In; now left). reflexivity.
        -- rewrite upd_other by auto. unfold e1, at_labels. assert (memb k (d :: map fst args) = memb k (map fst args)) as ->; [|reflexivity]. apply eq_true_iff_eq. rewrite !memb_In. cbn [In]. split; [intros [Q|Q]; [congruence|exact Q]|auto].
      * intros d' t' H. destruct (Hg d' t' (or_intror H)) as [A1 A2]. split; [|exact A2]. destruct (TI d' t' (or_intror H)) as (ls' & B1 & _). unfold labels_of in *. rewrite B1 in A1. rewrite (Keep d' ls' (Other _ _ H) B1). exact A1.
Qed.

Theorem C47_within_bounds : forall name args ext a ref G lo hi,
  wf a -> target_grid args a G -> targets_inside args a ->
  (forall e, point_of (dims a) e -> exists y, get a e = Fin y /\ lo <= y <= hi) ->
  exists out, InterpolateToFixedCoords Linear args false ext name a ref = Ok out /\
  (forall k m, In (k, m) (dims out) -> (In (k, m) (dims a) /\ ~ In k (map fst args)) \/ In (k, m) G) /\
  (forall k m, In (k, m) (dims a) -> ~ In k (map fst args) -> In (k, m) (dims out)) /\
  forall e, point_of (dims out) e -> exists y, get out e = Fin y /\ lo <= y <= hi.
Proof.
  intros name args ext a ref G lo hi W TG TI V. destruct (several_dims ext G args a) as (out & Eo & D1 & D2 & K); auto; [apply W|intros d t ls _ H; now apply (wf_NoDup_labels a d)|].
  exists out. split; [exact Eo|]. split; [exact D1|]. split; [exact D2|]. destruct (K (fun y => lo <= y <= hi)) as [K1 _]; [|exact V|exact K1].
  intros x y w Hx Hy Hw. nra.
Qed.
Print Assumptions C47_within_bounds.

Theorem C47_exact_at_grid_points : forall name args ext a ref G out e (g : string -> label),
  wf a -> target_grid args a G -> targets_inside args a ->
  (forall e, point_of (dims a) e -> isfin (get a e) = true) ->
  InterpolateToFixedCoords Linear args false ext name a ref = Ok out -> point_of (dims out) e ->
  (forall d t, In (d, t) args -> In (g d) (labels_of (dims a) d) /\ number (g d) = number (t_get t e)) ->
  get out e = get a (at_labels args g e).
Proof.
  intros name args ext a ref G out e g W TG TI V H P Hg. destruct (several_dims ext G args a) as (out' & Eo & _ & _ & K); auto; [apply W|intros d t ls _ H'; now apply (wf_NoDup_labels a d)|].
  assert (out' = out) as -> by (unfold InterpolateToFixedCoords in H; cbn [bind] in H; congruence).
  destruct (K (fun _ => True)) as [_ K2]; [intros x y w; auto|intros e' P'; specialize (V e' P'); destruct (get a e'); try discriminate; eauto|]. now apply K2.
Qed.
Print Assumptions C47_exact_at_grid_points.

(** ** Cropping *)
Lemma sorted_ascendingb ls : StronglySorted (fun a b => number a <= number b) ls -> ascendingb ls = true.
Proof.
  induction 1 as [|x xs S IH F]; [reflexivity|]. cbn [ascendingb]. destruct xs as [|y ys]; [reflexivity|]. rewrite IH, andb_true_r. apply Qle_bool_number. rewrite Forall_forall in F. apply F. now left.
Qed.
Lemma dget_restrict d ls a k : dget (dims (restrict [(d, ls)] a)) k = match dget (dims a) k with Some m => Some (if eqb k d then ls else m) | None => None end.
Proof.
  unfold restrict. cbn [dims]. rewrite <- (dget_mapped (fun _ => ls)). f_equal. apply map_ext. intros [k' m]. cbn [fst snd dget]. destruct (eq_dec k' d) as [->|N]; [now rewrite eqb_refl|].
  now rewrite (proj2 (eqb_false_iff k' d) N).
Qed.
Lemma Qle_bool_R x y : Qle_bool x y = true <-> Q2R x <= Q2R y.
Proof. rewrite Qle_bool_iff. split; [apply Qle_Rle|apply Rle_Qle]. Qed.
Lemma StronglySorted_filter {A} (R : A -> A -> Prop) f l : StronglySorted R l -> StronglySorted R (filter f l).
Proof.
  induction 1 as [|x xs S IH F]; [constructor|]. cbn [filter]. destruct (f x); [|exact IH]. constructor; [exact IH|]. rewrite Forall_forall in *. intros y Hy. apply F. now apply filter_In in Hy.
Qed.

(** Exactly the points within the limits are kept, in ascending order, with their values; both
    limits belong to the box, for latitudes and for longitudes. *)
Theorem C47_crop : forall lat_min lat_max lon_min lon_max,
  (CropToBox lat_min lat_max lon_min lon_max = Err ValueError /\ (Q2R lat_max < Q2R lat_min \/ Q2R lon_max < Q2R lon_min)) \/
  exists crop, CropToBox lat_min lat_max lon_min lon_max = Ok crop /\ Q2R lat_min <= Q2R lat_max /\ Q2R lon_min <= Q2R lon_max /\
  forall name a ref lats lons, dget (dims a) "latitude" = Some lats -> dget (dims a) "longitude" = Some lons ->
  exists out lats' lons', crop name a ref = Ok out /\
    dget (dims out) "latitude" = Some lats' /\ dget (dims out) "longitude" = Some lons' /\
    (forall l, In l lats' <-> In l lats /\ Q2R lat_min <= number l <= Q2R lat_max) /\
    (forall l, In l lons' <-> In l lons /\ Q2R lon_min <= number l <= Q2R lon_max) /\
    StronglySorted (fun x y => number x <= number y) lats' /\ StronglySorted (fun x y => number x <= number y) lons' /\
    (NoDup lats -> NoDup lats') /\ (NoDup lons -> NoDup lons') /\
    dnames out = dnames a /\ (forall d, d <> "latitude" -> d <> "longitude" -> dget (dims out) d = dget (dims a) d) /\
    forall e, get out e = get a e.
Proof.
  intros lat_min lat_max lon_min lon_max. unfold CropToBox. destruct (Qle_bool lat_min lat_max) eqn:E1; cbn [negb].
  2: { left. split; [reflexivity|]. left. apply Rnot_le_lt. intros H. apply Qle_bool_R in H. congruence. }
  destruct (Qle_bool lon_min lon_max) eqn:E2; cbn [negb].
  2: { left. split; [reflexivity|]. right. apply Rnot_le_lt. intros H. apply Qle_bool_R in H. congruence. }
  right. eexists. split; [reflexivity|]. split; [now apply Qle_bool_R|]. split; [now apply Qle_bool_R|]. intros name a ref lats lons D1 D2. cbv beta.
  unfold sortby at 1. rewrite D2. cbn [bind]. set (a1 := restrict [("longitude", sort_labels lons)] a).
  assert (dget (dims a1) "latitude" = Some lats) as D1'. { unfold a1. rewrite dget_restrict, D1. reflexivity. }
  unfold sortby. rewrite D1'. cbn [bind]. set (a2 := restrict [("latitude", sort_labels lats)] a1).
  assert (dget (dims a2) "latitude" = Some (sort_labels lats)) as D3. { unfold a2. rewrite dget_restrict, D1'. reflexivity. }
  assert (dget (dims a2) "longitude" = Some (sort_labels lons)) as D4. { unfold a2. rewrite dget_restrict. unfold a1. rewrite dget_restrict, D2. reflexivity. }
  unfold sel_slice at 1. rewrite D3. unfold slice_labels at 1. rewrite (sorted_ascendingb _ (sort_labels_sorted lats)). cbn [bind].
  set (lats' := filter _ (sort_labels lats)). set (a3 := restrict [("latitude", lats')] a2).
  assert (dget (dims a3) "longitude" = Some (sort_labels lons)) as D5. { unfold a3. rewrite dget_restrict, D4. reflexivity. }
  unfold sel_slice. rewrite D5. unfold slice_labels. rewrite (sorted_ascendingb _ (sort_labels_sorted lons)). cbn [bind].
  set (lons' := filter _ (sort_labels lons)). eexists. exists lats', lons'. split; [reflexivity|].
  assert (forall lo hi ls l, In l (filter (fun l => Qle_bool lo (lnum l) && Qle_bool (lnum l) hi)%bool (sort_labels ls)) <-> In l ls /\ Q2R lo <= number l <= Q2R hi) as Fl.
  { intros lo hi ls l. rewrite filter_In, sort_labels_In, andb_true_iff, !Qle_bool_R. reflexivity. }
  assert (forall f ls, NoDup ls -> NoDup (filter f (sort_labels ls))) as Nf.
  { intros f ls N. apply NoDup_filter. eapply Permutation_NoDup; [apply Permutation_sym, sort_labels_perm|exact N]. }
  split; [|split; [|split; [|split; [|split; [|split; [|split; [|split; [|split; [|split]]]]]]]]].
  - rewrite dget_restrict. unfold a3. rewrite dget_restrict, D3. reflexivity.
  - rewrite dget_restrict, D5. reflexivity.
  - intros l. apply Fl.
  - intros l. apply Fl.
  - apply StronglySorted_filter, sort_labels_sorted.
  - apply StronglySorted_filter, sort_labels_sorted.
  - apply Nf. - apply Nf.
  - assert (forall d ls x, dnames (restrict [(d, ls)] x) = dnames x) as Nr.
    { intros d ls x. unfold dnames, restrict. cbn [dims]. rewrite map_map. apply map_ext. intros [k m]. cbn [fst dget]. now destruct (eq_dec k d). }
    unfold a3, a2, a1. now rewrite !Nr.
  - intros d N1 N2. rewrite dget_restrict. unfold a3. rewrite dget_restrict. unfold a2. rewrite dget_restrict. unfold a1. rewrite dget_restrict.
    rewrite (proj2 (eqb_false_iff d "latitude") N1), (proj2 (eqb_false_iff d "longitude") N2). now destruct (dget (dims a) d).
  - reflexivity.
Qed.
Print Assumptions C47_crop.

(** The longitude limits are documented as exclusive: points on them are kept. *)
Theorem C47_crop_exclusive_longitudes_refuted : forall lat_min lat_max lon_min lon_max crop name a ref lats lons l,
  CropToBox lat_min lat_max lon_min lon_max = Ok crop ->
  dget (dims a) "latitude" = Some lats -> dget (dims a) "longitude" = Some lons ->
  In l lons -> (number l = Q2R lon_min \/ number l = Q2R lon_max) ->
  exists out lons', crop name a ref = Ok out /\ dget (dims out) "longitude" = Some lons' /\ In l lons'.
Proof.
  intros lat_min lat_max lon_min lon_max crop name a ref lats lons l H D1 D2 I E. destruct (C47_crop lat_min lat_max lon_min lon_max) as [[Q _]|(crop' & Q & L1 & L2 & K)]; [congruence|].
  assert (crop' = crop) as -> by congruence. destruct (K name a ref lats lons D1 D2) as (out & lats' & lons' & Eo & _ & D4 & _ & F & _). exists out, lons'. split; [exact Eo|]. split; [exact D4|]. apply F. split; [exact I|]. destruct E as [-> | ->]; lra.
Qed.
Print Assumptions C47_crop_exclusive_longitudes_refuted.

(** ** Subsampling *)
Lemma every_nth_skip {A} k : forall i (l : list A) j, nth_error (every_nth k i l) j = nth_error l (i + j * S k).
Proof.
  intros i l. revert i. induction l as [|x l IH]; intros i j.
  - cbn. destruct j, (i + _)%nat; reflexivity.
  - cbn [every_nth]. destruct (Nat.eqb i 0) eqn:E.
    + apply Nat.eqb_eq in E. subst i. destruct j as [|j]; [reflexivity|]. cbn [nth_error]. rewrite IH. cbn [Nat.add Nat.mul nth_error]. f_equal.
    + apply Nat.eqb_neq in E. rewrite IH. destruct i as [|i]; [congruence|]. cbn [Nat.add nth_error]. f_equal. lia.
Qed.
(** Along every given dimension the array has, the i-th label kept is label number i * stride; the
    other dimensions and all values are unchanged. *)
Theorem C47_subsample : forall ds stride,
  (Subsample ds stride = Err ValueError /\ (stride < 1)%Z) \/
  exists sub, Subsample ds stride = Ok sub /\ (1 <= stride)%Z /\
  forall name a ref, exists out, sub name a ref = Ok out /\ dnames out = dnames a /\ (forall e, get out e = get a e) /\ aux out = aux a /\
    forall d ls, dget (dims a) d = Some ls -> exists ls', dget (dims out) d = Some ls' /\
      (~ In d ds -> ls' = ls) /\
      (In d ds -> forall i, nth_error ls' i = nth_error ls (i * Z.to_nat stride)).
Proof.
  intros ds stride. unfold Subsample. destruct (stride <? 1)%Z eqn:E; [left; split; [reflexivity|lia]|]. right. eexists. split; [reflexivity|]. split; [lia|].
  intros name a ref. eexists. split; [reflexivity|]. split; [|split; [reflexivity|split; [reflexivity|]]].
  - unfold dnames. cbn [dims]. rewrite map_map. apply map_ext. intros [k m]. cbn [fst snd]. now destruct (memb k ds).
  - intros d ls D. cbn [dims]. exists (if memb d ds then every_nth (Z.to_nat stride - 1) 0 ls else ls). split; [|split].
    + revert D. induction (dims a) as [|[k m] l IH]; [discriminate|]. cbn [map fst snd dget]. destruct (eq_dec d k) as [->|N].
      * intros [= ->]. destruct (memb k ds); cbn [dget]; now destruct (eq_dec k k).
      * intros D. destruct (memb k ds); cbn [dget]; (destruct (eq_dec d k); [congruence|]); now apply IH.
    + intros N. now rewrite (proj2 (memb_false d ds) N).
    + intros I i. rewrite (proj2 (memb_In d ds) I), every_nth_skip. f_equal. replace (S (Z.to_nat stride - 1)) with (Z.to_nat stride) by lia. lia.
Qed.
Print Assumptions C47_subsample.
