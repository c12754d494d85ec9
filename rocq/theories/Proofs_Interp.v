(** Lemmas on sorting and interpolation along one dimension. *)
From Coq Require Import String ZArith QArith Qreals Qcanon Bool List Sorted Permutation Lia.
Import ListNotations.
From Verif Require Import Prelude Values Model_XArray Spec_XArray Proofs_XArray Model_MetricsBase Model_Deterministic Model_Binning Model_Interp Spec_Interp.
From Coq Require Import Reals Lra.
Local Open Scope R_scope.
Local Open Scope list_scope.

Lemma Qle_bool_number a b : Qle_bool (lnum a) (lnum b) = true <-> number a <= number b.
Proof. unfold number. rewrite Qle_bool_iff. split; [apply Qle_Rle|apply Rle_Qle]. Qed.
Lemma Qle_bool_number_false a b : Qle_bool (lnum a) (lnum b) = false <-> number b < number a.
Proof.
  split; intros H.
  - apply Rnot_le_lt. intros L. apply Qle_bool_number in L. congruence.
  - destruct (Qle_bool (lnum a) (lnum b)) eqn:E; [|reflexivity]. apply Qle_bool_number in E. lra.
Qed.

(** ** Sorting *)
Lemma insert_label_perm l ls : Permutation (insert_label l ls) (l :: ls).
Proof.
  induction ls as [|m ls IH]; [apply Permutation_refl|]. cbn [insert_label]. destruct (Qle_bool _ _); [apply Permutation_refl|].
  eapply perm_trans; [apply perm_skip, IH|apply perm_swap].
Qed.
Lemma sort_labels_perm ls : Permutation (sort_labels ls) ls.
Proof.
  induction ls as [|l ls IH]; [constructor|]. unfold sort_labels. cbn [fold_right]. eapply perm_trans; [apply insert_label_perm|]. now apply perm_skip.
Qed.
Lemma sort_labels_In l ls : In l (sort_labels ls) <-> In l ls.
Proof. split; apply Permutation_in; [apply sort_labels_perm|apply Permutation_sym, sort_labels_perm]. Qed.
Lemma insert_label_sorted l ls : StronglySorted (fun a b => number a <= number b) ls -> StronglySorted (fun a b => number a <= number b) (insert_label l ls).
Proof.
  induction ls as [|m ls IH]; intros H; [constructor; constructor|]. cbn [insert_label]. apply StronglySorted_inv in H. destruct H as [H F]. rewrite Forall_forall in F.
  destruct (Qle_bool (lnum l) (lnum m)) eqn:E.
  - apply Qle_bool_number in E. constructor; [constructor; [exact H|now apply Forall_forall]|]. constructor; [exact E|]. apply Forall_forall. intros x Hx. specialize (F x Hx). lra.
  - apply Qle_bool_number_false in E. constructor; [now apply IH|]. apply Forall_forall. intros x Hx.
    apply (Permutation_in _ (insert_label_perm l ls)) in Hx. destruct Hx as [<-|Hx]; [lra|auto].
Qed.
Lemma sort_labels_sorted ls : StronglySorted (fun a b => number a <= number b) (sort_labels ls).
Proof. induction ls as [|l ls IH]; [constructor|]. unfold sort_labels. cbn [fold_right]. now apply insert_label_sorted. Qed.
Lemma sort_labels_ascending ls : NoDup ls -> distinct ls -> ascending (sort_labels ls).
Proof.
  intros N D. assert (NoDup (sort_labels ls)) as N' by (eapply Permutation_NoDup; [apply Permutation_sym, sort_labels_perm|exact N]).
  assert (distinct (sort_labels ls)) as D'. { intros a b Ha Hb. apply D; now apply sort_labels_In. }
  pose proof (sort_labels_sorted ls) as S. clear N D. induction (sort_labels ls) as [|x xs IH]; [constructor|].
  apply StronglySorted_inv in S. destruct S as [S F]. inversion N' as [|? ? Nx Nxs]; subst. constructor.
  - apply IH; auto. intros a b Ha Hb. apply D'; now right.
  - rewrite Forall_forall in *. intros y Hy. destruct (Rtotal_order (number x) (number y)) as [|[E|E]]; [assumption| |specialize (F y Hy); lra].
    exfalso. apply Nx. rewrite (D' x y); auto; [now left|now right].
Qed.
Lemma ascending_NoDup ls : ascending ls -> NoDup ls.
Proof.
  induction 1 as [|x xs S IH F]; [constructor|]. constructor; [|exact IH]. intros I. rewrite Forall_forall in F. specialize (F x I). lra.
Qed.
Lemma ascending_distinct ls : ascending ls -> distinct ls.
Proof.
  induction 1 as [|x xs S IH F]; intros a b Ha Hb E; [destruct Ha|]. rewrite Forall_forall in F. destruct Ha as [<-|Ha], Hb as [<-|Hb]; auto.
  - specialize (F b Hb). lra.
  - specialize (F a Ha). lra.
Qed.

(** ** Neighbours in a sorted list *)
Lemma neighbours_adjacent ls l1 l2 : ascending ls -> In l1 ls -> In l2 ls -> number l1 < number l2 ->
  (forall l, In l ls -> number l <= number l1 \/ number l2 <= number l) -> exists xs ys, ls = xs ++ l1 :: l2 :: ys.
Proof.
  induction 1 as [|a ls S IH F]; intros H1 H2 L B; [destruct H1|]. rewrite Forall_forall in F. destruct H1 as [<-|H1].
  - destruct H2 as [<-|H2]; [lra|]. destruct ls as [|b ls]; [destruct H2|]. exists [], ls. cbn. f_equal. f_equal.
    destruct H2 as [->|H2]; [reflexivity|]. exfalso. apply StronglySorted_inv in S. destruct S as [_ G]. rewrite Forall_forall in G. specialize (G _ H2).
    destruct (B b) as [Q|Q]; [right; now left| |lra]. specialize (F b (or_introl eq_refl)). lra.
  - destruct H2 as [<-|H2]; [specialize (F _ H1); lra|]. destruct IH as (xs & ys & E); auto.
    + intros l Hl. apply B. now right.
    + exists (a :: xs), ys. cbn. now rewrite E.
Qed.

(** ** Points sorted by their coordinates *)
Definition increasing (ps : list (R * val)) : Prop := StronglySorted (fun p q => fst p < fst q) ps.
Lemma linear_between_line t : forall rest p xs u v ys, increasing (p :: rest) -> p :: rest = xs ++ u :: v :: ys -> fst u < t <= fst v ->
  linear_between p rest t = line u v t.
Proof.
  induction rest as [|q rest IH]; intros p xs u v ys S E [L1 L2]; [destruct xs as [|? [|? ?]]; discriminate|].
  apply StronglySorted_inv in S. destruct S as [S F].
  destruct xs as [|x xs].
  - cbn [app] in E. injection E as -> -> ->. cbn [linear_between]. destruct ys; [reflexivity|]. destruct (Rleb t (fst v)) eqn:Q; [reflexivity|]. apply Rleb_false in Q. lra.
  - cbn [app] in E. injection E as -> E. assert (linear_between x (q :: rest) t = linear_between q rest t) as ->.
    { cbn [linear_between]. destruct rest as [|r rest]; [destruct xs as [|? [|? ?]]; discriminate|].
      destruct (Rleb t (fst q)) eqn:Q; [|reflexivity]. apply Rleb_true in Q. exfalso.
      assert (fst q <= fst u). { destruct xs as [|x' xs]; [injection E as -> _ _; lra|]. injection E as -> E. apply StronglySorted_inv in S. destruct S as [_ G]. rewrite Forall_forall in G.
        left. apply G. rewrite E. apply in_app_iff. right. now left. } lra. }
    eapply IH; eauto.
Qed.
Lemma linear_between_first p q rest : fst p < fst q -> linear_between p (q :: rest) (fst p) = line p q (fst p).
Proof. intros L. cbn [linear_between]. destruct rest; [reflexivity|]. destruct (Rleb (fst p) (fst q)) eqn:Q; [reflexivity|]. apply Rleb_false in Q. lra. Qed.
Lemma line_Fin x1 y1 x2 y2 t : x1 < x2 -> line (x1, Fin y1) (x2, Fin y2) t = Fin (on_line x1 y1 x2 y2 t).
Proof.
  intros L. unfold line, on_line. cbn [fst snd]. assert (vsub (Fin y2) (Fin y1) = Fin (y2 - y1)) as ->. { unfold vsub, vneg. cbn [vadd]. f_equal. }
  unfold vdiv. destruct (Req_EM_T (x2 - x1) 0); [lra|]. cbn [vmul vadd]. f_equal. field. lra.
Qed.
Lemma last_app_ne {A} (xs ys : list A) d : ys <> [] -> last (xs ++ ys) d = last ys d.
Proof. induction xs as [|x xs IH]; intros N; [reflexivity|]. cbn [app last]. destruct (xs ++ ys) eqn:E; [|now rewrite <- IH by auto]. apply app_eq_nil in E. now destruct E. Qed.
Lemma last_In {A} (xs : list A) d : xs <> [] -> In (last xs d) xs.
Proof. induction xs as [|x xs IH]; intros N; [congruence|]. destruct xs as [|y ys]; [now left|]. right. apply IH. discriminate. Qed.
Lemma last_max {A} (f : A -> R) xs d : StronglySorted (fun p q => f p < f q) xs -> forall x, In x xs -> f x <= f (last xs d).
Proof.
  induction 1 as [|y ys S IH F]; intros x Hx; [destruct Hx|]. destruct Hx as [<-|Hx].
  - destruct ys as [|z zs]; [cbn; lra|]. rewrite Forall_forall in F. left. apply F. apply (last_In (z :: zs) d). discriminate.
  - destruct ys as [|z zs]; [destruct Hx|]. now apply IH.
Qed.
Lemma nearest_of_label t : forall rest p u, increasing (p :: rest) -> In u (p :: rest) ->
  (forall v, In v (p :: rest) -> Rabs (t - fst u) < Rabs (t - fst v) \/ (Rabs (t - fst u) = Rabs (t - fst v) /\ fst u <= fst v)) ->
  nearest_of p rest t = snd u.
Proof.
  induction rest as [|q rest IH]; intros p u S I H; [destruct I as [<-|[]]; reflexivity|]. apply StronglySorted_inv in S. destruct S as [S F]. rewrite Forall_forall in F.
  cbn [nearest_of]. assert (fst p < fst q) as Lpq by (apply F; now left).
  assert (forall r, In r (q :: rest) -> fst q <= fst r) as G.
  { intros r [<-|Hr]; [lra|]. apply StronglySorted_inv in S. destruct S as [_ G]. rewrite Forall_forall in G. left. now apply G. }
  destruct (Rleb t ((fst p + fst q) / 2)) eqn:Q.
  - apply Rleb_true in Q. destruct I as [<-|I]; [reflexivity|]. exfalso. specialize (G u I). specialize (H p (or_introl eq_refl)).
    assert (Rabs (t - fst p) <= Rabs (t - fst u)). { unfold Rabs. destruct (Rcase_abs (t - fst p)), (Rcase_abs (t - fst u)); lra. }
    destruct H as [H|[H1 H2]]; lra.
  - apply Rleb_false in Q. destruct I as [<-|I].
    + exfalso. destruct (H q) as [K|[K1 K2]]; [right; now left| |].
      * unfold Rabs in K. destruct (Rcase_abs (t - fst p)), (Rcase_abs (t - fst q)); lra.
      * unfold Rabs in K1. destruct (Rcase_abs (t - fst p)), (Rcase_abs (t - fst q)); lra.
    + apply IH; auto. intros v Hv. apply H. now right.
Qed.

(** ** Interpolation of the points of an array *)
Lemma points_increasing d a e : NoDup (labels_of (dims a) d) -> distinct (labels_of (dims a) d) -> increasing (points_along d a e).
Proof.
  intros N D. unfold points_along. pose proof (sort_labels_ascending _ N D) as S. induction S as [|x xs S IH F]; [constructor|]. cbn [map]. constructor; [exact IH|].
  rewrite Forall_forall in *. intros p Hp. apply in_map_iff in Hp. destruct Hp as (y & <- & Hy). cbn [fst]. now apply F.
Qed.
Definition point_at (d : string) (a : da) (e : env) (l : label) : R * val := (number l, get a (upd e d l)).
Lemma points_In d a e p : In p (points_along d a e) <-> exists l, In l (labels_of (dims a) d) /\ p = point_at d a e l.
Proof.
  unfold points_along. rewrite in_map_iff. split.
  - intros (l & <- & H). exists l. split; [now apply sort_labels_In|reflexivity].
  - intros (l & H & ->). exists l. split; [reflexivity|now apply sort_labels_In].
Qed.
(** The guard on the range. *)
Lemma interp1_in_range m ext p rest t : increasing (p :: rest) -> ext = true \/ ((exists u, In u (p :: rest) /\ fst u <= t) /\ (exists v, In v (p :: rest) /\ t <= fst v)) ->
  interp1 m ext (p :: rest) (Fin t) = match m with Linear => linear_between p rest t | Nearest => nearest_of p rest t end.
Proof.
  intros S H. unfold interp1. replace (ext || (Rleb (fst p) t && Rleb t (fst (last (p :: rest) p))))%bool with true; [reflexivity|]. symmetry.
  destruct H as [->|((u & Iu & Lu) & (v & Iv & Lv))]; [reflexivity|]. apply orb_true_iff. right. apply andb_true_iff. split; apply Rleb_true.
  - destruct Iu as [->|Iu]; [lra|]. apply StronglySorted_inv in S. destruct S as [_ F]. rewrite Forall_forall in F. specialize (F u Iu). lra.
  - pose proof (last_max fst (p :: rest) p S v Iv). lra.
Qed.
Lemma interp1_out_of_range m p rest t : increasing (p :: rest) -> (forall u, In u (p :: rest) -> t < fst u) \/ (forall u, In u (p :: rest) -> fst u < t) ->
  interp1 m false (p :: rest) (Fin t) = NaN.
Proof.
  intros S H. unfold interp1. cbn [orb]. replace (Rleb (fst p) t && Rleb t (fst (last (p :: rest) p)))%bool with false; [reflexivity|]. symmetry. apply andb_false_iff. destruct H as [H|H].
  - left. apply Rleb_false. apply H. now left.
  - right. apply Rleb_false. apply H. apply last_In. discriminate.
Qed.

Section OneDimension.
  Variables (d : string) (a : da) (ls : list label) (e : env).
  Hypothesis dim : dget (dims a) d = Some ls.
  Hypotheses (N : NoDup ls) (D : distinct ls).
  Let L : labels_of (dims a) d = ls.
  Proof. unfold labels_of. now rewrite dim. Qed.
  Lemma points_S : increasing (points_along d a e).
  Proof. apply points_increasing; now rewrite L. Qed.
  Lemma points_ne l : In l ls -> exists p rest, points_along d a e = p :: rest.
  Proof. intros H. destruct (points_along d a e) as [|p rest] eqn:E; [|eauto]. assert (In (point_at d a e l) []) as []. rewrite <- E. apply points_In. exists l. split; [now rewrite L|reflexivity]. Qed.
  Lemma in_points l : In l ls -> In (point_at d a e l) (points_along d a e).
  Proof. intros H. apply points_In. exists l. split; [now rewrite L|reflexivity]. Qed.

  Lemma interp_linear ext l1 l2 t : encloses ls l1 l2 t -> number l1 < t ->
    interp1 Linear ext (points_along d a e) (Fin t) = line (point_at d a e l1) (point_at d a e l2) t.
  Proof.
    intros (I1 & I2 & Lt & [T1 T2] & B) T. assert (exists xs ys, sort_labels ls = xs ++ l1 :: l2 :: ys) as (xs & ys & E).
    { apply neighbours_adjacent; auto; [now apply sort_labels_ascending|now apply sort_labels_In|now apply sort_labels_In|]. intros l Hl. apply B. now apply sort_labels_In. }
    destruct (points_ne l1 I1) as (p & rest & Ep). pose proof points_S as S. rewrite Ep in S |- *. rewrite interp1_in_range; auto.
    - eapply (linear_between_line t rest p (map (point_at d a e) xs) _ _ (map (point_at d a e) ys)); [exact S| |cbn [point_at fst]; lra].
      rewrite <- Ep. unfold points_along. rewrite L, E, map_app. reflexivity.
    - right. split; [exists (point_at d a e l1)|exists (point_at d a e l2)]; (split; [rewrite <- Ep; now apply in_points|cbn [point_at fst]; lra]).
  Qed.
  Lemma interp_linear_first ext l1 l2 t : encloses ls l1 l2 t -> number l1 = t -> (forall l, In l ls -> number l1 <= number l) ->
    interp1 Linear ext (points_along d a e) (Fin t) = line (point_at d a e l1) (point_at d a e l2) t.
  Proof.
    intros (I1 & I2 & Lt & [T1 T2] & B) <- M. assert (exists xs ys, sort_labels ls = xs ++ l1 :: l2 :: ys) as (xs & ys & E).
    { apply neighbours_adjacent; auto; [now apply sort_labels_ascending|now apply sort_labels_In|now apply sort_labels_In|]. intros l Hl. apply B. now apply sort_labels_In. }
    assert (xs = []) as ->. { destruct xs as [|x xs]; [reflexivity|]. exfalso. pose proof (sort_labels_ascending ls N D) as S. rewrite E in S. cbn [app] in S. apply StronglySorted_inv in S. destruct S as [_ F]. rewrite Forall_forall in F.
      assert (number x < number l1) by (apply F, in_app_iff; right; now left). assert (number l1 <= number x); [|lra]. apply M, sort_labels_In. rewrite E. now left. }
    destruct (points_ne l1 I1) as (p & rest & Ep). pose proof points_S as S. rewrite Ep in S |- *. rewrite interp1_in_range; auto.
    - assert (p :: rest = point_at d a e l1 :: point_at d a e l2 :: map (point_at d a e) ys) as Q. { rewrite <- Ep. unfold points_along. rewrite L, E. reflexivity. }
      injection Q as -> ->. apply (linear_between_first (point_at d a e l1)). exact Lt.
    - right. split; [exists (point_at d a e l1)|exists (point_at d a e l2)]; (split; [rewrite <- Ep; now apply in_points|cbn [point_at fst]; lra]).
  Qed.
  Lemma interp_nearest ext l t : nearest_label ls l t -> ext = true \/ in_range ls t ->
    interp1 Nearest ext (points_along d a e) (Fin t) = get a (upd e d l).
  Proof.
    intros [I H] R. destruct (points_ne l I) as (p & rest & Ep). pose proof points_S as S. rewrite Ep in S |- *. rewrite interp1_in_range; auto.
    - apply (nearest_of_label t rest p (point_at d a e l)); auto.
      + rewrite <- Ep. now apply in_points.
      + intros v Hv. rewrite <- Ep in Hv. apply points_In in Hv. destruct Hv as (l' & Hl & ->). rewrite L in Hl. cbn [point_at fst]. now apply H.
    - destruct R as [->|((x & Ix & Lx) & (y & Iy & Ly))]; [now left|]. right. split; [exists (point_at d a e x)|exists (point_at d a e y)]; (split; [rewrite <- Ep; now apply in_points|cbn [point_at fst]; lra]).
  Qed.
  Lemma interp_outside m t : (forall l, In l ls -> t < number l) \/ (forall l, In l ls -> number l < t) ->
    interp1 m false (points_along d a e) (Fin t) = NaN.
  Proof.
    intros H. destruct (points_along d a e) as [|p rest] eqn:Ep; [reflexivity|]. pose proof points_S as S. rewrite Ep in S. apply interp1_out_of_range; auto.
    destruct H as [H|H]; [left|right]; intros u Hu; rewrite <- Ep in Hu; apply points_In in Hu; destruct Hu as (l & Hl & ->); rewrite L in Hl; cbn [point_at fst]; auto.
  Qed.
  (** The neighbours around a number in range. *)
  Lemma enclosing t : in_range ls t -> (exists l1 l2, encloses ls l1 l2 t /\ (number l1 < t \/ (number l1 = t /\ forall l, In l ls -> number l1 <= number l))) \/ (exists l, ls = [l] /\ number l = t).
  Proof.
    intros ((x & Ix & Lx) & (y & Iy & Ly)).
    assert (forall xs, ascending xs -> (forall l, In l xs -> In l ls) -> forall x y, In x xs -> In y xs -> number x < t -> t <= number y -> exists l1 l2 us vs, xs = us ++ l1 :: l2 :: vs /\ number l1 < t <= number l2) as K.
    { induction 1 as [|u us S IH F]; intros B x' y' Hx Hy L1 L2; [destruct Hx|]. rewrite Forall_forall in F. destruct us as [|v us]; [destruct Hx as [<-|[]], Hy as [<-|[]]; lra|].
      destruct (Rle_lt_dec t (number v)).
      - exists u, v, [], us. split; [reflexivity|]. split; [|exact r]. destruct Hx as [<-|Hx]; [exact L1|]. specialize (F x' Hx). lra.
      - destruct (IH (fun l Hl => B l (or_intror Hl)) v y') as (l1 & l2 & us' & vs' & E & Q); [now left| |lra|lra|].
        + destruct Hy as [<-|Hy]; [|exact Hy]. specialize (F v (or_introl eq_refl)). lra.
        + exists l1, l2, (u :: us'), vs'. rewrite E. auto. }
    assert (forall us l1 l2 vs, sort_labels ls = us ++ l1 :: l2 :: vs -> number l1 < number l2 /\ In l1 ls /\ In l2 ls /\ forall l, In l ls -> number l <= number l1 \/ number l2 <= number l) as Q.
    { intros us l1 l2 vs E. pose proof (sort_labels_ascending ls N D) as S. rewrite E in S.
      assert (forall l, In l (us ++ l1 :: l2 :: vs) -> number l <= number l1 \/ number l2 <= number l) as B.
      { clear -S. induction us as [|u us IH]; intros l Hl; cbn [app] in *.
        - apply StronglySorted_inv in S. destruct S as [S F]. apply StronglySorted_inv in S. destruct S as [S G]. rewrite Forall_forall in *. destruct Hl as [<-|[<-|Hl]]; [lra|lra|]. right. left. now apply G.
        - apply StronglySorted_inv in S. destruct S as [S F]. rewrite Forall_forall in F. destruct Hl as [<-|Hl]; [|now apply IH]. left. left. apply F. apply in_app_iff. right. now left. }
      assert (number l1 < number l2). { clear -S. induction us as [|u us IH]; cbn [app] in S; apply StronglySorted_inv in S; destruct S as [S F]; [|now apply IH]. rewrite Forall_forall in F. apply F. now left. }
      split; [assumption|]. split; [|split].
      - apply sort_labels_In. rewrite E. apply in_app_iff. right. now left.
      - apply sort_labels_In. rewrite E. apply in_app_iff. right. right. now left.
      - intros l Hl. apply B. rewrite <- E. now apply sort_labels_In. }
    pose proof (sort_labels_ascending ls N D) as S.
    destruct (Rle_lt_or_eq_dec _ _ Lx) as [Lx'|Ex].
    - left. destruct (K (sort_labels ls) S (fun l H => proj1 (sort_labels_In l ls) H) x y) as (l1 & l2 & us & vs & E & T1 & T2); [now apply sort_labels_In|now apply sort_labels_In|exact Lx'|exact Ly|].
      destruct (Q _ _ _ _ E) as (Lt & I1 & I2 & B). exists l1, l2. split; [repeat split; auto; lra|]. now left.
    - (* x is a label with the number t *)
      destruct (sort_labels ls) as [|u us] eqn:Es. { exfalso. apply (sort_labels_In x ls) in Ix. rewrite Es in Ix. destruct Ix. }
      destruct (Req_dec (number u) t) as [Eu|Nu].
      + destruct us as [|v us].
        * right. exists u. split; [|exact Eu]. pose proof (sort_labels_perm ls) as P. rewrite Es in P. apply Permutation_length_1_inv in P. exact P.
        * left. destruct (Q [] u v us eq_refl) as (Lt & I1 & I2 & B). exists u, v. split; [repeat split; auto; lra|]. right. split; [exact Eu|].
          intros l Hl. apply sort_labels_In in Hl. rewrite Es in Hl. destruct Hl as [<-|Hl]; [lra|]. apply StronglySorted_inv in S. destruct S as [_ F]. rewrite Forall_forall in F. left. now apply F.
      + left. assert (In u ls) as Iu by (apply sort_labels_In; rewrite Es; now left). assert (number u < t) as Lu.
        { apply (sort_labels_In x ls) in Ix. rewrite Es in Ix. destruct Ix as [->|Ix]; [lra|]. apply StronglySorted_inv in S. destruct S as [_ F]. rewrite Forall_forall in F. specialize (F x Ix). lra. }
        destruct (K (u :: us) S) with (x := u) (y := x) as (l1 & l2 & us' & vs & E & T1 & T2); auto.
        * intros l Hl. apply sort_labels_In. now rewrite Es.
        * now left.
        * rewrite <- Es. now apply sort_labels_In.
        * lra.
        * destruct (Q _ _ _ _ E) as (Lt & I1 & I2 & B). exists l1, l2. split; [repeat split; auto; lra|]. now left.
  Qed.
End OneDimension.
