(** C47: interpolations neither lose nor invent data. *)
From Coq Require Import String ZArith QArith Qreals Qcanon Bool List Sorted Permutation Lia.
Import ListNotations.
From Verif Require Import Prelude Values Model_XArray Spec_XArray Proofs_XArray Model_Tree Proofs_Tree Model_MetricsBase Model_Deterministic Proofs_Baseline Model_Binning
  Proofs_Ensemble2 Model_Interp Spec_Interp Proofs_Interp.
From Coq Require Import Reals Lra.
Local Open Scope R_scope.
Local Open Scope string_scope.
Local Open Scope list_scope.

(** ** Data sets *)
Definition ref_tree (r : vars da) := named_leaves r.
Lemma child_named r k : child (named_leaves r) k = match dget r k with Some a => Ok (Leaf (k, a)) | None => Err KeyError end.
Proof.
  unfold named_leaves, child, dgetE. induction r as [|[k' a] r IH]; [reflexivity|]. cbn [map fst dget]. destruct (eq_dec k k') as [->|]; [reflexivity|exact IH].
Qed.
(** Every variable is interpolated on its own, with the reference of the same name. *)
Theorem C47_per_variable : forall (self : interpolation) (ds ref r : vars da),
  interpolate self ds (Some ref) = Ok r <->
  Forall2 (fun kv kr => fst kr = fst kv /\ exists x, dget ref (fst kv) = Some x /\ self (fst kv) (snd kv) (Some x) = Ok (snd kr)) ds r.
Proof.
  intros self ds ref r. unfold interpolate, map_structure. unfold named_leaves at 1. cbn [map_first].
  set (go := fix go (l : list (string * tree (string * da))) : result (list (string * tree da)) := _).
  assert (forall l res, go (map (fun kv => (fst kv, Leaf kv)) l) = Ok res <->
    exists rs, res = map (fun kv => (fst kv, Leaf (snd kv))) rs /\ Forall2 (fun kv kr => fst kr = fst kv /\ exists x, dget ref (fst kv) = Some x /\ self (fst kv) (snd kv) (Some x) = Ok (snd kr)) l rs) as G.
  { induction l as [|[k a] l IH]; intros res.
    - cbn [map go]. split; [intros [= <-]; exists []; split; [reflexivity|constructor]|]. intros (rs & -> & F). inversion F. reflexivity.
    - cbn [map go fst snd mapM]. rewrite child_named. destruct (dget ref k) as [x|] eqn:Ex; cbn [bind].
      + cbn [map_first]. destruct (self k a (Some x)) as [b|] eqn:Eb; cbn [bind].
        * destruct (go (map _ l)) as [bs|] eqn:Eg; cbn [bind].
          -- split.
             ++ intros [= <-]. destruct (proj1 (IH bs) eq_refl) as (rs & -> & F). exists ((k, b) :: rs). split; [reflexivity|]. constructor; [|exact F]. cbn. eauto.
             ++ intros (rs & -> & F). inversion F as [|? [k' b'] ? rs' (Ek & x' & Ex' & Eb') F']; subst. cbn [fst snd] in *. subst k'.
                assert (x' = x) as -> by congruence. rewrite Eb in Eb'. injection Eb' as ->.
                assert (Ok bs = Ok (map (fun kv : string * da => (fst kv, Leaf (snd kv))) rs')) as Q by (apply (proj2 (IH _)); eauto). injection Q as ->. reflexivity.
          -- split; [discriminate|]. intros (rs & -> & F). inversion F as [|? ? ? rs' _ F']; subst.
             assert (Err e = Ok (map (fun kv : string * da => (fst kv, Leaf (snd kv))) rs')) as Q by (apply (proj2 (IH _)); eauto). discriminate.
        * split; [discriminate|]. intros (rs & -> & F). inversion F as [|? [k' b'] ? rs' (Ek & x' & Ex' & Eb') F']; subst. cbn [fst snd] in *. congruence.
      + split; [discriminate|]. intros (rs & -> & F). inversion F as [|? [k' b'] ? rs' (Ek & x' & Ex' & Eb') F']; subst. cbn [fst snd] in *. congruence. }
  destruct (go (map (fun kv => (fst kv, Leaf kv)) ds)) as [res|] eqn:E; cbn [bind].
  - destruct (proj1 (G ds res) E) as (rs & -> & F). cbn [unnamed].
    assert (flat_map (fun kv : string * tree da => match snd kv with Leaf a => [(fst kv, a)] | _ => [] end) (map (fun kv => (fst kv, Leaf (snd kv))) rs) = rs) as Q.
    { clear. induction rs as [|[k a] rs IH]; [reflexivity|]. cbn [map flat_map fst snd]. rewrite IH. reflexivity. }
    rewrite Q. split.
    + intros [= <-]. exact F.
    + intros F'. f_equal. assert (Ok (map (fun kv : string * da => (fst kv, Leaf (snd kv))) rs) = Ok (map (fun kv : string * da => (fst kv, Leaf (snd kv))) r)) as Q2.
      { rewrite <- E. apply (proj2 (G ds _)). eauto. }
      injection Q2 as Q2. apply (f_equal (flat_map (fun kv : string * tree da => match snd kv with Leaf a => [(fst kv, a)] | _ => [] end))) in Q2.
      rewrite Q in Q2. rewrite Q2. clear. induction r as [|[k a] r IH]; [reflexivity|]. cbn [map flat_map fst snd]. rewrite IH. reflexivity.
  - split; [discriminate|]. intros F. assert (Err e = Ok (map (fun kv : string * da => (fst kv, Leaf (snd kv))) r)) as Q; [|discriminate].
    rewrite <- E. apply (proj2 (G ds _)). eauto.
Qed.
Print Assumptions C47_per_variable.

(** Interpolations are applied in the order given, each to the result of the one before, all with
    the same reference. *)
Theorem C47_multiple_in_order : forall (is : list interpolation) name a ref b,
  MultipleInterpolation is name a ref = Ok b <-> in_sequence (fun i x => i name x ref) is a b.
Proof.
  induction is as [|i is IH]; intros name a ref b; cbn [MultipleInterpolation].
  - split; [intros [= <-]; constructor|]. now inversion 1.
  - split.
    + intros H. destruct (i name a ref) as [x|] eqn:E; [|discriminate]. cbn [bind] in H. econstructor; [exact E|]. now apply IH.
    + inversion 1 as [|? ? ? x ? E S]; subst. rewrite E. cbn [bind]. now apply IH.
Qed.
Print Assumptions C47_multiple_in_order.

(** ** Padding of the longitude *)
Lemma is_numeric_iff l : is_numeric l = true <-> (exists z, l = LZ z) \/ (exists q, l = LQ q).
Proof. destruct l; cbn; split; intros H; try discriminate; eauto; destruct H as [[? ?]|[? ?]]; discriminate. Qed.
Lemma shift_label_Ok x l : is_numeric l = true -> exists m, shift_label x l = Ok m /\ is_numeric m = true /\ number m = number l + IZR x.
Proof.
  destruct l as [z|q| |]; try discriminate; intros _; cbn [shift_label]; eexists; (split; [reflexivity|]); (split; [reflexivity|]); unfold number; cbn [lnum].
  - rewrite inject_Z_plus, Q2R_plus. f_equal. unfold Q2R, inject_Z. cbn. field.
  - transitivity (Q2R (this q + inject_Z x)); [apply Qeq_eqR, Qred_correct|]. rewrite Q2R_plus. f_equal. unfold Q2R, inject_Z. cbn. field.
Qed.
Lemma dget_mapped (f : list label -> list label) (ds : dimlist) k d : 
  dget (map (fun p => if eqb (fst p) k then (fst p, f (snd p)) else p) ds) d = match dget ds d with Some ls => Some (if eqb d k then f ls else ls) | None => None end.
Proof.
  induction ds as [|[k' ls] ds IH]; [reflexivity|]. cbn [map fst snd]. destruct (eqb k' k) eqn:E; cbn [dget]; destruct (eq_dec d k') as [->|]; auto; now rewrite E.
Qed.
Lemma names_mapped (f : list label -> list label) (ds : dimlist) k : map fst (map (fun p => if eqb (fst p) k then (fst p, f (snd p)) else p) ds) = map fst ds.
Proof. rewrite map_map. apply map_ext. intros [k' ls]. cbn. now destruct (eqb k' k). Qed.
Lemma ascending_last ls d l : ascending ls -> In l ls -> number l <= number (last ls d).
Proof. intros S. apply (last_max number ls d S). Qed.

(** Longitudes that ascend over less than the full circle stay strictly ascending; one copy of the
    last point is put 360 degrees before it, one of the first point 360 degrees after it; the
    other points and dimensions are unchanged. *)
Theorem C47_pad_longitude : forall a first rest,
  let ls := first :: rest in let last_ := last rest first in
  wf a -> dget (dims a) "longitude" = Some ls -> numeric ls -> ascending ls -> number last_ - number first < 360 ->
  exists b before after, pad_longitude a = Ok b /\ wf b /\
    number before = number last_ - 360 /\ number after = number first + 360 /\
    dget (dims b) "longitude" = Some (before :: ls ++ [after]) /\ ascending (before :: ls ++ [after]) /\ numeric (before :: ls ++ [after]) /\
    (forall d, d <> "longitude" -> dget (dims b) d = dget (dims a) d) /\ dnames b = dnames a /\
    forall e, (In (e "longitude") ls -> get b e = get a e) /\
      get b (upd e "longitude" before) = get a (upd e "longitude" last_) /\
      get b (upd e "longitude" after) = get a (upd e "longitude" first).
Proof.
  intros a first rest ls last_ W D Nu S Sp.
  assert (last ls first = last_) as El. { unfold ls, last_. destruct rest; reflexivity. }
  assert (In last_ ls) as Il. { rewrite <- El. apply last_In. discriminate. }
  destruct (shift_label_Ok (-360) last_) as (before & E1 & N1 & V1). { apply is_numeric_iff, Nu, Il. }
  destruct (shift_label_Ok 360 first) as (after & E2 & N2 & V2). { apply is_numeric_iff, Nu. now left. }
  assert (forall l, In l ls -> number first <= number l <= number last_) as B.
  { intros l Hl. split.
    - destruct Hl as [<-|Hl]; [lra|]. apply StronglySorted_inv in S. destruct S as [_ F]. rewrite Forall_forall in F. left. now apply F.
    - rewrite <- El. now apply (ascending_last ls first). }
  assert (number before < number first) as L1. { specialize (B first (or_introl eq_refl)). rewrite V1. lra. }
  assert (number last_ < number after) as L2. { rewrite V2. lra. }
  assert (~ In before ls) as M1. { intros I. specialize (B _ I). lra. }
  assert (~ In after ls) as M2. { intros I. specialize (B _ I). lra. }
  assert (ascending (before :: ls ++ [after])) as SS.
  { constructor.
    - clear -S B L2. assert (forall l, In l ls -> number l < number after) as Q by (intros l Hl; specialize (B l Hl); lra). clear B L2. induction S as [|x xs S IH F]; [constructor; constructor|].
      cbn [app]. constructor; [apply IH; intros l Hl; apply Q; now right|]. apply Forall_app. split; [exact F|]. constructor; [apply Q; now left|constructor].
    - apply Forall_app. split; [apply Forall_forall; intros l Hl; specialize (B l Hl); lra|]. constructor; [|constructor]. specialize (B first (or_introl eq_refl)). lra. }
  assert (numeric (before :: ls ++ [after])) as NN.
  { intros l [<-|Hl]; [now apply is_numeric_iff|]. apply in_app_iff in Hl. destruct Hl as [Hl|[<-|[]]]; [now apply Nu|now apply is_numeric_iff]. }
  unfold pad_longitude. rewrite D. unfold ls at 1. cbv iota beta zeta. fold ls. rewrite El, E1. cbn [bind]. rewrite E2. cbn [bind].
  eexists. exists before, after. split; [reflexivity|]. cbv beta.
  set (source := fun e : env => if memb (e "longitude") ls then e else if eqb (e "longitude") before then upd e "longitude" last_ else if eqb (e "longitude") after then upd e "longitude" first else e).
  assert (forall e e' : env, (forall k, In k (dnames a) -> e k = e' k) -> forall k, In k (dnames a) -> source e k = source e' k) as Loc.
  { intros e e' H k Hk. unfold source. assert (In "longitude" (dnames a)) as Il' by (exact (dget_Some_keys _ _ D)). rewrite <- (H _ Il').
    assert (forall l, upd e "longitude" l k = upd e' "longitude" l k) as U. { intros l. destruct (string_dec k "longitude") as [->|Nk]; [now rewrite !upd_same|]. rewrite !upd_other by auto. now apply H. }
    destruct (memb _ _); [now apply H|]. destruct (eqb _ _); [apply U|]. destruct (eqb _ _); [apply U|]. now apply H. }
  split.
  { split; [|split].
    - unfold dnames. cbn [dims]. rewrite (names_mapped (fun _ => before :: ls ++ [after]) (dims a) "longitude"). apply W.
    - intros k m I. cbn [dims] in I. apply in_map_iff in I. destruct I as ([k' m'] & E & I). cbn [fst snd] in E. destruct (eqb k' "longitude"); injection E as <- <-.
      + now apply ascending_NoDup. + now apply (proj1 (proj2 W) k' m').
    - intros e e' H. cbn [get]. apply W. intros k Hk. apply Loc; [|exact Hk]. intros k' Hk'. apply H. unfold dnames. cbn [dims].
      rewrite (names_mapped (fun _ => before :: ls ++ [after]) (dims a) "longitude"). exact Hk'. }
  split; [exact V1|]. split; [exact V2|]. cbn [dims get]. split; [|split; [exact SS|split; [exact NN|split; [|split]]]].
  - rewrite (dget_mapped (fun _ => before :: ls ++ [after])), D. now rewrite eqb_refl.
  - intros d Nd. rewrite (dget_mapped (fun _ => before :: ls ++ [after])). apply (proj2 (eqb_false_iff d "longitude")) in Nd. rewrite Nd. now destruct (dget (dims a) d).
  - unfold dnames. cbn [dims]. apply (names_mapped (fun _ => before :: ls ++ [after])).
  - intros e. split; [|split].
    + intros I. unfold source. now rewrite (proj2 (memb_In _ _) I).
    + unfold source. rewrite upd_same. rewrite (proj2 (memb_false _ _) M1), eqb_refl. f_equal.
      apply FunctionalExtensionality.functional_extensionality. intros k. destruct (string_dec k "longitude") as [->|Nk]; [now rewrite !upd_same|]. now rewrite !upd_other.
    + unfold source. rewrite upd_same. rewrite (proj2 (memb_false _ _) M2). assert (eqb after before = false) as ->.
      { apply eqb_false_iff. intros E. rewrite E in L2. specialize (B first (or_introl eq_refl)). lra. }
      rewrite eqb_refl. f_equal. apply FunctionalExtensionality.functional_extensionality. intros k. destruct (string_dec k "longitude") as [->|Nk]; [now rewrite !upd_same|]. now rewrite !upd_other.
Qed.
Print Assumptions C47_pad_longitude.

(** ** Interpolation along one dimension *)
Lemma is_numeric_all ls : numeric ls -> forallb is_numeric ls = true.
Proof. intros H. apply forallb_forall. intros l Hl. apply is_numeric_iff. now apply H. Qed.
Lemma interp_dim_Ok m ext d t a ls : dget (dims a) d = Some ls -> numeric ls -> exists out, interp_dim m ext d t a = Ok out /\
  dims out = (let kept := keep (fun k => negb (eqb k d)) (dims a) in kept ++ keep (fun k => negb (memb k (map fst kept))) (t_dims t)) /\
  forall e, get out e = interp1 m ext (points_along d a e) (coord_val (t_get t e)).
Proof. intros D N. unfold interp_dim. rewrite D, (is_numeric_all ls N). eexists. split; [reflexivity|]. split; reflexivity. Qed.
Lemma coord_val_number l : is_numeric l = true -> coord_val l = Fin (number l).
Proof. intros H. unfold coord_val. now rewrite H. Qed.
Lemma wf_NoDup_labels a d ls : wf a -> dget (dims a) d = Some ls -> NoDup ls.
Proof. intros W D. apply (proj1 (proj2 W) d). now apply dget_In. Qed.

(** Linear interpolation to given coordinates along one dimension: between two neighbouring grid
    points the value is on the line through their values, whatever the other values are. *)
Theorem C47_linear : forall name d (t : target) ext a ref ls,
  wf a -> dget (dims a) d = Some ls -> numeric ls -> distinct ls ->
  exists out, InterpolateToFixedCoords Linear [(d, t)] false ext name a ref = Ok out /\
  forall e, numeric [t_get t e] -> let x := number (t_get t e) in
    (forall l1 l2 y1 y2, encloses ls l1 l2 x -> number l1 < x -> get a (upd e d l1) = Fin y1 -> get a (upd e d l2) = Fin y2 ->
       get out e = Fin (on_line (number l1) y1 (number l2) y2 x)) /\
    (forall l, In l ls -> number l = x -> (2 <= length ls)%nat -> (forall l', In l' ls -> isfin (get a (upd e d l')) = true) -> get out e = get a (upd e d l)) /\
    ((forall l, In l ls -> x < number l) \/ (forall l, In l ls -> number l < x) -> ext = false -> get out e = NaN).
Proof.
  intros name d t ext a ref ls W D Nu Di. pose proof (wf_NoDup_labels a d ls W D) as N. destruct (interp_dim_Ok Linear ext d t a ls D Nu) as (out & E & _ & G).
  exists out. split. { unfold InterpolateToFixedCoords. cbn [bind interpolate_to_coords]. rewrite E. reflexivity. }
  intros e Ne x. assert (coord_val (t_get t e) = Fin x) as V. { apply coord_val_number, is_numeric_iff, Ne. now left. }
  rewrite G, V. clear G V E. split; [|split].
  - intros l1 l2 y1 y2 En L E1 E2. rewrite (interp_linear d a ls e D N Di ext l1 l2 x En L). unfold point_at. rewrite E1, E2. apply line_Fin. apply En.
  - intros l I El Len Fi. destruct (enclosing ls N Di x) as [(l1 & l2 & En & C)|(l' & -> & _)]; [split; exists l; split; auto; lra| |cbn in Len; lia].
    assert (interp1 Linear ext (points_along d a e) (Fin x) = line (point_at d a e l1) (point_at d a e l2) x) as ->.
    { destruct C as [C|[C1 C2]]; [now apply (interp_linear d a ls)|now apply (interp_linear_first d a ls)]. }
    destruct En as (I1 & I2 & Lt & [T1 T2] & B). pose proof (Fi l1 I1) as F1. pose proof (Fi l2 I2) as F2. unfold point_at.
    destruct (get a (upd e d l1)) as [y1| | |] eqn:E1; try discriminate. destruct (get a (upd e d l2)) as [y2| | |] eqn:E2; try discriminate. rewrite line_Fin by exact Lt.
    destruct (B l I) as [Q|Q].
    + assert (l = l1) as -> by (apply Di; auto; lra). rewrite E1. f_equal. unfold on_line. rewrite <- El. field. lra.
    + assert (l = l2) as -> by (apply Di; auto; lra). rewrite E2. f_equal. unfold on_line. rewrite <- El. field. lra.
  - intros H ->. now apply (interp_outside d a ls e D N Di).
Qed.
Print Assumptions C47_linear.

(** Nearest-neighbour interpolation: the value of the nearest grid point, missing or infinite values
    included. *)
Theorem C47_nearest : forall name d (t : target) ext a ref ls,
  wf a -> dget (dims a) d = Some ls -> numeric ls -> distinct ls ->
  exists out, InterpolateToFixedCoords Nearest [(d, t)] false ext name a ref = Ok out /\
  forall e, numeric [t_get t e] -> let x := number (t_get t e) in
    (forall l, nearest_label ls l x -> ext = true \/ in_range ls x -> get out e = get a (upd e d l)) /\
    ((forall l, In l ls -> x < number l) \/ (forall l, In l ls -> number l < x) -> ext = false -> get out e = NaN).
Proof.
  intros name d t ext a ref ls W D Nu Di. pose proof (wf_NoDup_labels a d ls W D) as N. destruct (interp_dim_Ok Nearest ext d t a ls D Nu) as (out & E & _ & G).
  exists out. split. { unfold InterpolateToFixedCoords. cbn [bind interpolate_to_coords]. rewrite E. reflexivity. }
  intros e Ne x. assert (coord_val (t_get t e) = Fin x) as V. { apply coord_val_number, is_numeric_iff, Ne. now left. }
  rewrite G, V. split.
  - intros l H R. now apply (interp_nearest d a ls e D N Di ext l x).
  - intros H ->. now apply (interp_outside d a ls e D N Di).
Qed.
Print Assumptions C47_nearest.

(** The dimensions: the given values replace the labels along [d], nothing else changes. *)
Theorem C47_fixed_dims : forall name d ts m ext a ref ls,
  NoDup (dnames a) -> dget (dims a) d = Some ls -> numeric ls ->
  exists out, InterpolateToFixedCoords m [(d, target_values d ts)] false ext name a ref = Ok out /\
  dget (dims out) d = Some ts /\ (forall k, k <> d -> dget (dims out) k = dget (dims a) k) /\ NoDup (dnames out).
Proof.
  intros name d ts m ext a ref ls N D Nu. destruct (interp_dim_Ok m ext d (target_values d ts) a ls D Nu) as (out & E & Do & _).
  exists out. split. { unfold InterpolateToFixedCoords. cbn [bind interpolate_to_coords]. rewrite E. reflexivity. }
  assert (dims out = keep (fun k => negb (eqb k d)) (dims a) ++ [(d, ts)]) as E'.
  { rewrite Do. cbv zeta. f_equal. cbn [target_values t_dims keep filter fst]. assert (memb d (map fst (keep (fun k : string => negb (eqb k d)) (dims a))) = false) as ->; [|reflexivity].
    apply memb_false. intros I. apply in_map_iff in I. destruct I as ([k m'] & <- & I). unfold keep in I. apply filter_In in I. destruct I as [_ I]. cbn [fst] in I. now rewrite eqb_refl in I. }
  assert (forall k, dget (keep (fun k => negb (eqb k d)) (dims a)) k = if eqb k d then None else dget (dims a) k) as K.
  { intros k. rewrite dget_keep. now destruct (eqb k d). }
  split; [|split].
  - rewrite E'. rewrite dget_app_r by (rewrite K; now rewrite eqb_refl). cbn [dget]. now destruct (eq_dec d d).
  - intros k Nk. rewrite E'. pose proof (K k) as Kk. apply (proj2 (eqb_false_iff k d)) in Nk. rewrite Nk in Kk. destruct (dget (dims a) k) as [m'|] eqn:G.
    + now apply dget_app_l.
    + rewrite dget_app_r by exact Kk. cbn [dget]. destruct (eq_dec k d) as [->|]; [now rewrite eqb_refl in Nk|reflexivity].
  - unfold dnames. rewrite E', map_app. cbn [map fst]. apply (Permutation_NoDup (l := d :: map fst (keep (fun k => negb (eqb k d)) (dims a)))); [apply Permutation_cons_append|].
    constructor; [|now apply keep_NoDup]. intros I. apply in_map_iff in I. destruct I as ([k m'] & <- & I). unfold keep in I. apply filter_In in I. destruct I as [_ I]. cbn [fst] in I. now rewrite eqb_refl in I.
Qed.
Print Assumptions C47_fixed_dims.
