(** State-level facts about Aggregator.aggregate_statistics (C10-C13). *)
From Coq Require Import String List Bool Lia Arith Permutation.
Import ListNotations.
From Verif Require Import Prelude Values Model_XArray Spec_XArray Proofs_XArray Model_Tree Spec_Tree Proofs_Tree Model_Aggregation Spec_Aggregation Spec_Aggregator Proofs_AggState Proofs_Aggregator.
From Coq Require Import Reals Lra.
Local Open Scope R_scope.
Local Open Scope list_scope.

(** ** statistic -> variable -> array as a tree *)
Definition nest1 (vs : list (string * da)) : tree da := Dict (map (fun va => (fst va, Leaf (snd va))) vs).
Definition nest (l : list (string * list (string * da))) : tree da :=
  Dict (map (fun kr => (fst kr, nest1 (snd kr))) l).

Lemma items_rel_impl {A B} (P Q : A -> B -> Prop) l l' :
  (forall a b, P a b -> Q a b) -> items_rel P l l' -> items_rel Q l l'.
Proof. intros H. unfold items_rel. induction 1 as [|x y l l' [H1 H2]]; constructor; auto. Qed.
Lemma items_rel_dget {A B} (Q : A -> B -> Prop) (l : list (string * A)) (l' : list (string * B)) k :
  items_rel Q l l' -> match dget l k, dget l' k with
                      | Some a, Some b => Q a b | None, None => True | _, _ => False end.
Proof.
  induction 1 as [|[k1 x] [k2 y] l l' [H1 H2] HF IH]; simpl; [auto|]. simpl in *. subst k2.
  destruct (eq_dec k k1); auto.
Qed.
Lemma items_rel_keys {A B} (Q : A -> B -> Prop) l l' : items_rel Q l l' -> map fst l = map fst l'.
Proof. induction 1 as [|x y l l' [H1 H2]]; simpl; congruence. Qed.

Lemma dget_map_val {A B} (f : A -> B) (l : list (string * A)) k :
  dget (map (fun kr => (fst kr, f (snd kr))) l) k = match dget l k with Some a => Some (f a) | None => None end.
Proof. induction l as [|[k' a] l IH]; simpl; [reflexivity|]. destruct (eq_dec k k'); auto. Qed.

Lemma nest_path k v l :
  at_path (nest l) [Key k; Key v] =
  match dget l k with
  | Some vs => match dget vs v with Some a => Some (Leaf a) | None => None end
  | None => None
  end.
Proof.
  unfold nest. cbn [at_path]. rewrite dget_map_val. destruct (dget l k) as [vs|]; auto.
  unfold nest1. rewrite dget_map_val. destruct (dget vs v); auto.
Qed.

Lemma nest_rel (Q : da -> da -> Prop) l l' : items_rel (items_rel Q) l l' -> tree_rel Q (nest l) (nest l').
Proof.
  intros H [|[k|n] p]; cbn [nest at_path]; auto.
  rewrite !dget_map_val. pose proof (items_rel_dget _ _ _ k H) as Hk.
  destruct (dget l k) as [vs|], (dget l' k) as [vs'|]; try tauto.
  destruct p as [|[v|n] p]; cbn [nest1 at_path]; auto.
  rewrite !dget_map_val. pose proof (items_rel_dget _ _ _ v Hk) as Hv.
  destruct (dget vs v) as [a|], (dget vs' v) as [b|]; try tauto.
  destruct p as [|[|] p]; cbn [at_path]; auto.
Qed.

Lemma map_nest f rb l l' : items_rel (items_rel (fun a b => f a = Ok b)) l l' ->
  map_structure (fun xs => do a <- arrays xs; match a with [x] => f x | _ => Err TypeError end) rb [nest l] = Ok (nest l').
Proof.
  intros H. unfold map_structure, nest. rewrite map_first_Dict.
  match goal with |- context [go_dict ?F rb []] => set (func := F) end.
  assert (go_dict func rb [] (map (fun kr => (fst kr, nest1 (snd kr))) l) = Ok (map (fun kr => (fst kr, nest1 (snd kr))) l')) as ->; [|reflexivity].
  induction H as [|[k vs] [k' vs'] l l' [H1 H2] HF IH]; [reflexivity|]. simpl in H1, H2. subst k'.
  cbn [map fst snd go_dict mapM bind]. unfold nest1 at 1. rewrite map_first_Dict.
  assert (go_dict func rb [] (map (fun va => (fst va, Leaf (snd va))) vs) = Ok (map (fun va => (fst va, Leaf (snd va))) vs')) as Hv.
  { clear - H2. induction H2 as [|[k vs] [k' vs'] l l' [H1 H2] HF IH]; [reflexivity|]. simpl in H1, H2. subst k'.
    cbn [map fst snd go_dict mapM bind map_first]. unfold func at 1. cbn [arrays bind]. rewrite H2. cbn [bind].
    change ((do bs <- go_dict func rb [] (map (fun va => (fst va, Leaf (snd va))) l); Ok ((k, Leaf vs') :: bs)) = Ok ((k, Leaf vs') :: map (fun va => (fst va, Leaf (snd va))) l')).
    now rewrite IH. }
  rewrite Hv. cbn [bind].
  change ((do bs <- go_dict func rb [] (map (fun kr => (fst kr, nest1 (snd kr))) l); Ok ((k, nest1 vs') :: bs)) = Ok ((k, nest1 vs') :: map (fun kr => (fst kr, nest1 (snd kr))) l')).
  now rewrite IH.
Qed.

(** Two trees at once (mean_statistics). *)
Lemma map_nest2 f rb l :
  NoDup (map fst l) -> Forall (fun kv => NoDup (map fst (snd kv))) l ->
  map_structure (fun xs => do a <- arrays xs; match a with [x; y] => Ok (f x y) | _ => Err TypeError end) rb
    [nest (map (fun kr => (fst kr, map (fun vp => (fst vp, fst (snd vp))) (snd kr))) l);
     nest (map (fun kr => (fst kr, map (fun vp => (fst vp, snd (snd vp))) (snd kr))) l)]
  = Ok (nest (map (fun kr => (fst kr, map (fun vp => (fst vp, f (fst (snd vp)) (snd (snd vp)))) (snd kr))) l)).
Proof.
  intros Hn Hf. unfold map_structure. unfold nest at 1. rewrite map_first_Dict.
  match goal with |- context [go_dict ?F rb ?r] => set (func := F); set (rest := r) end.
  assert (forall l1, incl l1 l ->
    go_dict func rb rest (map (fun kr => (fst kr, nest1 (snd kr))) (map (fun kr => (fst kr, map (fun vp => (fst vp, fst (snd vp))) (snd kr))) l1))
    = Ok (map (fun kr => (fst kr, nest1 (snd kr))) (map (fun kr => (fst kr, map (fun vp => (fst vp, f (fst (snd vp)) (snd (snd vp)))) (snd kr))) l1))) as K.
  { induction l1 as [|[k vs] l1 IH]; intros Hin; [reflexivity|].
    cbn [map fst snd go_dict mapM bind]. unfold rest at 1. cbn [mapM].
    assert (In (k, vs) l) as Hkv by (apply Hin; now left).
    assert (child (nest (map (fun kr => (fst kr, map (fun vp => (fst vp, snd (snd vp))) (snd kr))) l)) k
            = Ok (nest1 (map (fun vp => (fst vp, snd (snd vp))) vs))) as Hc.
    { unfold nest, child, dgetE. rewrite dget_map_val.
      change (map (fun kr => (fst kr, map (fun vp => (fst vp, snd (snd vp))) (snd kr))) l)
        with (map (fun kr : string * list (string * (da * da)) => (fst kr, (fun x => map (fun vp => (fst vp, snd (snd vp))) x) (snd kr))) l).
      rewrite dget_map_val. assert (dget l k = Some vs) as -> by (apply In_dget; auto). reflexivity. }
    rewrite Hc. cbn [bind]. unfold nest1 at 1. rewrite map_first_Dict.
    rewrite Forall_forall in Hf. pose proof (Hf _ Hkv) as Hnv. cbn [snd] in Hnv.
    assert (forall vs1, incl vs1 vs ->
      go_dict func rb [nest1 (map (fun vp => (fst vp, snd (snd vp))) vs)] (map (fun va => (fst va, Leaf (snd va))) (map (fun vp => (fst vp, fst (snd vp))) vs1))
      = Ok (map (fun va => (fst va, Leaf (snd va))) (map (fun vp => (fst vp, f (fst (snd vp)) (snd (snd vp)))) vs1))) as Kv.
    { clear - Hnv. induction vs1 as [|[v [a b]] vs1 IH]; intros Hin; [reflexivity|].
      cbn [map fst snd go_dict mapM bind].
      assert (In (v, (a, b)) vs) as Hv by (apply Hin; now left).
      assert (child (nest1 (map (fun vp => (fst vp, snd (snd vp))) vs)) v = Ok (Leaf b)) as Hc.
      { unfold nest1, child, dgetE. rewrite dget_map_val. 
        change (map (fun vp => (fst vp, snd (snd vp))) vs) with (map (fun vp => (fst vp, (fun p : da * da => snd p) (snd vp))) vs).
        rewrite dget_map_val. assert (dget vs v = Some (a, b)) as -> by (apply In_dget; auto). reflexivity. }
      rewrite Hc. cbn [bind map_first]. unfold func at 1. cbn [arrays bind].
      change ((do bs <- go_dict func rb [nest1 (map (fun vp => (fst vp, snd (snd vp))) vs)] (map (fun va => (fst va, Leaf (snd va))) (map (fun vp => (fst vp, fst (snd vp))) vs1)); Ok ((v, Leaf (f a b)) :: bs))
        = Ok ((v, Leaf (f a b)) :: map (fun va => (fst va, Leaf (snd va))) (map (fun vp => (fst vp, f (fst (snd vp)) (snd (snd vp)))) vs1))).
      rewrite IH; [reflexivity|]. intros z Hz. apply Hin. now right. }
    rewrite Kv by apply incl_refl. cbn [bind].
    match goal with |- bind ?X _ = _ => change X with (go_dict func rb rest (map (fun kr => (fst kr, nest1 (snd kr))) (map (fun kr => (fst kr, map (fun vp => (fst vp, fst (snd vp))) (snd kr))) l1))) end.
    rewrite IH; [reflexivity|]. intros z Hz. apply Hin. now right. }
  rewrite K by apply incl_refl. reflexivity.
Qed.

(** ** aggregate_statistics, in terms of aggregate_stat_var *)
Definition kept_vars (g : aggregator) (stats : list (string * option da)) (l : list (string * (da * da))) : Prop :=
  exists rs, Forall2 (fun kv r => match snd kv with
                                  | None => r = None
                                  | Some st => aggregate_stat_var g st = Ok r
                                  end) stats rs /\
    l = flat_map (fun kr => match snd kr with Some p => [(fst kr, p)] | None => [] end) (combine (map fst stats) rs).

Lemma agg_vars_Ok g stats xs ys : aggregate_stat_vars g stats = Ok (xs, ys) <->
  exists l, kept_vars g stats l /\ xs = map (fun kp => (fst kp, fst (snd kp))) l /\ ys = map (fun kp => (fst kp, snd (snd kp))) l.
Proof.
  unfold aggregate_stat_vars, kept_vars.
  assert (forall r, mapM (fun kv => match snd kv with
                                | None => Ok []
                                | Some st => do r <- aggregate_stat_var g st;
                                             Ok (match r with Some p => [(fst kv, p)] | None => [] end)
                                end) stats = Ok r <->
    exists rs, Forall2 (fun kv r => match snd kv with
                                  | None => r = None
                                  | Some st => aggregate_stat_var g st = Ok r
                                  end) stats rs /\
     r = map (fun kr => match snd kr with Some p => [(fst kr, p)] | None => [] end) (combine (map fst stats) rs)) as K.
  { induction stats as [|[k st] stats IH]; intros r; simpl.
    - split; [intros [= <-]; exists []; split; constructor|]. intros [rs [HF ->]]. inversion HF; subst. reflexivity.
    - destruct st as [st|]; simpl.
      + destruct (aggregate_stat_var g st) as [o|e] eqn:E; simpl.
        * destruct (mapM _ stats) as [r'|] eqn:Em; simpl.
          -- destruct (proj1 (IH r') eq_refl) as [rs [HF Hr']]. split.
             ++ intros [= <-]. exists (o :: rs). split; [constructor; auto|]. simpl. now rewrite Hr'.
             ++ intros [rs' [HF' ->]]. inversion HF' as [|? o' ? rs'' H1 H2]; subst. simpl in H1. rewrite E in H1. injection H1 as <-.
                simpl. pose proof (proj2 (IH _) (ex_intro _ rs'' (conj H2 eq_refl))) as Q. injection Q as Q. now rewrite Q.
          -- split; [discriminate|]. intros [rs' [HF' ->]]. inversion HF' as [|? o' ? rs'' H1 H2]; subst.
             pose proof (proj2 (IH _) (ex_intro _ rs'' (conj H2 eq_refl))). discriminate.
        * split; [discriminate|]. intros [rs' [HF' ->]]. inversion HF' as [|? o' ? rs'' H1 H2]; subst. simpl in H1. congruence.
      + destruct (mapM _ stats) as [r'|] eqn:Em; simpl.
          -- destruct (proj1 (IH r') eq_refl) as [rs [HF Hr']]. split.
             ++ intros [= <-]. exists (None :: rs). split; [constructor; [reflexivity|assumption]|]. simpl. now rewrite Hr'.
             ++ intros [rs' [HF' ->]]. inversion HF' as [|? o' ? rs'' H1 H2]; subst. simpl in H1. subst o'.
                simpl. pose proof (proj2 (IH _) (ex_intro _ rs'' (conj H2 eq_refl))) as Q. injection Q as Q. now rewrite Q.
          -- split; [discriminate|]. intros [rs' [HF' ->]]. inversion HF' as [|? o' ? rs'' H1 H2]; subst.
             pose proof (proj2 (IH _) (ex_intro _ rs'' (conj H2 eq_refl))). discriminate. }
  destruct (mapM _ stats) as [r|e] eqn:Em; simpl.
  - destruct (proj1 (K r) eq_refl) as [rs [HF Hr]]. rewrite Hr, <- flat_map_concat_map. split.
    + intros [= <- <-]. eexists. split; [eauto|]. auto.
    + intros (l & [rs' [HF' ->]] & -> & ->). pose proof (proj2 (K _) (ex_intro _ rs' (conj HF' eq_refl))) as Q. injection Q as Q.
      rewrite Hr in Q. rewrite !flat_map_concat_map. now rewrite Q.
  - split; [discriminate|]. intros (l & [rs' [HF' ->]] & _). pose proof (proj2 (K _) (ex_intro _ rs' (conj HF' eq_refl))). discriminate.
Qed.

Lemma agg_stats_Ok g stats s : aggregate_statistics g stats = Ok s <->
  exists L, items_rel (kept_vars g) stats L /\
    s = Some (nest (map (fun kr => (fst kr, map (fun vp => (fst vp, fst (snd vp))) (snd kr))) L),
              nest (map (fun kr => (fst kr, map (fun vp => (fst vp, snd (snd vp))) (snd kr))) L)).
Proof.
  unfold aggregate_statistics.
  assert (forall r, mapM (fun kv => do r <- aggregate_stat_vars g (snd kv); Ok (fst kv, r)) stats = Ok r <->
    exists L, items_rel (kept_vars g) stats L /\
      r = map (fun kl => (fst kl, (map (fun kp => (fst kp, fst (snd kp))) (snd kl), map (fun kp => (fst kp, snd (snd kp))) (snd kl)))) L) as K.
  { induction stats as [|[k vs] stats IH]; intros r; simpl.
    - split; [intros [= <-]; exists []; split; constructor|]. intros [L [HF ->]]. inversion HF; subst. reflexivity.
    - destruct (aggregate_stat_vars g vs) as [[xs ys]|] eqn:E; simpl.
      + apply agg_vars_Ok in E. destruct E as (l & Hk & -> & ->).
        destruct (mapM _ stats) as [r'|] eqn:Em; simpl.
        * destruct (proj1 (IH r') eq_refl) as [L [HF Hr']]. split.
          -- intros [= <-]. exists ((k, l) :: L). split; [constructor; auto|]. simpl. now rewrite Hr'.
          -- intros [L' [HF' ->]]. inversion HF' as [|? [k' l'] ? L'' [H1 H2] H3]; subst. simpl in H1, H2. subst k'.
             pose proof (proj2 (IH _) (ex_intro _ L'' (conj H3 eq_refl))) as Q. injection Q as Q. simpl. rewrite Q. f_equal. f_equal. f_equal.
             assert (l = l') as ->; [|reflexivity]. 
             destruct Hk as [rs [F1 ->]], H2 as [rs' [F2 ->]]. f_equal. f_equal.
             clear - F1 F2. revert rs' F2. induction F1 as [|a o vs rs Ho F1 IH]; intros rs' F2; inversion F2 as [|? o' ? rs'' Ho' F2']; subst; [reflexivity|].
             f_equal; auto. destruct (snd a); congruence.
        * split; [discriminate|]. intros [L' [HF' ->]]. inversion HF' as [|? [k' l'] ? L'' [H1 H2] H3]; subst.
          pose proof (proj2 (IH _) (ex_intro _ L'' (conj H3 eq_refl))). discriminate.
      + split; [discriminate|]. intros [L' [HF' ->]]. inversion HF' as [|? [k' l'] ? L'' [H1 H2] H3]; subst. simpl in *.
        assert (aggregate_stat_vars g vs = Ok (map (fun kp => (fst kp, fst (snd kp))) l', map (fun kp => (fst kp, snd (snd kp))) l')) by (apply agg_vars_Ok; eauto).
        congruence. }
  assert (forall L : list (string * list (string * (da * da))),
    Some (Dict (map (fun kr => (fst kr, Dict (map (fun va => (fst va, Leaf (snd va))) (fst (snd kr))))) (map (fun kl => (fst kl, (map (fun kp => (fst kp, fst (snd kp))) (snd kl), map (fun kp => (fst kp, snd (snd kp))) (snd kl)))) L)),
          Dict (map (fun kr => (fst kr, Dict (map (fun va => (fst va, Leaf (snd va))) (snd (snd kr))))) (map (fun kl => (fst kl, (map (fun kp => (fst kp, fst (snd kp))) (snd kl), map (fun kp => (fst kp, snd (snd kp))) (snd kl)))) L)))
    = Some (nest (map (fun kr => (fst kr, map (fun vp => (fst vp, fst (snd vp))) (snd kr))) L),
              nest (map (fun kr => (fst kr, map (fun vp => (fst vp, snd (snd vp))) (snd kr))) L))) as Q.
  { intros L. unfold nest. rewrite !map_map. reflexivity. }
  destruct (mapM _ stats) as [r|e] eqn:Em; simpl.
  - destruct (proj1 (K r) eq_refl) as [L [HF ->]]. rewrite Q. split.
    + intros [= <-]. eauto.
    + intros (L' & HF' & ->). pose proof (proj2 (K _) (ex_intro _ L' (conj HF' eq_refl))) as E. injection E as E.
      rewrite <- !Q. now rewrite E.
  - split; [discriminate|]. intros (L' & HF' & ->). pose proof (proj2 (K _) (ex_intro _ L' (conj HF' eq_refl))). discriminate.
Qed.

(** Looking up one variable. *)
Lemma kept_dget g stats l v : kept_vars g stats l -> NoDup (map fst stats) ->
  match dget stats v with
  | Some (Some st) => exists r, aggregate_stat_var g st = Ok r /\ dget l v = r
  | _ => dget l v = None
  end.
Proof.
  intros [rs [HF ->]] Hn. induction HF as [|[k o] r stats rs Hr HF IH]; simpl in *; [reflexivity|].
  inversion Hn as [|? ? Hni Hn']; subst. destruct (eq_dec v k) as [->|Hne].
  - assert (dget (flat_map (fun kr : string * option (da * da) => match snd kr with Some p => [(fst kr, p)] | None => [] end) (combine (map fst stats) rs)) k = None) as Hnone.
    { apply dget_None. intros Hin. apply Hni. unfold keys in Hin. apply in_map_iff in Hin. destruct Hin as [[k' p] [<- Hin]].
      apply in_flat_map in Hin. destruct Hin as [[k'' o'] [H1 H2]]. simpl in H2. destruct o'; [|destruct H2].
      destruct H2 as [[= <- <-]|[]]. simpl. eapply in_combine_l; eauto. }
    destruct o as [st|]; simpl in *.
    + exists r. split; auto. destruct r; simpl; [|auto]. destruct (eq_dec k k); [reflexivity|congruence].
    + subst r. simpl. auto.
  - assert (dget ((match r with Some p => [(k, p)] | None => [] end) ++ flat_map (fun kr : string * option (da * da) => match snd kr with Some p => [(fst kr, p)] | None => [] end) (combine (map fst stats) rs)) v = dget (flat_map (fun kr : string * option (da * da) => match snd kr with Some p => [(fst kr, p)] | None => [] end) (combine (map fst stats) rs)) v) as ->.
    { destruct r; simpl; [destruct (eq_dec v k); [congruence|reflexivity]|reflexivity]. }
    exact (IH Hn').
Qed.
Lemma kept_NoDup g stats l : kept_vars g stats l -> NoDup (map fst stats) -> NoDup (map fst l).
Proof.
  intros [rs [HF ->]] Hn. induction HF as [|[k o] r stats rs Hr HF IH]; simpl in *; [constructor|].
  inversion Hn as [|? ? Hni Hn']; subst. destruct r; simpl; auto. constructor; auto.
  intros Hin. apply Hni. apply in_map_iff in Hin. destruct Hin as [[k' p'] [<- Hin]].
  apply in_flat_map in Hin. destruct Hin as [[k'' o'] [H1 H2]]. simpl in H2. destruct o'; [|destruct H2].
  destruct H2 as [[= <- <-]|[]]. simpl. eapply in_combine_l; eauto.
Qed.

(** ** C10 *)
Definition stage_rel R2 (p q : da * da) : Prop :=
  exists x' y', da_sum R2 (fst p) = Ok x' /\ da_sum R2 (snd p) = Ok y' /\ da_equiv x' (fst q) /\ da_equiv y' (snd q).

Lemma same_da_equiv a b : dims a = dims b -> (forall e, get a e = get b e) -> da_equiv a b.
Proof. intros Hd Hg. split; [unfold dnames; rewrite Hd; reflexivity|]. split; [rewrite Hd; reflexivity|]. auto. Qed.

Lemma stat_two_stage g R2 s x :
  (forall w a, In w (weigh_by g) -> w s = Ok a -> NoDup (dnames a)) ->
  (forall b a, In b (bin_by g) -> create_bin_mask b s = Ok a -> NoDup (dnames a)) ->
  NoDup (dnames s) -> incl R2 (dnames s) -> (forall d, In d (reduce_dims g) -> ~ In d R2) ->
  aggregation_fn g s = Ok x ->
  match x with
  | None => aggregation_fn (with_reduce_dims g (reduce_dims g ++ R2)) s = Ok None
  | Some x => exists x' x2, da_sum R2 x = Ok x' /\ aggregation_fn (with_reduce_dims g (reduce_dims g ++ R2)) s = Ok (Some x2) /\ da_equiv x' x2
  end.
Proof.
  intros Hw Hb Hs HR Hdis Hx. destruct x as [x|].
  - apply agg_fn_Some in Hx. destruct Hx as (Hin & Hnd & ws & ms & Ews & Ems & ->).
    destruct (two_stage (reduce_dims g) R2 (s :: ws ++ ms)) as (x' & Hx' & Hd & Hg).
    + intros a [<-|Ha]; auto. apply in_app_iff in Ha. destruct Ha as [Ha|Ha].
      * apply mapM_Ok_Forall2 in Ews. revert Hw. clear - Ews Ha. induction Ews; simpl in *; [tauto|]. intros Hw. destruct Ha as [<-|Ha]; eauto.
      * apply bin_masks_Some in Ems. destruct Ems as [Ems _]. apply mapM_Ok_Forall2 in Ems. revert Hb. clear - Ems Ha. induction Ems; simpl in *; [tauto|]. intros Hw. destruct Ha as [<-|Ha]; eauto.
    + exact Hdis.
    + intros d Hd. exists s. split; [now left|auto].
    + exists x', (da_dot (reduce_dims g ++ R2) (s :: ws ++ ms)). split; auto. split; [|now apply same_da_equiv].
      apply agg_fn_Some. cbn [with_reduce_dims reduce_dims bin_by weigh_by]. split; [now apply incl_app|]. split; auto. eauto 10.
  - unfold aggregation_fn in *. cbn [with_reduce_dims reduce_dims bin_by weigh_by].
    assert (subsetb (reduce_dims g ++ R2) (dnames s) = subsetb (reduce_dims g) (dnames s)) as ->; [|destruct (subsetb _ _); [|reflexivity]].
    + unfold subsetb. rewrite forallb_app. replace (forallb (fun x => memb x (dnames s)) R2) with true; [now rewrite andb_true_r|].
      symmetry. now apply subsetb_In.
    + simpl in *. destruct (mapM _ _); simpl in *; [|discriminate]. destruct (negb _); [discriminate|].
      destruct (bin_masks _ _) as [[|]|]; simpl in *; congruence.
Qed.

Lemma var_two_stage g R2 st r :
  (forall w s a, In w (weigh_by g) -> w s = Ok a -> NoDup (dnames a)) ->
  (forall b s a, In b (bin_by g) -> create_bin_mask b s = Ok a -> NoDup (dnames a)) ->
  NoDup (dnames st) -> incl R2 (dnames st) -> (forall d, In d (reduce_dims g) -> ~ In d R2) ->
  aggregate_stat_var g st = Ok r ->
  exists r2, aggregate_stat_var (with_reduce_dims g (reduce_dims g ++ R2)) st = Ok r2 /\
    match r, r2 with Some p, Some q => stage_rel R2 p q | None, None => True | _, _ => False end.
Proof.
  intros Hw Hb Hs HR Hdis H. unfold aggregate_stat_var in *.
  destruct (prepare_dims g st) as [D1 D2].
  assert (prepare (with_reduce_dims g (reduce_dims g ++ R2)) st = prepare g st) as -> by reflexivity.
  destruct (prepare g st) as [s m]. simpl in D1, D2. unfold dnames in *.
  destruct (aggregation_fn g s) as [x|] eqn:E1; simpl in H; [|discriminate].
  destruct (aggregation_fn g m) as [y|] eqn:E2; simpl in H; [|discriminate]. injection H as <-.
  pose proof (stat_two_stage g R2 s x (fun w a => Hw w s a) (fun w a => Hb w s a)) as K1.
  pose proof (stat_two_stage g R2 m y (fun w a => Hw w m a) (fun w a => Hb w m a)) as K2.
  unfold dnames in K1, K2. rewrite D1 in K1. rewrite D2 in K2.
  specialize (K1 Hs HR Hdis E1). specialize (K2 Hs HR Hdis E2).
  destruct x as [x|], y as [y|].
  - destruct K1 as (x' & x2 & K11 & -> & K13), K2 as (y' & y2 & K21 & -> & K23). simpl. eexists. split; [reflexivity|].
    exists x', y'. auto.
  - destruct K1 as (x' & x2 & K11 & -> & K13). rewrite K2. simpl. eexists. split; [reflexivity|]. exact I.
  - destruct K2 as (x' & x2 & K11 & -> & K13). rewrite K1. simpl. eexists. split; [reflexivity|]. exact I.
  - rewrite K1, K2. simpl. eexists. split; [reflexivity|]. exact I.
Qed.

Lemma vars_two_stage g R2 vs l :
  (forall w s a, In w (weigh_by g) -> w s = Ok a -> NoDup (dnames a)) ->
  (forall b s a, In b (bin_by g) -> create_bin_mask b s = Ok a -> NoDup (dnames a)) ->
  (forall v st, In (v, Some st) vs -> NoDup (dnames st) /\ incl R2 (dnames st)) -> (forall d, In d (reduce_dims g) -> ~ In d R2) ->
  kept_vars g vs l -> exists l2, kept_vars (with_reduce_dims g (reduce_dims g ++ R2)) vs l2 /\ items_rel (stage_rel R2) l l2.
Proof.
  intros Hw Hb Hs Hdis [rs [HF ->]].
  assert (exists rs2, Forall2 (fun kv r => match snd kv with
                                  | None => r = None
                                  | Some st => aggregate_stat_var (with_reduce_dims g (reduce_dims g ++ R2)) st = Ok r
                                  end) vs rs2 /\
    Forall2 (fun r r2 => match r, r2 with Some p, Some q => stage_rel R2 p q | None, None => True | _, _ => False end) rs rs2) as (rs2 & F2 & FR).
  { induction HF as [|[k o] r vs rs Hr HF IH]; [exists []; split; constructor|].
    destruct IH as (rs2 & F2 & FR); [intros; eapply Hs; right; eauto|]. simpl in Hr. destruct o as [st|].
    - destruct (Hs k st (or_introl eq_refl)) as [H1 H2].
      destruct (var_two_stage g R2 st r Hw Hb H1 H2 Hdis Hr) as (r2 & Hr2 & Hrel).
      exists (r2 :: rs2). split; constructor; auto.
    - exists (None :: rs2). subst r. split; constructor; simpl; auto. }
  eexists. split; [exists rs2; split; [exact F2|reflexivity]|].
  assert (length (map fst vs) = length rs) as Hl by (rewrite map_length; clear - HF; induction HF; simpl; congruence).
  clear - FR Hl. revert Hl. generalize (map fst vs). clear vs. intros ks. revert ks.
  induction FR as [|r r2 rs rs2 Hr FR IH]; intros [|k ks] Hl; simpl in *; try discriminate; [constructor|].
  destruct r, r2; try tauto; simpl; [constructor; auto; apply IH; lia|apply IH; lia].
Qed.

Theorem two_stage_state g R2 stats s1 :
  (forall w s a, In w (weigh_by g) -> w s = Ok a -> NoDup (dnames a)) ->
  (forall b s a, In b (bin_by g) -> create_bin_mask b s = Ok a -> NoDup (dnames a)) ->
  (forall k vs v st, In (k, vs) stats -> In (v, Some st) vs -> NoDup (dnames st) /\ incl R2 (dnames st)) ->
  (forall d, In d (reduce_dims g) -> ~ In d R2) ->
  aggregate_statistics g stats = Ok s1 ->
  exists s1' s2, sum_along_dims R2 s1 = Ok s1' /\
    aggregate_statistics (with_reduce_dims g (reduce_dims g ++ R2)) stats = Ok s2 /\ state_equiv s1' s2.
Proof.
  intros Hw Hb Hs Hdis H1. apply agg_stats_Ok in H1. destruct H1 as (L & HL & ->).
  assert (exists L2, items_rel (kept_vars (with_reduce_dims g (reduce_dims g ++ R2))) stats L2 /\ items_rel (items_rel (stage_rel R2)) L L2) as (L2 & HL2 & HR).
  { clear - Hw Hb Hs Hdis HL. induction HL as [|[k vs] [k' l] stats L [E1 E2] HL IH]; [exists []; split; constructor|].
    simpl in E1, E2. subst k'. destruct IH as (L2 & F1 & F2); [intros; eapply Hs; eauto; right; eauto|].
    destruct (vars_two_stage g R2 vs l Hw Hb (fun v st Hin => Hs k vs v st (or_introl eq_refl) Hin) Hdis E2) as (l2 & G1 & G2).
    exists ((k, l2) :: L2). split; constructor; auto. }
  (* the summed trees *)
  assert (exists X Y, 
     items_rel (items_rel (fun a b => da_sum R2 a = Ok b)) (map (fun kr => (fst kr, map (fun vp => (fst vp, fst (snd vp))) (snd kr))) L) X /\
     items_rel (items_rel (fun a b => da_sum R2 a = Ok b)) (map (fun kr => (fst kr, map (fun vp => (fst vp, snd (snd vp))) (snd kr))) L) Y /\
     items_rel (items_rel da_equiv) X (map (fun kr => (fst kr, map (fun vp => (fst vp, fst (snd vp))) (snd kr))) L2) /\
     items_rel (items_rel da_equiv) Y (map (fun kr => (fst kr, map (fun vp => (fst vp, snd (snd vp))) (snd kr))) L2)) as (X & Y & X1 & Y1 & X2 & Y2).
  { clear - HR. induction HR as [|[k l] [k' l2] L L2 [E1 E2] HR IH]; [exists [], []; repeat split; constructor|].
    simpl in E1, E2. subst k'. destruct IH as (X & Y & X1 & Y1 & X2 & Y2).
    assert (exists x y, items_rel (fun a b => da_sum R2 a = Ok b) (map (fun vp => (fst vp, fst (snd vp))) l) x /\
        items_rel (fun a b => da_sum R2 a = Ok b) (map (fun vp => (fst vp, snd (snd vp))) l) y /\
        items_rel da_equiv x (map (fun vp => (fst vp, fst (snd vp))) l2) /\ items_rel da_equiv y (map (fun vp => (fst vp, snd (snd vp))) l2)) as (x & y & x1 & y1 & x2 & y2).
    { clear - E2. induction E2 as [|[v p] [v' q] l l2 [E1 E2] E2' IH]; [exists [], []; repeat split; constructor|].
      simpl in E1, E2. subst v'. destruct IH as (x & y & x1 & y1 & x2 & y2). destruct E2 as (x' & y' & Q1 & Q2 & Q3 & Q4).
      exists ((v, x') :: x), ((v, y') :: y). repeat split; constructor; auto. }
    exists ((k, x) :: X), ((k, y) :: Y). repeat split; constructor; auto. }
  exists (Some (nest X, nest Y)). eexists. split; [|split].
  - unfold sum_along_dims, map_state, map_multi. simpl existsb. cbn match. unfold nonzero_states. cbn [flat_map app map fst snd].
    rewrite (map_nest (da_sum R2) rebuild_ds _ X X1). cbn [bind]. rewrite (map_nest (da_sum R2) rebuild_ds _ Y Y1). reflexivity.
  - apply agg_stats_Ok. eauto.
  - split; now apply nest_rel.
Qed.

(** ** C11: mean statistics *)
Theorem mean_leaf g stats s t k v st x y :
  NoDup (map fst stats) -> (forall k vs, In (k, vs) stats -> NoDup (map fst vs)) ->
  (exists vs, dget stats k = Some vs /\ dget vs v = Some (Some st)) ->
  aggregate_stat_var g st = Ok (Some (x, y)) ->
  aggregate_statistics g stats = Ok s -> mean_statistics s = Ok t ->
  at_path t [Key k; Key v] = Some (Leaf (binop vdiv x y)).
Proof.
  intros Hn Hnv (vs & Hk & Hv) Hst H Hm. apply agg_stats_Ok in H. destruct H as (L & HL & ->).
  pose proof (items_rel_keys _ _ _ HL) as Hkeys.
  assert (Forall (fun kv : string * list (string * (da * da)) => NoDup (map fst (snd kv))) L) as HLn.
  { clear - HL Hnv. induction HL as [|[k vs] [k' l] stats L [E1 E2] HL IH]; constructor.
    - simpl in *. eapply kept_NoDup; [exact E2|]. eapply Hnv. now left.
    - apply IH. intros; eapply Hnv; right; eauto. }
  unfold mean_statistics in Hm. rewrite map_nest2 in Hm; [|congruence|exact HLn].
  injection Hm as <-. rewrite nest_path.
  change (map (fun kr => (fst kr, map (fun vp => (fst vp, binop vdiv (fst (snd vp)) (snd (snd vp)))) (snd kr))) L)
    with (map (fun kr : string * list (string * (da * da)) => (fst kr, (fun l => map (fun vp => (fst vp, binop vdiv (fst (snd vp)) (snd (snd vp)))) l) (snd kr))) L).
  rewrite dget_map_val. pose proof (items_rel_dget _ _ _ k HL) as HD. rewrite Hk in HD.
  destruct (dget L k) as [l|] eqn:El; [|destruct HD].
  change (map (fun vp => (fst vp, binop vdiv (fst (snd vp)) (snd (snd vp)))) l)
    with (map (fun vp : string * (da * da) => (fst vp, (fun p => binop vdiv (fst p) (snd p)) (snd vp))) l).
  rewrite dget_map_val. pose proof (kept_dget g vs l v HD (Hnv k vs (dget_In _ _ Hk))) as HV. rewrite Hv in HV.
  destruct HV as (r & Hr & Hl). rewrite Hst in Hr. injection Hr as <-. rewrite Hl. reflexivity.
Qed.

Lemma binop_point f x y e : dims x = dims y -> point_of (dims (binop f x y)) e <-> point_of (dims x) e.
Proof.
  intros Hd. simpl. rewrite <- Hd.
  assert (NoDup (map fst (dims x)) \/ True) as _ by auto.
  split.
  - intros H d ls Hin. unfold merge_dims in H.
    destruct (dget (dims x) d) as [l|] eqn:E.
    + specialize (H d (inter_labels ls l)).
      assert (In (e d) (inter_labels ls l)) as HH; [|apply In_inter in HH; tauto].
      apply H. apply in_app_iff. left. apply in_map_iff. exists (d, ls). split; auto. simpl. now rewrite E.
    + apply dget_None in E. exfalso. apply E. unfold keys. apply in_map_iff. exists (d, ls). auto.
  - intros H d ls Hin. unfold merge_dims in Hin. apply in_app_iff in Hin. destruct Hin as [Hin|Hin].
    + apply in_map_iff in Hin. destruct Hin as [[d' l'] [E Hin]]. simpl in E.
      destruct (dget (dims x) d') as [l|] eqn:El; injection E as <- <-; [|now apply H].
      apply In_inter. split; [now apply (H d' l')|]. apply (H d' l). now apply dget_In.
    + apply filter_In in Hin. destruct Hin as [Hin Hne]. simpl in Hne. apply negb_true_iff, memb_false in Hne.
      exfalso. apply Hne. apply in_map_iff. exists (d, ls). auto.
Qed.

Lemma agg_var_dims g st x y :
  (forall w, In w (weigh_by g) -> uses_coords w) ->
  (forall b, In b (bin_by g) -> uses_coords (create_bin_mask b)) ->
  mask_spans st -> aggregate_stat_var g st = Ok (Some (x, y)) -> dims x = dims y.
Proof.
  intros Hw Hb Hs H. destruct (agg_var_Some g st x y Hw Hb Hs H) as (ws & ms & _ & _ & _ & _ & -> & ->).
  destruct (prepare_dims g st) as [D1 D2]. rewrite !dims_dot. f_equal. apply ijoint_dims. congruence.
Qed.

Theorem mean_value g stats agg t k v st s ws wrs ms bs m e :
  NoDup (map fst stats) -> (forall k vs, In (k, vs) stats -> NoDup (map fst vs)) ->
  aggregate_statistics g stats = Ok agg -> mean_statistics agg = Ok t ->
  (exists vs, dget stats k = Some vs /\ dget vs v = Some (Some st)) ->
  weighted_input g st s ws wrs ms bs ->
  at_path t [Key k; Key v] = Some (Leaf m) -> point_of (dims m) e ->
  exists P, reduced_points (st :: ws ++ ms) (reduce_dims g) e P /\
    let u := point_weight g st wrs bs in
    (rsum (map u P) <> 0 -> get m e = Fin (rsum (map (fun p => u p * s p) P) / rsum (map u P))) /\
    (rsum (map u P) = 0 -> (forall p, In p P -> 0 <= u p) -> get m e = NaN).
Proof.
  intros Hn Hnv Hagg Hmean Hlook W Hm He.
  assert (exists r, aggregate_stat_var g st = Ok r) as [r Hr].
  { destruct Hlook as (vs & Hk & Hv). apply agg_stats_Ok in Hagg. destruct Hagg as (L & HL & ->).
    pose proof (items_rel_dget _ _ _ k HL) as HD. rewrite Hk in HD. destruct (dget L k) as [l|]; [|destruct HD].
    pose proof (kept_dget g vs l v HD (Hnv k vs (dget_In _ _ Hk))) as HV. rewrite Hv in HV. destruct HV as (r & Hr & _). eauto. }
  destruct r as [[x y]|].
  - rewrite (mean_leaf g stats agg t k v st x y Hn Hnv Hlook Hr Hagg Hmean) in Hm. injection Hm as <-.
    assert (dims x = dims y) as Hd by (eapply agg_var_dims; eauto; apply W).
    apply binop_point in He; auto.
    destruct (sums_formula g st s x y ws ms wrs bs) with (e := e) as (P & HP & Hx & Hy); try apply W; auto.
    exists P. split; auto. cbn zeta. cbn [get binop]. rewrite Hx, Hy. split.
    + intros H. now apply vdiv_Fin.
    + intros H Hu.
      assert (rsum (map (fun p => point_weight g st wrs bs p * s p) P) = 0) as ->.
      { rewrite (rsum_map_ext _ (fun _ => 0)); [rewrite rsum_map_const; lra|].
        intros p Hp. assert (point_weight g st wrs bs p = 0) as ->; [|lra].
        eapply rsum_zero_iff; [|exact H|now apply in_map]. intros z Hz. apply in_map_iff in Hz. destruct Hz as [q [<- Hq]]. auto. }
      rewrite H. apply vdiv_0_0.
  - exfalso. destruct Hlook as (vs & Hk & Hv). apply agg_stats_Ok in Hagg. destruct Hagg as (L & HL & ->).
    assert (Forall (fun kv : string * list (string * (da * da)) => NoDup (map fst (snd kv))) L) as HLn.
    { clear - HL Hnv. induction HL as [|[k vs] [k' l] stats L [E1 E2] HL IH]; constructor.
      - simpl in *. eapply kept_NoDup; [exact E2|]. eapply Hnv. now left.
      - apply IH. intros; eapply Hnv; right; eauto. }
    pose proof (items_rel_keys _ _ _ HL) as Hkeys.
    unfold mean_statistics in Hmean. rewrite map_nest2 in Hmean; [|congruence|exact HLn]. injection Hmean as <-.
    rewrite nest_path in Hm.
    change (map (fun kr => (fst kr, map (fun vp => (fst vp, binop vdiv (fst (snd vp)) (snd (snd vp)))) (snd kr))) L)
      with (map (fun kr : string * list (string * (da * da)) => (fst kr, (fun l => map (fun vp => (fst vp, binop vdiv (fst (snd vp)) (snd (snd vp)))) l) (snd kr))) L) in Hm.
    rewrite dget_map_val in Hm. pose proof (items_rel_dget _ _ _ k HL) as HD. rewrite Hk in HD.
    destruct (dget L k) as [l|] eqn:El; [|destruct HD].
    change (map (fun vp => (fst vp, binop vdiv (fst (snd vp)) (snd (snd vp)))) l)
      with (map (fun vp : string * (da * da) => (fst vp, (fun p => binop vdiv (fst p) (snd p)) (snd vp))) l) in Hm.
    rewrite dget_map_val in Hm. pose proof (kept_dget g vs l v HD (Hnv k vs (dget_In _ _ Hk))) as HV. rewrite Hv in HV.
    destruct HV as (r & Hr' & Hl). rewrite Hr in Hr'. injection Hr' as <-. rewrite Hl in Hm. discriminate.
Qed.

(** ** C12 *)
Lemma agg_fn_equiv g a b :
  (forall w, In w (weigh_by g) -> uses_coords w) ->
  (forall b, In b (bin_by g) -> uses_coords (create_bin_mask b)) ->
  (forall w a, In w (weigh_by g) -> w b = Ok a -> NoDup (dnames a)) ->
  (forall x a, In x (bin_by g) -> create_bin_mask x b = Ok a -> NoDup (dnames a)) ->
  NoDup (dnames a) -> dims a = dims b -> aux a = aux b ->
  (forall e, point_of (dims a) e -> get a e = get b e) ->
  outcome_rel (opt_rel da_equiv) (aggregation_fn g a) (aggregation_fn g b).
Proof.
  intros Hw Hb Nw Nb Hn Hd Ha Hg. unfold aggregation_fn.
  rewrite (mapM_uses_coords _ a b Hw Hd Ha), (bin_masks_uses_coords _ a b Hb Hd Ha).
  unfold dnames at 1 2. rewrite Hd. destruct (subsetb _ _); simpl; [|exact I].
  destruct (mapM (fun w => w b) (weigh_by g)) as [ws|] eqn:Ews; simpl; [|reflexivity].
  destruct (nodupb _); simpl; [|reflexivity].
  destruct (bin_masks (bin_by g) b) as [[ms|]|] eqn:Ems; simpl; [|exact I|reflexivity].
  assert (dims (da_dot (reduce_dims g) (a :: ws ++ ms)) = dims (da_dot (reduce_dims g) (b :: ws ++ ms))) as HD by now rewrite !dims_dot, (ijoint_dims a b).
  split; [unfold dnames; rewrite HD; reflexivity|]. split; [rewrite HD; reflexivity|].
  intros e He. rewrite !dot_get. unfold dot_points. rewrite <- (ijoint_dims a b _ Hd).
  f_equal. apply map_ext_in. intros e' He'. simpl. f_equal. apply Hg.
  eapply (dot_points_in (reduce_dims g) (a :: ws ++ ms)); [|exact He|exact He'|now left].
  intros z [<-|Hz]; auto. apply in_app_iff in Hz. destruct Hz as [Hz|Hz].
  - apply mapM_Ok_Forall2 in Ews. revert Nw. clear - Ews Hz. induction Ews; simpl in *; [tauto|]. intros Hw. destruct Hz as [<-|Ha]; eauto.
  - apply bin_masks_Some in Ems. destruct Ems as [Ems _]. apply mapM_Ok_Forall2 in Ems. revert Nb. clear - Ems Hz. induction Ems; simpl in *; [tauto|]. intros Hw. destruct Hz as [<-|Ha]; eauto.
Qed.

Lemma prepare_coords g a b : dims a = dims b -> aux a = aux b ->
  aux (fst (prepare g a)) = aux (fst (prepare g b)) /\ aux (snd (prepare g a)) = aux (snd (prepare g b)).
Proof.
  intros Hd Ha. unfold prepare. rewrite Ha. destruct (if masked g then _ else _); [|destruct (skipna g)]; simpl; rewrite ?Ha; auto.
Qed.

Lemma masked_var g a b : masked g = true ->
  (forall w, In w (weigh_by g) -> uses_coords w) ->
  (forall b, In b (bin_by g) -> uses_coords (create_bin_mask b)) ->
  (forall w s a, In w (weigh_by g) -> w s = Ok a -> NoDup (dnames a)) ->
  (forall x s a, In x (bin_by g) -> create_bin_mask x s = Ok a -> NoDup (dnames a)) ->
  dget (aux a) "mask"%string <> None -> agree_unmasked a b ->
  outcome_rel (opt_rel (fun p q => da_equiv (fst p) (fst q) /\ da_equiv (snd p) (snd q))) (aggregate_stat_var g a) (aggregate_stat_var g b).
Proof.
  intros Hm Hw Hb Nw Nb Hmask (Hd & Ha & Hn & Hg).
  destruct (dget (aux a) "mask"%string) as [c|] eqn:Ec; [|congruence]. specialize (Hg c eq_refl).
  assert (forall e, point_of (dims a) e -> counted g a e = counted g b e) as Hc.
  { intros e He. unfold counted. rewrite Hm, <- Ha, Ec. destruct (truthy (c_get c e)) eqn:Et; [|reflexivity]. simpl. now rewrite (Hg e He Et). }
  assert (forall e, point_of (dims a) e -> get (fst (prepare g a)) e = get (fst (prepare g b)) e) as Hx.
  { intros e He. rewrite !prepare_get, <- (Hc e He). destruct (counted g a e) eqn:Ect; [|reflexivity].
    apply Hg; auto. unfold counted in Ect. rewrite Hm, Ec in Ect. now destruct (truthy (c_get c e)). }
  assert (forall e, point_of (dims a) e -> get (snd (prepare g a)) e = get (snd (prepare g b)) e) as Hy.
  { intros e He. rewrite !prepare_mask, <- (Hc e He). reflexivity. }
  destruct (prepare_coords g a b Hd Ha) as [A1 A2]. destruct (prepare_dims g a) as [Da1 Da2]. destruct (prepare_dims g b) as [Db1 Db2].
  unfold aggregate_stat_var. destruct (prepare g a) as [s1 m1], (prepare g b) as [s2 m2]. simpl in *.
  pose proof (agg_fn_equiv g s1 s2 Hw Hb (fun w a => Nw w s2 a) (fun w a => Nb w s2 a)) as K1.
  pose proof (agg_fn_equiv g m1 m2 Hw Hb (fun w a => Nw w m2 a) (fun w a => Nb w m2 a)) as K2.
  unfold dnames in K1, K2. rewrite Da1, Db1 in K1. rewrite Da2, Db2 in K2.
  specialize (K1 Hn Hd A1 Hx). specialize (K2 Hn Hd A2 Hy).
  destruct (aggregation_fn g s1) as [[x1|]|], (aggregation_fn g s2) as [[x2|]|]; simpl in *; try tauto;
  destruct (aggregation_fn g m1) as [[y1|]|], (aggregation_fn g m2) as [[y2|]|]; simpl in *; tauto.
Qed.

Definition vars_rel (v1 v2 : list (string * da) * list (string * da)) : Prop :=
  items_rel da_equiv (fst v1) (fst v2) /\ items_rel da_equiv (snd v1) (snd v2).

(** ... lifted to whole states. *)
Lemma agg_stats_equiv g (Q : da -> da -> Prop) stats1 stats2 :
  (forall a b, Q a b -> outcome_rel (opt_rel (fun p q => da_equiv (fst p) (fst q) /\ da_equiv (snd p) (snd q))) (aggregate_stat_var g a) (aggregate_stat_var g b)) ->
  items_rel (items_rel (opt_rel Q)) stats1 stats2 ->
  outcome_rel state_equiv (aggregate_statistics g stats1) (aggregate_statistics g stats2).
Proof.
  intros HQ H.
  assert (forall vs1 vs2, items_rel (opt_rel Q) vs1 vs2 -> outcome_rel vars_rel (aggregate_stat_vars g vs1) (aggregate_stat_vars g vs2)) as Kv.
  { clear - HQ. intros vs1 vs2 H. unfold aggregate_stat_vars.
    match goal with |- outcome_rel _ (do per_var <- mapM ?F _; _) _ => set (f := F) end.
    assert (outcome_rel (fun l1 l2 => items_rel (fun p q : da * da => da_equiv (fst p) (fst q) /\ da_equiv (snd p) (snd q)) (concat l1) (concat l2)) (mapM f vs1) (mapM f vs2)) as K.
    { induction H as [|[k o1] [k' o2] vs1 vs2 [E1 E2] HF IH]; simpl; [constructor|]. simpl in E1, E2. subst k'.
      destruct o1 as [a|], o2 as [b|]; simpl in E2; try tauto.
      - unfold f at 1 3. cbn [fst snd]. specialize (HQ a b E2).
        destruct (aggregate_stat_var g a) as [[p|]|], (aggregate_stat_var g b) as [[q|]|]; simpl in *; try tauto.
        + destruct (mapM f vs1), (mapM f vs2); simpl in *; try tauto. constructor; auto.
        + destruct (mapM f vs1), (mapM f vs2); simpl in *; tauto.
      - unfold f at 1 3. cbn [fst snd bind]. destruct (mapM f vs1), (mapM f vs2); simpl in *; tauto. }
    destruct (mapM f vs1) as [l1|], (mapM f vs2) as [l2|]; simpl in *; try tauto.
    clear - K. split; simpl; (induction K as [|[k p] [k' q] l l' [E1 [E2 E3]] HF IH]; simpl; constructor; auto). }
  unfold aggregate_statistics.
  match goal with |- outcome_rel _ (do per_stat <- mapM ?F _; _) _ => set (f := F) end.
  assert (outcome_rel (items_rel vars_rel) (mapM f stats1) (mapM f stats2)) as K.
  { induction H as [|[k v1] [k' v2] l1 l2 [E1 E2] HF IH]; simpl; [constructor|]. simpl in E1, E2. subst k'.
    unfold f at 1 3. cbn [fst snd]. specialize (Kv v1 v2 E2).
    destruct (aggregate_stat_vars g v1) as [p|], (aggregate_stat_vars g v2) as [q|]; simpl in *; try tauto.
    destruct (mapM f l1), (mapM f l2); simpl in *; try tauto. constructor; auto. }
  destruct (mapM f stats1) as [l1|], (mapM f stats2) as [l2|]; simpl in *; try tauto.
  assert (items_rel (items_rel da_equiv) (map (fun kr => (fst kr, fst (snd kr))) l1) (map (fun kr => (fst kr, fst (snd kr))) l2)
       /\ items_rel (items_rel da_equiv) (map (fun kr => (fst kr, snd (snd kr))) l1) (map (fun kr => (fst kr, snd (snd kr))) l2)) as [F1 F2].
  { clear - K. split; (induction K as [|[k p] [k' q] l l' [E1 [E2 E3]] HF IH]; simpl; constructor; auto). }
  apply nest_rel in F1. apply nest_rel in F2. unfold nest in F1, F2. rewrite !map_map in F1, F2. split; assumption.
Qed.

Theorem masked_out_irrelevant g stats1 stats2 : masked g = true ->
  (forall w, In w (weigh_by g) -> uses_coords w) ->
  (forall b, In b (bin_by g) -> uses_coords (create_bin_mask b)) ->
  (forall w s a, In w (weigh_by g) -> w s = Ok a -> NoDup (dnames a)) ->
  (forall x s a, In x (bin_by g) -> create_bin_mask x s = Ok a -> NoDup (dnames a)) ->
  items_rel (items_rel (opt_rel (fun a b => dget (aux a) "mask"%string <> None /\ agree_unmasked a b))) stats1 stats2 ->
  outcome_rel state_equiv (aggregate_statistics g stats1) (aggregate_statistics g stats2).
Proof.
  intros Hm Hw Hb Nw Nb H. eapply agg_stats_equiv; [|exact H]. intros a b [Ha Hab]. now apply masked_var.
Qed.

(** NaNs surface. *)
Theorem nan_surfaces g st x y e p :
  (masked g = false \/ dget (aux st) "mask"%string = None) -> skipna g = false ->
  (forall w, In w (weigh_by g) -> uses_coords w) ->
  (forall b, In b (bin_by g) -> uses_coords (create_bin_mask b)) ->
  (forall w s a, In w (weigh_by g) -> w s = Ok a -> wf a) ->
  (forall x s a, In x (bin_by g) -> create_bin_mask x s = Ok a -> wf a) ->
  wf st -> aggregate_stat_var g st = Ok (Some (x, y)) -> point_of (dims x) e ->
  forall ws ms, mapM (fun w => w st) (weigh_by g) = Ok ws -> mapM (fun b => create_bin_mask b st) (bin_by g) = Ok ms ->
  (forall d, ~ In d (reduce_dims g) -> p d = e d) ->
  (forall a d, In a (st :: ws ++ ms) -> In d (reduce_dims g) -> In d (dnames a) -> In (p d) (labels_of (dims a) d)) ->
  get st p = NaN -> get x e = NaN.
Proof.
  intros Hmask Hskip Hw Hb Nw Nb Hst H He ws ms Ews Ems Hp1 Hp2 HN.
  unfold aggregate_stat_var in H.
  assert (prepare g st = (st, mkDa (dims st) (fun _ => Fin 1) (aux st))) as E.
  { unfold prepare. rewrite Hskip. destruct Hmask as [->| ->]; [reflexivity|]. now destruct (masked g). }
  rewrite E in H. destruct (aggregation_fn g st) as [[x'|]|] eqn:Ex; simpl in H; try discriminate;
    (destruct (aggregation_fn g (mkDa _ _ _)) as [[y'|]|]; simpl in H; try discriminate).
  injection H as <- <-. apply agg_fn_Some in Ex. destruct Ex as (Hin & _ & ws' & ms' & Ews' & Ems' & ->).
  rewrite Ews in Ews'. injection Ews' as <-. apply bin_masks_Some in Ems'. destruct Ems' as [Ems' _]. rewrite Ems in Ems'. injection Ems' as <-.
  assert (forall a, In a (st :: ws ++ ms) -> wf a) as Hall.
  { intros a [<-|Ha]; auto. apply in_app_iff in Ha. destruct Ha as [Ha|Ha].
    - apply mapM_Ok_Forall2 in Ews. revert Nw. clear - Ews Ha. induction Ews; simpl in *; [tauto|]. intros Nw. destruct Ha as [<-|Ha]; eauto.
    - apply mapM_Ok_Forall2 in Ems. revert Nb. clear - Ems Ha. induction Ems; simpl in *; [tauto|]. intros Nb. destruct Ha as [<-|Ha]; eauto. }
  rewrite dot_get. apply vsum_NaN. apply in_map_iff.
  destruct (dot_points_spec (reduce_dims g) (st :: ws ++ ms) e Hall) as [_ HP].
  set (p' := fun d => if in_dec string_dec d (reduce_dims g) then p d else e d).
  exists p. split.
  - apply vprod_NaN. simpl. now left.
  - apply HP. split; [|exact Hp2]. intros d Hd. apply Hp1. intros Hd'. apply Hd. split; auto. exists st. split; [now left|auto].
Qed.

(** ** C13 *)
Theorem dropped_iff g stats s k v : NoDup (map fst stats) -> (forall k vs, In (k, vs) stats -> NoDup (map fst vs)) ->
  (forall w, In w (weigh_by g) -> uses_coords w) ->
  (forall b, In b (bin_by g) -> uses_coords (create_bin_mask b)) ->
  (forall k vs v st, In (k, vs) stats -> In (v, Some st) vs -> mask_spans st) ->
  aggregate_statistics g stats = Ok s ->
  exists x y, s = Some (x, y) /\
   ((exists a, at_path x [Key k; Key v] = Some (Leaf a)) <-> (exists b, at_path y [Key k; Key v] = Some (Leaf b))) /\
   ((exists a, at_path x [Key k; Key v] = Some (Leaf a)) <->
      exists vs st, In (k, vs) stats /\ In (v, Some st) vs /\ incl (reduce_dims g) (dnames st) /\
        forall b, In b (bin_by g) -> exists m, create_bin_mask b st = Ok m /\
           forall d, In d (dnames m) -> d = bin_dim_name b \/ In d (dnames st)).
Proof.
  intros Hn Hnv Hw Hb Hsp H. apply agg_stats_Ok in H. destruct H as (L & HL & ->). do 2 eexists. split; [reflexivity|].
  rewrite !nest_path.
  change (map (fun kr => (fst kr, map (fun vp => (fst vp, fst (snd vp))) (snd kr))) L)
      with (map (fun kr : string * list (string * (da * da)) => (fst kr, (fun l => map (fun vp => (fst vp, fst (snd vp))) l) (snd kr))) L).
  change (map (fun kr => (fst kr, map (fun vp => (fst vp, snd (snd vp))) (snd kr))) L)
      with (map (fun kr : string * list (string * (da * da)) => (fst kr, (fun l => map (fun vp => (fst vp, snd (snd vp))) l) (snd kr))) L).
  rewrite !dget_map_val. pose proof (items_rel_dget _ _ _ k HL) as HD.
  destruct (dget L k) as [l|] eqn:El; destruct (dget stats k) as [vs|] eqn:Es; try tauto.
  - change (map (fun vp => (fst vp, fst (snd vp))) l) with (map (fun vp : string * (da * da) => (fst vp, (fun p => fst p) (snd vp))) l).
    change (map (fun vp => (fst vp, snd (snd vp))) l) with (map (fun vp : string * (da * da) => (fst vp, (fun p => snd p) (snd vp))) l).
    rewrite !dget_map_val. split; [destruct (dget l v); split; intros [? ?]; eauto; discriminate|].
    apply dget_In in Es. pose proof (Hnv k vs Es) as Hnvs. pose proof (kept_dget g vs l v HD Hnvs) as HV.
    assert (forall vs' st, In (k, vs') stats -> In (v, Some st) vs' -> dget vs v = Some (Some st)) as Huniq.
    { intros vs' st H1 H2. assert (vs' = vs) as ->; [|now apply In_dget].
      pose proof (In_dget _ _ _ Hn Es) as Q1. pose proof (In_dget _ _ _ Hn H1) as Q2. congruence. }
    destruct (dget vs v) as [[st|]|] eqn:Ev.
    + destruct HV as (r & Hr & ->). destruct r as [[x y]|].
      * split; [|eauto]. intros _.
        destruct (agg_var_Some g st x y Hw Hb (Hsp k vs v st Es (dget_In _ _ Ev)) Hr) as (ws & ms & _ & B & Hin & _ & _ & _).
        exists vs, st. split; auto. split; [now apply dget_In|]. split; auto.
        apply bin_masks_Some in B. destruct B as [B F]. apply mapM_Ok_Forall2 in B.
        clear - B F. intros b Hbin. induction B as [|b0 m bs ms Hm B IH]; simpl in *; [tauto|].
        inversion F; subst. destruct Hbin as [<-|Hbin]; auto. exists m. split; auto. intros d Hd.
        destruct (string_dec d (bin_dim_name b0)); auto.
      * split; [intros [? ?]; discriminate|]. intros (vs' & st' & H1 & H2 & H3 & H4). exfalso.
        assert (st' = st) as -> by (pose proof (Huniq vs' st' H1 H2); congruence).
        unfold aggregate_stat_var in Hr. pose proof (Hsp k vs' v st H1 H2) as Hs. destruct (prepare_aux g st Hs) as [A1 A2]. destruct (prepare_dims g st) as [D1 D2].
        destruct (prepare g st) as [s m]. simpl in *.
        assert (forall z r, dims z = dims st -> aux z = aux st -> aggregation_fn g z = Ok r -> r <> None) as KK.
        { intros z r Dz Az Hz. unfold aggregation_fn in Hz. unfold dnames in Hz. rewrite Dz in Hz.
          assert (subsetb (reduce_dims g) (map fst (dims st)) = true) as Hsub by now apply subsetb_In. rewrite Hsub in Hz. simpl in Hz.
          destruct (mapM _ _); simpl in Hz; [|discriminate]. destruct (negb _); [discriminate|].
          rewrite (bin_masks_uses_coords _ z st Hb Dz Az) in Hz.
          assert (forall bs, (forall b, In b bs -> In b (bin_by g)) -> exists ms, bin_masks bs st = Ok (Some ms)) as Kb.
          { induction bs as [|b0 bs IH]; intros Hin; simpl; [eauto|]. destruct (H4 b0 (Hin b0 (or_introl eq_refl))) as (m' & -> & Hm'). simpl.
            assert (subsetb (filter (fun d => negb (String.eqb d (bin_dim_name b0))) (dnames m')) (dnames st) = true) as ->.
            { apply subsetb_In. intros d Hd. apply filter_In in Hd. destruct Hd as [Hd Hne]. apply negb_true_iff, String.eqb_neq in Hne.
              destruct (Hm' d Hd); tauto. }
            destruct IH as [ms' ->]; [intros; apply Hin; now right|]. simpl. eauto. }
          destruct (Kb (bin_by g) (fun b H => H)) as [ms' E]. rewrite E in Hz. simpl in Hz. congruence. }
        destruct (aggregation_fn g s) as [x|] eqn:E1; simpl in Hr; [|discriminate].
        destruct (aggregation_fn g m) as [y|] eqn:E2; simpl in Hr; [|discriminate].
        apply KK in E1; auto. apply KK in E2; auto. destruct x, y; congruence.
    + rewrite HV. split; [intros [? ?]; discriminate|]. intros (vs' & st' & H1 & H2 & _). pose proof (Huniq vs' st' H1 H2). discriminate.
    + rewrite HV. split; [intros [? ?]; discriminate|]. intros (vs' & st' & H1 & H2 & _). pose proof (Huniq vs' st' H1 H2). discriminate.
  - split; [split; intros [? ?]; discriminate|]. split; [intros [? ?]; discriminate|].
    intros (vs' & st' & H1 & _). apply dget_None in Es. exfalso. apply Es. unfold keys. apply in_map_iff. exists (k, vs'). auto.
Qed.

Lemma agg_fn_total g st :
  (forall w s, In w (weigh_by g) -> exists a, w s = Ok a) ->
  (forall b s, In b (bin_by g) -> exists a, create_bin_mask b s = Ok a) ->
  NoDup (map bin_dim_name (bin_by g)) -> exists r, aggregation_fn g st = Ok r.
Proof.
  intros Hw Hb Hn. unfold aggregation_fn. destruct (negb _); [eauto|].
  destruct (mapM_total (fun w => w st) (weigh_by g)) as [ws ->]; [intros; now apply Hw|]. simpl.
  assert (nodupb (map bin_dim_name (bin_by g)) = true) as ->.
  { clear - Hn. induction Hn; simpl; [reflexivity|]. rewrite IHHn, andb_true_r. apply negb_true_iff, memb_false. auto. }
  simpl. assert (exists r, bin_masks (bin_by g) st = Ok r) as [r ->].
  { clear - Hb. induction (bin_by g) as [|b bs IH]; simpl; [eauto|]. destruct (Hb b st (or_introl eq_refl)) as [m ->]. simpl.
    destruct (subsetb _ _); [|eauto]. destruct IH as [r ->]; [intros; apply Hb; now right|]. simpl. eauto. }
  simpl. destruct r; eauto.
Qed.
Theorem agg_total g stats :
  (forall w s, In w (weigh_by g) -> exists a, w s = Ok a) ->
  (forall b s, In b (bin_by g) -> exists a, create_bin_mask b s = Ok a) ->
  NoDup (map bin_dim_name (bin_by g)) ->
  NoDup (map fst stats) -> (forall k vs, In (k, vs) stats -> NoDup (map fst vs)) ->
  exists s t, aggregate_statistics g stats = Ok s /\ mean_statistics s = Ok t.
Proof.
  intros Hw Hb Hn Hns Hnv.
  assert (exists s, aggregate_statistics g stats = Ok s) as [s Hs].
  { unfold aggregate_statistics.
    match goal with |- context [mapM ?F stats] => destruct (mapM_total F stats) as [r ->]; [|simpl; eauto] end.
    intros [k vs] _. simpl. unfold aggregate_stat_vars.
    match goal with |- context [mapM ?F vs] => destruct (mapM_total F vs) as [r ->]; [|simpl; eauto] end.
    intros [v [st|]] _; simpl; [|eauto]. unfold aggregate_stat_var. destruct (prepare g st) as [a m].
    destruct (agg_fn_total g a Hw Hb Hn) as [x ->]. destruct (agg_fn_total g m Hw Hb Hn) as [y ->]. simpl. eauto. }
  exists s. apply agg_stats_Ok in Hs as Hs'. destruct Hs' as (L & HL & ->).
  assert (Forall (fun kv : string * list (string * (da * da)) => NoDup (map fst (snd kv))) L) as HLn.
  { clear - HL Hnv. induction HL as [|[k vs] [k' l] stats L [E1 E2] HL IH]; constructor.
    - simpl in *. eapply kept_NoDup; [exact E2|]. eapply Hnv. now left.
    - apply IH. intros; eapply Hnv; right; eauto. }
  eexists. split; [exact Hs|]. unfold mean_statistics. apply map_nest2; [|exact HLn].
  rewrite <- (items_rel_keys _ _ _ HL). exact Hns.
Qed.
Theorem agg_var_coords g st x y ws ms :
  (forall w, In w (weigh_by g) -> uses_coords w) ->
  (forall b, In b (bin_by g) -> uses_coords (create_bin_mask b)) -> mask_spans st ->
  mapM (fun w => w st) (weigh_by g) = Ok ws -> mapM (fun b => create_bin_mask b st) (bin_by g) = Ok ms ->
  aggregate_stat_var g st = Ok (Some (x, y)) ->
  (forall d, In d (dnames x) <-> (exists a, In a (st :: ws ++ ms) /\ In d (dnames a)) /\ ~ In d (reduce_dims g)) /\
  (forall d l, In d (dnames x) -> (In l (labels_of (dims x) d) <->
      forall a, In a (st :: ws ++ ms) -> In d (dnames a) -> In l (labels_of (dims a) d))) /\
  dims y = dims x.
Proof.
  intros Hw Hb Hs Ews Ems H. destruct (agg_var_Some g st x y Hw Hb Hs H) as (ws' & ms' & Ews' & Ems' & _ & _ & Hx & _).
  rewrite Ews in Ews'. injection Ews' as <-. apply bin_masks_Some in Ems'. destruct Ems' as [Ems' _]. rewrite Ems in Ems'. injection Ems' as <-.
  pose proof (agg_var_dims g st x y Hw Hb Hs H) as Hd. destruct (prepare_dims g st) as [D1 _].
  assert (dims x = keep (fun d => negb (memb d (reduce_dims g))) (ijoint (st :: ws ++ ms))) as Hdx.
  { rewrite Hx, dims_dot. now rewrite (ijoint_dims _ st _ D1). }
  unfold dnames at 1 3. rewrite Hdx. split; [|split; [|congruence]].
  - intros d. rewrite keep_names, ij_names, negb_true_iff, memb_false. reflexivity.
  - intros d l Hd'. rewrite keep_names in Hd'. destruct Hd' as [H1 H2]. rewrite labels_keep, H2, ij_labels.
    apply ij_names in H1. tauto.
Qed.
