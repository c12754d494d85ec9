(** Proofs about metrics/base.py and metric_values (C17, C18, C20, C55). *)
From Coq Require Import String Ascii List Bool Arith Lia.
Import ListNotations.
From Verif Require Import Prelude Values Model_XArray Spec_XArray Proofs_XArray Model_Tree Spec_Tree Proofs_Tree
  Model_MetricsBase Model_Aggregation Spec_Aggregation Proofs_AggState Spec_Aggregator Proofs_Aggregator Proofs_Aggregator2 Spec_Metrics.
Local Open Scope list_scope.

(** ** C17 *)
Section C17.
  Context {A : Type}.
  Implicit Types (ms : dict string (metric A)) (p t : vars A).

  Lemma unique_fold (l : list (statistic A)) d :
    fold_left (fun d s => dset d (unique_name s) s) l d =
    fold_left (fun d kv => dset d (fst kv) (snd kv)) (map (fun s => (unique_name s, s)) l) d.
  Proof. revert d. induction l as [|s l IH]; intros d; simpl; auto. Qed.

  Lemma unique_dict_of ms : unique_statistics ms = dict_of (map (fun s => (unique_name s, s)) (registered ms)).
  Proof.
    unfold unique_statistics, dict_of, registered.
    assert (forall d, fold_left (fun d m => fold_left (fun d s => dset d (unique_name s) s) (values (statistics m)) d) (values ms) d =
      fold_left (fun d kv => dset d (fst kv) (snd kv)) (map (fun s => (unique_name s, s)) (flat_map (fun nm => map snd (statistics (snd nm))) ms)) d) as K.
    { induction ms as [|[n m] ms IH]; intros d; simpl; [reflexivity|].
      rewrite IH, map_app, fold_left_app, <- (unique_fold (map snd (statistics m))). reflexivity. }
    apply K.
  Qed.

  Lemma first_occ_app l k : first_occurrences (l ++ [k]) = if memb k l then first_occurrences l else first_occurrences l ++ [k].
  Proof.
    induction l as [|x l IH]; cbn [first_occurrences app]; [reflexivity|]. rewrite IH.
    destruct (eq_dec k x) as [->|Hne].
    - assert (memb x (x :: l) = true) as -> by (apply memb_In; now left).
      destruct (memb x l); [reflexivity|]. rewrite filter_app. simpl. rewrite String.eqb_refl. simpl. now rewrite app_nil_r.
    - destruct (memb k l) eqn:E.
      + apply memb_In in E. assert (memb k (x :: l) = true) as -> by (apply memb_In; now right). reflexivity.
      + apply memb_false in E. assert (memb k (x :: l) = false) as -> by (apply memb_false; intros [?|?]; congruence || tauto).
        rewrite filter_app. simpl. assert (String.eqb x k = false) as -> by (apply String.eqb_neq; congruence). reflexivity.
  Qed.
  Lemma In_first_occ l k : In k (first_occurrences l) <-> In k l.
  Proof.
    induction l as [|x l IH]; simpl; [tauto|]. rewrite filter_In, IH.
    destruct (String.eqb x k) eqn:E; simpl.
    - apply String.eqb_eq in E. subst. tauto.
    - apply String.eqb_neq in E. intuition congruence.
  Qed.

  Lemma keys_dict_of_first {V} (l : list (string * V)) : keys (dict_of l) = first_occurrences (map fst l).
  Proof.
    induction l as [|[k v] l IH] using rev_ind; [reflexivity|].
    rewrite dict_of_app, map_app. simpl map. rewrite first_occ_app, keys_dset.
    rewrite <- IH. destruct (memb k (map fst l)) eqn:E.
    - apply memb_In in E. destruct (memb k (keys (dict_of l))) eqn:E2; [reflexivity|].
      apply memb_false in E2. exfalso. apply E2. apply In_keys_dict_of. auto.
    - apply memb_false in E. destruct (memb k (keys (dict_of l))) eqn:E2; [|reflexivity].
      apply memb_In in E2. exfalso. apply E. now apply In_keys_dict_of.
  Qed.

  Lemma last_named_unique l (s s' : statistic A) : last_named l s -> last_named l s' -> unique_name s = unique_name s' -> s = s'.
  Proof.
    intros (a & b & -> & H1) (c & d & E & H2) Hn.
    revert c E. induction a as [|x a IH]; intros c E; destruct c as [|y c]; simpl in E; injection E as Ex El.
    - exact Ex.
    - exfalso. apply (H1 s'); [rewrite El; apply in_app_iff; right; now left|congruence].
    - exfalso. apply (H2 s); [rewrite <- El; apply in_app_iff; right; now left|congruence].
    - eapply IH; eauto.
  Qed.

  Lemma last_exists l (s : statistic A) : In s l -> exists s', last_named l s' /\ unique_name s' = unique_name s.
  Proof.
    induction l as [|x l IH] using rev_ind; [intros []|]. intros Hin.
    destruct (eq_dec (unique_name x) (unique_name s)) as [E|Hne].
    - exists x. split; [|exact E]. exists l, []. split; [reflexivity|intros ? []].
    - apply in_app_iff in Hin. destruct Hin as [Hin|[->|[]]]; [|congruence].
      destruct (IH Hin) as (s' & (l1 & l2 & -> & H) & Hn). exists s'. split; auto. exists l1, (l2 ++ [x]).
      split; [rewrite <- app_assoc; reflexivity|]. intros z Hz. apply in_app_iff in Hz. destruct Hz as [Hz|[<-|[]]]; [now apply H|]. congruence.
  Qed.

  Lemma dget_unique ms k s : dget (unique_statistics ms) k = Some s <-> last_named (registered ms) s /\ unique_name s = k.
  Proof.
    rewrite unique_dict_of.
    assert (forall s, last_named (registered ms) s -> dget (dict_of (map (fun s => (unique_name s, s)) (registered ms))) (unique_name s) = Some s) as K.
    { intros s0 (l1 & l2 & -> & H). rewrite map_app. simpl. apply dget_dict_of_last.
      intros Hin. rewrite map_map in Hin. apply in_map_iff in Hin. destruct Hin as (s' & E & Hs'). apply (H s' Hs'). exact E. }
    split.
    - intros H. pose proof (dget_Some_keys _ _ H) as Hk. apply (proj1 (In_keys_dict_of _ _)) in Hk. rewrite map_map in Hk.
      apply in_map_iff in Hk. destruct Hk as (s0 & <- & Hin). simpl in *.
      destruct (last_exists _ _ Hin) as (s' & Hl & Hn). pose proof (K s' Hl) as Ks. rewrite Hn in Ks. rewrite H in Ks. injection Ks as ->. auto.
    - intros [Hl <-]. now apply K.
  Qed.

  Lemma keys_unique ms : keys (unique_statistics ms) = first_occurrences (map unique_name (registered ms)).
  Proof. rewrite unique_dict_of, keys_dict_of_first, map_map. reflexivity. Qed.
  Lemma NoDup_keys_unique ms : NoDup (keys (unique_statistics ms)).
  Proof. rewrite unique_dict_of. apply NoDup_keys_dict_of. Qed.

  Lemma In_unique ms k s : In (k, s) (unique_statistics ms) <-> last_named (registered ms) s /\ unique_name s = k.
  Proof.
    rewrite <- dget_unique. split; [apply In_dget, NoDup_keys_unique|apply dget_In].
  Qed.

  Lemma compute_unique_Ok ms p t r : compute_unique_statistics ms p t = Ok r <->
    items_rel (fun s v => compute s p t = Ok v) (unique_statistics ms) r.
  Proof.
    unfold compute_unique_statistics, items_rel. revert r. induction (unique_statistics ms) as [|[k s] l IH]; intros r; simpl.
    - split; [intros [= <-]; constructor|]. inversion 1; reflexivity.
    - split.
      + destruct (compute s p t) as [v|] eqn:E; simpl; [|discriminate].
        match goal with |- context [mapM ?f l] => destruct (mapM f l) as [r'|] eqn:Er end; simpl; [|discriminate].
        intros [= <-]. constructor; [auto|]. now apply IH.
      + inversion 1 as [|? [k' v] ? r' [E1 E2] HF]; subst. simpl in *. subst k'. rewrite E2. simpl. apply IH in HF. rewrite HF. reflexivity.
  Qed.

  Lemma compute_unique_Err ms p t e : compute_unique_statistics ms p t = Err e ->
    e = ValueError /\ exists k s e', In (k, s) (unique_statistics ms) /\ compute s p t = Err e'.
  Proof.
    unfold compute_unique_statistics. induction (unique_statistics ms) as [|[k s] l IH]; simpl; [discriminate|].
    destruct (compute s p t) as [v|e'] eqn:E; simpl.
    - match goal with |- context [mapM ?f l] => destruct (mapM f l) as [r'|] eqn:Er end; simpl; [discriminate|].
      intros [= <-]. destruct (IH eq_refl) as (-> & k' & s' & e' & Hin & He). split; auto. exists k', s', e'. auto.
    - intros [= <-]. split; auto. exists k, s, e'. auto.
  Qed.

  Theorem unique_values ms p t r : compute_unique_statistics ms p t = Ok r ->
    keys r = first_occurrences (map unique_name (registered ms)) /\
    (forall k v, dget r k = Some v <->
       exists s, last_named (registered ms) s /\ unique_name s = k /\ compute s p t = Ok v).
  Proof.
    intros H. apply compute_unique_Ok in H. pose proof (items_rel_keys _ _ _ H) as Hk. split; [rewrite <- keys_unique; symmetry; exact Hk|].
    intros k v. pose proof (items_rel_dget _ _ _ k H) as Hd.
    destruct (dget (unique_statistics ms) k) as [s|] eqn:E; destruct (dget r k) as [v'|] eqn:Ev; try tauto.
    - apply dget_unique in E. destruct E as [E1 E2]. split.
      + intros [= <-]. exists s. auto.
      + intros (s' & E1' & E2' & E3'). assert (s = s') as <- by (eapply last_named_unique; eauto; congruence). congruence.
    - split; [discriminate|]. intros (s' & E1' & E2' & E3'). assert (dget (unique_statistics ms) k = Some s') as E0 by (now apply dget_unique). congruence.
  Qed.
  Theorem unique_fails ms p t e : compute_unique_statistics ms p t = Err e ->
    e = ValueError /\ exists s e', last_named (registered ms) s /\ compute s p t = Err e'.
  Proof.
    intros H. apply compute_unique_Err in H. destruct H as (-> & k & s & e' & Hin & He). split; auto.
    apply In_unique in Hin. exists s, e'. tauto.
  Qed.
  Theorem unique_fails_conv ms p t s e : last_named (registered ms) s -> compute s p t = Err e ->
    compute_unique_statistics ms p t = Err ValueError.
  Proof.
    intros Hl He. destruct (compute_unique_statistics ms p t) as [r|e'] eqn:E.
    - exfalso. apply compute_unique_Ok in E.
      assert (dget (unique_statistics ms) (unique_name s) = Some s) as Hs by (now apply dget_unique).
      pose proof (items_rel_dget _ _ _ (unique_name s) E) as Hd. rewrite Hs in Hd. destruct (dget r _); [congruence|tauto].
    - apply unique_fails in E. now destruct E as [-> _].
  Qed.

  (** ** C20 *)
  Lemma per_var_compute_spec f ps t : forall res r, NoDup (map fst ps) -> (forall k, In k (map fst ps) -> dget res k = None) ->
    per_variable_compute f ps t res = Ok r ->
    forall v x, dget r v = Some x <->
      dget res v = Some x \/ (exists a b, In (v, a) ps /\ dget t v = Some b /\ f a b = Ok (Some x)).
  Proof.
    induction ps as [|[k a] ps IH]; intros res r Hn Hres H v x; simpl in H.
    - injection H as <-. split; auto. intros [H|(? & ? & [] & _)]; auto.
    - inversion Hn as [|? ? Hni Hn']; subst.
      destruct (dget t k) as [b|] eqn:Et.
      + destruct (f a b) as [o|] eqn:Ef; simpl in H; [|discriminate].
        set (res' := match o with Some y => dset res k y | None => res end) in *.
        assert (forall k0, In k0 (map fst ps) -> dget res' k0 = None) as Hres'.
        { intros k0 Hk0. unfold res'. destruct o; [|apply Hres; simpl; auto]. rewrite dget_dset.
          destruct (eq_dec k0 k) as [->|]; [contradiction|]. apply Hres. simpl; auto. }
        rewrite (IH res' r Hn' Hres' H v x). unfold res'. split.
        * intros [H1|(a' & b' & H1 & H2 & H3)]; [|right; exists a', b'; simpl; auto].
          destruct o as [y|]; [|auto]. rewrite dget_dset in H1. destruct (eq_dec v k) as [->|]; [|auto].
          injection H1 as <-. right. exists a, b. simpl. auto.
        * intros [H1|(a' & b' & [[= <- <-]|H1] & H2 & H3)].
          -- left. destruct o as [y|]; auto. rewrite dget_dset. destruct (eq_dec v k) as [->|]; auto.
             rewrite (Hres k) in H1 by (simpl; auto). discriminate.
          -- left. rewrite H2 in Et. injection Et as ->. rewrite H3 in Ef. injection Ef as <-. rewrite dget_dset. destruct (eq_dec k k); congruence.
          -- right. exists a', b'. auto.
      + rewrite (IH res r Hn' ltac:(intros; apply Hres; simpl; auto) H v x). split.
        * intros [H1|(a' & b' & H1 & H2 & H3)]; [auto|right; exists a', b'; simpl; auto].
        * intros [H1|(a' & b' & [[= <- <-]|H1] & H2 & H3)]; [auto|congruence|right; exists a', b'; auto].
  Qed.
  Lemma per_var_compute_NoDup f ps t : forall res r, NoDup (keys res) -> per_variable_compute f ps t res = Ok r -> NoDup (keys r).
  Proof.
    induction ps as [|[k a] ps IH]; intros res r Hn H; simpl in H; [injection H as <-; auto|].
    destruct (dget t k) as [b|]; [|eauto]. destruct (f a b) as [[y|]|]; simpl in H; try discriminate; eauto.
    eapply IH; [|exact H]. now apply NoDup_keys_dset.
  Qed.
  Lemma per_var_compute_total f ps t : forall res, (forall k a b, In (k, a) ps -> dget t k = Some b -> exists o, f a b = Ok o) ->
    exists r, per_variable_compute f ps t res = Ok r.
  Proof.
    induction ps as [|[k a] ps IH]; intros res H; simpl; [eauto|].
    destruct (dget t k) as [b|] eqn:E; [|apply IH; intros; eapply H; eauto; now right].
    destruct (H k a b (or_introl eq_refl) E) as [o ->]. simpl. apply IH. intros; eapply H; eauto; now right.
  Qed.
  Theorem per_variable_statistic_spec name f ps t r : NoDup (keys ps) ->
    compute (per_variable_statistic name f) ps t = Ok r ->
    NoDup (keys r) /\
    forall v x, dget r v = Some x <-> exists a b, dget ps v = Some a /\ dget t v = Some b /\ f a b = Ok (Some x).
  Proof.
    intros Hn H. simpl in H. split; [eapply per_var_compute_NoDup; [|exact H]; constructor|].
    intros v x. rewrite (per_var_compute_spec f ps t [] r Hn (fun _ _ => eq_refl) H v x). simpl. split.
    - intros [?|(a & b & H1 & H2 & H3)]; [discriminate|]. exists a, b. split; auto. now apply In_dget.
    - intros (a & b & H1 & H2 & H3). right. exists a, b. split; auto. now apply dget_In.
  Qed.
  Theorem per_variable_statistic_fails name f ps t e : NoDup (keys ps) ->
    compute (per_variable_statistic name f) ps t = Err e ->
    exists v a b, dget ps v = Some a /\ dget t v = Some b /\ f a b = Err e.
  Proof.
    simpl. intros Hn. generalize (@nil (string * A)). unfold vars, dict in *.
    assert (forall qs, incl qs ps -> forall l, per_variable_compute f qs t l = Err e ->
      exists v a b, dget ps v = Some a /\ dget t v = Some b /\ f a b = Err e) as K; [|intros l; apply K; apply incl_refl].
    induction qs as [|[k a] qs IH]; intros Hi l H; simpl in H; [discriminate|].
    assert (incl qs ps) as Hi' by (intros z Hz; apply Hi; now right).
    destruct (dget t k) as [b|] eqn:E; [|eauto]. destruct (f a b) as [o|] eqn:Ef; simpl in H; [eauto|].
    injection H as <-. exists k, a, b. split; [apply In_dget; auto; apply Hi; now left|auto].
  Qed.

  Lemma mapM_named {B} (g : string -> result B) l r : mapM (fun v => do x <- g v; Ok (v, x)) l = Ok r ->
    map fst r = l /\ forall v x, In (v, x) r -> g v = Ok x.
  Proof.
    revert r. induction l as [|k l IH]; intros r H; simpl in H; [injection H as <-; split; [auto|intros ? ? []]|].
    destruct (g k) as [x|] eqn:E; simpl in H; [|discriminate].
    match type of H with (bind ?m _) = _ => destruct m as [r'|] eqn:Er end; simpl in H; [|discriminate].
    injection H as <-. destruct (IH r' eq_refl) as [H1 H2]. split; [simpl; congruence|]. intros v y [[= <- <-]|Hin]; auto.
  Qed.

  Theorem per_variable_metric_spec stats f vals r :
    (forall k t, dget vals k = Some t -> NoDup (keys t)) ->
    values_from_mean_statistics (per_variable_metric stats f) vals = Ok r ->
    NoDup (keys r) /\
    (forall v, In v (keys r) <-> forall s, In s (keys stats) -> exists t, dget vals s = Some t /\ In v (keys t)) /\
    (forall v x, dget r v = Some x ->
       exists per_var, map fst per_var = keys stats /\
         (forall s a, In (s, a) per_var -> exists t, dget vals s = Some t /\ dget t v = Some a) /\ f per_var = Ok x).
  Proof.
    intros Hnv H. simpl in H.
    destruct (mapM (fun s => dgetE vals s) (keys stats)) as [tables|] eqn:E; simpl in H; [|discriminate].
    destruct tables as [|t0 ts]; [discriminate|].
    set (per_var := fun v => mapM (fun s => do t <- dgetE vals s; do x <- dgetE t v; Ok (s, x)) (keys stats)) in *.
    apply mapM_Ok_Forall2 in E.
    assert (mapM (fun v => do x <- (do pv <- per_var v; f pv); Ok (v, x)) (filter (fun v => forallb (fun t => memb v (keys t)) ts) (keys t0)) = Ok r) as H'.
    { rewrite <- H. apply mapM_ext. intros v _. unfold per_var at 1. destruct (mapM _ (keys stats)); reflexivity. }
    clear H. destruct (mapM_named _ _ _ H') as [Hk Hv].
    assert (NoDup (keys r)) as Hnd.
    { unfold keys at 1. rewrite Hk. apply NoDup_filter. destruct (keys stats) as [|s0 ss]; inversion E as [|? ? ? ? E0 ES]; subst.
      unfold dgetE in E0. destruct (dget vals s0) eqn:Es0; [|discriminate]. injection E0 as ->. eapply Hnv; eauto. }
    split; [exact Hnd|]. split.
    - intros v. unfold keys at 1. rewrite Hk, filter_In. rewrite forallb_forall.
      destruct (keys stats) as [|s0 ss]; inversion E as [|? ? ? ? E0 ES]; subst. split.
      + intros [H1 H2] s [<-|Hs].
        * unfold dgetE in E0. destruct (dget vals s0); [|discriminate]. injection E0 as ->. eauto.
        * clear - ES H2 Hs. revert Hs. induction ES as [|s' t' ss ts Hs' ES IH]; intros Hs; [destruct Hs|].
          destruct Hs as [<-|Hs]; [|apply IH; auto; intros; apply H2; now right].
          unfold dgetE in Hs'. destruct (dget vals s') eqn:Es; [|discriminate]. injection Hs' as ->.
          exists t'. split; auto. apply memb_In. apply H2. now left.
      + intros H. split.
        * destruct (H s0 (or_introl eq_refl)) as (t & Ht & Hin). unfold dgetE in E0. rewrite Ht in E0. congruence.
        * intros t Ht. apply memb_In.
          assert (exists s, In s ss /\ dget vals s = Some t) as (s & Hs & Es).
          { clear - ES Ht. induction ES as [|s' t' ss ts Hs' ES IH]; [destruct Ht|]. destruct Ht as [<-|Ht].
            - exists s'. unfold dgetE in Hs'. destruct (dget vals s'); [|discriminate]. split; [now left|congruence].
            - destruct (IH Ht) as (s & H1 & H2). exists s. split; auto. now right. }
          destruct (H s (or_intror Hs)) as (t1 & Ht1 & Hin). congruence.
    - intros v x Hx. apply dget_In in Hx. specialize (Hv v x Hx).
      destruct (per_var v) as [pv|] eqn:Ep; [|discriminate]. simpl in Hv. exists pv. split; [|split; [|exact Hv]].
      + unfold per_var in Ep.
        assert (mapM (fun s => do x <- (do t <- dgetE vals s; dgetE t v); Ok (s, x)) (keys stats) = Ok pv) as Ep'.
        { rewrite <- Ep. apply mapM_ext. intros s _. unfold dgetE. destruct (dget vals s); reflexivity. }
        now destruct (mapM_named _ _ _ Ep').
      + intros s a Hsa. unfold per_var in Ep.
        assert (mapM (fun s => do x <- (do t <- dgetE vals s; dgetE t v); Ok (s, x)) (keys stats) = Ok pv) as Ep'.
        { rewrite <- Ep. apply mapM_ext. intros s0 _. unfold dgetE. destruct (dget vals s0); reflexivity. }
        destruct (mapM_named _ _ _ Ep') as [_ K]. specialize (K s a Hsa). unfold dgetE in K.
        destruct (dget vals s) as [t|]; [|discriminate]. exists t. split; auto. simpl in K. destruct (dget t v); congruence.
  Qed.
End C17.

(** ** C18 *)
Definition somes (raw : vars da) : dict string (option da) := map (fun va => (fst va, Some (snd va))) raw.
Definition meanof (l : list (string * (da * da))) : vars da := map (fun vp => (fst vp, binop vdiv (fst (snd vp)) (snd (snd vp)))) l.
Definition mean1 (g : aggregator) (raw : vars da) (mean : vars da) : Prop :=
  exists l, kept_vars g (somes raw) l /\ mean = meanof l.

Lemma nested_nest l : nested (nest l) = Ok l.
Proof.
  unfold nested, nest. induction l as [|[k vs] l IH]; [reflexivity|]. cbn [map fst snd mapM]. unfold nest1 at 1.
  assert (mapM (fun va : string * tree da => match snd va with Leaf a => Ok (fst va, a) | _ => Err TypeError end)
            (map (fun va : string * da => (fst va, Leaf (snd va))) vs) = Ok vs) as ->.
  { clear. induction vs as [|[k a] vs IH]; [reflexivity|]. simpl. now rewrite IH. }
  cbn [bind]. change (mapM _ _) with (mapM (fun kt : string * tree da =>
        match snd kt with
        | Dict vs0 => do r <- mapM (fun va : string * tree da => match snd va with Leaf a => Ok (fst va, a) | _ => Err TypeError end) vs0; Ok (fst kt, r)
        | _ => Err TypeError end) (map (fun kr => (fst kr, nest1 (snd kr))) l)). rewrite IH. reflexivity.
Qed.

Lemma agg_means g (stats : list (string * vars da)) : NoDup (map fst stats) -> (forall k vs, In (k, vs) stats -> NoDup (map fst vs)) ->
  forall N, (do s <- aggregate_statistics g (map (fun kv => (fst kv, somes (snd kv))) stats);
             do m <- mean_statistics s; nested m) = Ok N <-> items_rel (mean1 g) stats N.
Proof.
  intros Hn Hnv N.
  assert (forall s, aggregate_statistics g (map (fun kv => (fst kv, somes (snd kv))) stats) = Ok s <->
     exists L, items_rel (fun raw l => kept_vars g (somes raw) l) stats L /\
       s = Some (nest (map (fun kr => (fst kr, map (fun vp => (fst vp, fst (snd vp))) (snd kr))) L),
              nest (map (fun kr => (fst kr, map (fun vp => (fst vp, snd (snd vp))) (snd kr))) L))) as K.
  { intros s. rewrite agg_stats_Ok. split; intros (L & HL & ->); exists L; split; auto; clear - HL.
    - remember (map (fun kv : string * vars da => (fst kv, somes (snd kv))) stats) as S eqn:ES. revert stats ES.
      induction HL as [|[k vs] [k' l] S L [E1 E2] HL IH]; intros stats ES; destruct stats as [|[k0 v0] stats]; try discriminate; [constructor|].
      injection ES as -> -> ->. constructor; [auto|]. now apply IH.
    - induction HL as [|[k vs] [k' l] S L [E1 E2] HL IH]; simpl; constructor; auto. }
  assert (forall L, items_rel (fun raw l => kept_vars g (somes raw) l) stats L ->
     mean_statistics (Some (nest (map (fun kr => (fst kr, map (fun vp => (fst vp, fst (snd vp))) (snd kr))) L),
              nest (map (fun kr => (fst kr, map (fun vp => (fst vp, snd (snd vp))) (snd kr))) L)))
      = Ok (nest (map (fun kr => (fst kr, meanof (snd kr))) L))) as KM.
  { intros L HL. unfold mean_statistics. apply map_nest2.
    - rewrite <- (items_rel_keys _ _ _ HL). exact Hn.
    - clear - HL Hnv. induction HL as [|[k vs] [k' l] stats L [E1 E2] HL IH]; constructor.
      + simpl in *. eapply kept_NoDup; [exact E2|]. unfold somes. rewrite map_map. simpl. eapply Hnv. now left.
      + apply IH. intros; eapply Hnv; right; eauto. }
  split.
  - intros H. destruct (aggregate_statistics g _) as [s|] eqn:E; simpl in H; [|discriminate].
    pose proof (proj1 (K s) eq_refl) as (L & HL & ->). rewrite (KM L HL) in H. cbn [bind] in H. rewrite nested_nest in H. injection H as <-.
    clear - HL. induction HL as [|[k vs] [k' l] stats L [E1 E2] HL IH]; simpl; constructor; auto. simpl in *. split; auto. exists l; auto.
  - intros H.
    assert (exists L, items_rel (fun raw l => kept_vars g (somes raw) l) stats L /\ N = map (fun kr => (fst kr, meanof (snd kr))) L) as (L & HL & ->).
    { clear - H. induction H as [|[k vs] [k' l] stats L [E1 (l0 & E2 & E3)] HL IH]; [exists []; split; constructor|].
      destruct IH as (L0 & F & ->). simpl in *. subst. exists ((k', l0) :: L0). split; [constructor; auto|reflexivity]. }
    assert (aggregate_statistics g (map (fun kv => (fst kv, somes (snd kv))) stats) = Ok (Some (nest (map (fun kr => (fst kr, map (fun vp => (fst vp, fst (snd vp))) (snd kr))) L),
              nest (map (fun kr => (fst kr, map (fun vp => (fst vp, snd (snd vp))) (snd kr))) L)))) as -> by (apply K; eauto).
    cbn [bind]. rewrite (KM L HL). cbn [bind]. apply nested_nest.
Qed.

Section C18.
  Variables (g : aggregator) (p t : vars da).

  Lemma evaluate_Ok metrics mv : (forall s v, In s (registered metrics) -> compute s p t = Ok v -> NoDup (keys v)) ->
    (evaluate g metrics p t = Ok mv <->
     exists N, items_rel (fun s mean => exists raw, compute s p t = Ok raw /\ mean1 g raw mean) (unique_statistics metrics) N /\
       compute_metrics_from_statistics metrics N = Ok mv).
  Proof.
    intros Hout. unfold evaluate. split.
    - intros H. destruct (compute_unique_statistics metrics p t) as [raws|] eqn:E; simpl in H; [|discriminate].
      apply compute_unique_Ok in E.
      assert (NoDup (map fst raws)) as Hn by (rewrite <- (items_rel_keys _ _ _ E); apply NoDup_keys_unique).
      assert (forall k vs, In (k, vs) raws -> NoDup (map fst vs)) as Hnv.
      { intros k vs Hin. pose proof (items_rel_dget _ _ _ k E) as Hd. rewrite (In_dget raws k vs Hn Hin) in Hd.
        destruct (dget (unique_statistics metrics) k) as [s|] eqn:Es; [|tauto]. apply dget_unique in Es. destruct Es as [(l1 & l2 & Hl & _) _].
        eapply Hout; [|exact Hd]. rewrite Hl. apply in_app_iff. right. now left. }
      assert (exists N, (do s <- aggregate_statistics g (map (fun kv => (fst kv, somes (snd kv))) raws);
             do m <- mean_statistics s; nested m) = Ok N /\ compute_metrics_from_statistics metrics N = Ok mv) as (N & HN & Hmv).
      { change (map (fun kv => (fst kv, map (fun va => (fst va, Some (snd va))) (snd kv))) raws) with (map (fun kv => (fst kv, somes (snd kv))) raws) in H.
        destruct (aggregate_statistics g _) as [s|]; simpl in *; [|discriminate]. destruct (mean_statistics s) as [m|]; simpl in *; [|discriminate].
        destruct (nested m) as [N|]; simpl in *; [|discriminate]. eauto. }
      exists N. split; [|exact Hmv]. apply (agg_means g raws Hn Hnv) in HN. clear - E HN. revert N HN.
      unfold items_rel in *. induction E as [|[k s] [k' raw] U raws [E1 E2] EU IH]; intros N HN; inversion HN as [|? [k'' m] ? N' [E3 E4] HN']; subst; constructor; auto.
      simpl in *. subst. eauto.
    - intros (N & HN & Hmv).
      assert (exists raws, items_rel (fun s v => compute s p t = Ok v) (unique_statistics metrics) raws /\ items_rel (mean1 g) raws N) as (raws & E & HM).
      { clear - HN. induction HN as [|[k s] [k' m] U N [E1 (raw & E2 & E3)] EU IH]; [exists []; split; constructor|].
        destruct IH as (raws & F1 & F2). simpl in *. subst k'. exists ((k, raw) :: raws). split; constructor; auto. }
      assert (NoDup (map fst raws)) as Hn by (rewrite <- (items_rel_keys _ _ _ E); apply NoDup_keys_unique).
      assert (forall k vs, In (k, vs) raws -> NoDup (map fst vs)) as Hnv.
      { intros k vs Hin. pose proof (items_rel_dget _ _ _ k E) as Hd. rewrite (In_dget raws k vs Hn Hin) in Hd.
        destruct (dget (unique_statistics metrics) k) as [s|] eqn:Es; [|tauto]. apply dget_unique in Es. destruct Es as [(l1 & l2 & Hl & _) _].
        eapply Hout; [|exact Hd]. rewrite Hl. apply in_app_iff. right. now left. }
      apply compute_unique_Ok in E. rewrite E. cbn [bind]. apply (agg_means g raws Hn Hnv) in HM.
      change (map (fun kv => (fst kv, map (fun va => (fst va, Some (snd va))) (snd kv))) raws) with (map (fun kv => (fst kv, somes (snd kv))) raws).
      destruct (aggregate_statistics g _) as [s|]; simpl in *; [|discriminate]. destruct (mean_statistics s) as [m|]; simpl in *; [|discriminate].
      rewrite HM. simpl. exact Hmv.
  Qed.

  (** The mean of a statistic is a function of its raw values. *)
  Lemma mean1_fun raw m m' : mean1 g raw m -> mean1 g raw m' -> m = m'.
  Proof.
    intros (l & [rs [HF ->]] & ->) (l' & [rs' [HF' ->]] & ->). f_equal. f_equal. f_equal. clear - HF HF'.
    revert rs' HF'. induction HF as [|[k [st|]] r S rs Hr HF IH]; intros rs' HF'; inversion HF' as [|? r' ? ? Hr' HF'']; subst; auto; simpl in *; f_equal; auto; congruence.
  Qed.
  Lemma own_mean_iff s m : (forall v, compute s p t = Ok v -> NoDup (keys v)) ->
    (own_mean g p t s m <-> exists raw, compute s p t = Ok raw /\ mean1 g raw m).
  Proof.
    intros Hnd. unfold own_mean. split.
    - intros (raw & st & tr & H1 & H2 & H3 & H4). exists raw. split; auto.
      assert (items_rel (mean1 g) [(unique_name s, raw)] [(unique_name s, m)]) as K.
      { apply agg_means; [repeat constructor; auto| |].
        - intros k vs [[= <- <-]|[]]. now apply Hnd.
        - cbn [map fst snd]. change (somes raw) with (map (fun va : string * da => (fst va, Some (snd va))) raw). unfold vars, dict in *. rewrite H2. cbn [bind]. rewrite H3. cbn [bind]. exact H4. }
      inversion K as [|? ? ? ? [_ K1] _]; subst. exact K1.
    - intros (raw & H1 & H2).
      assert ((do s0 <- aggregate_statistics g (map (fun kv => (fst kv, somes (snd kv))) [(unique_name s, raw)]);
             do m <- mean_statistics s0; nested m) = Ok [(unique_name s, m)]) as K.
      { apply agg_means; [repeat constructor; auto| |].
        - intros k vs [[= <- <-]|[]]. now apply Hnd.
        - constructor; [split; [reflexivity|exact H2]|constructor]. }
      cbn [map fst snd] in K. destruct (aggregate_statistics g [(unique_name s, somes raw)]) as [st|] eqn:E; cbn [bind] in K; [|discriminate].
      destruct (mean_statistics st) as [tr|] eqn:Em; cbn [bind] in K; [|discriminate]. exists raw, st, tr. unfold somes in E. auto.
  Qed.

  Lemma In_registered (metrics : dict string (metric da)) n m k s : In (n, m) metrics -> In (k, s) (statistics m) -> In s (registered metrics).
  Proof. intros H1 H2. unfold registered. apply in_flat_map. exists (n, m). split; auto. apply in_map_iff. exists (k, s). auto. Qed.

  (** What a metric receives: the own means of its statistics. *)
  Lemma received (metrics : dict string (metric da)) N m n : (forall s v, In s (registered metrics) -> compute s p t = Ok v -> NoDup (keys v)) ->
    names_identify metrics p t -> In (n, m) metrics ->
    items_rel (fun s mean => exists raw, compute s p t = Ok raw /\ mean1 g raw mean) (unique_statistics metrics) N ->
    exists means, mapM (fun kv => do x <- dgetE N (unique_name (snd kv)); Ok (fst kv, x)) (statistics m) = Ok means /\
      items_rel (own_mean g p t) (statistics m) means.
  Proof.
    intros Hout Hid Hin HN.
    assert (forall l, incl l (statistics m) -> exists means, mapM (fun kv => do x <- dgetE N (unique_name (snd kv)); Ok (fst kv, x)) l = Ok means /\ items_rel (own_mean g p t) l means) as K;
      [|apply K, incl_refl].
    induction l as [|[k s] l IH]; intros Hi; [exists []; split; [reflexivity|constructor]|].
    assert (In s (registered metrics)) as Hs by (eapply In_registered; [exact Hin|apply Hi; now left]).
    destruct (last_exists _ _ Hs) as (s' & Hl & Hn).
    assert (dget (unique_statistics metrics) (unique_name s) = Some s') as Hd by (now apply dget_unique).
    pose proof (items_rel_dget _ _ _ (unique_name s) HN) as HNd. rewrite Hd in HNd.
    destruct (dget N (unique_name s)) as [mean|] eqn:EN; [|tauto].
    destruct (IH ltac:(intros z Hz; apply Hi; now right)) as (means & E & F).
    exists ((k, mean) :: means). split.
    - simpl. unfold dgetE at 1. rewrite EN. simpl. rewrite E. reflexivity.
    - constructor; [|exact F]. simpl. split; auto. apply own_mean_iff; [intros; eapply Hout; eauto|].
      destruct HNd as (raw & H1 & H2). exists raw. split; auto. rewrite <- H1. apply Hid; auto.
      destruct Hl as (l1 & l2 & -> & _). apply in_app_iff. right. now left.
  Qed.

  Lemma own_mean_fun s m m' : (forall v, compute s p t = Ok v -> NoDup (keys v)) -> own_mean g p t s m -> own_mean g p t s m' -> m = m'.
  Proof.
    intros Hnd H1 H2. apply own_mean_iff in H1, H2; auto. destruct H1 as (r1 & E1 & M1), H2 as (r2 & E2 & M2).
    rewrite E1 in E2. injection E2 as <-. eapply mean1_fun; eauto.
  Qed.

  Theorem evaluate_each (metrics : dict string (metric da)) mv : (forall s v, In s (registered metrics) -> compute s p t = Ok v -> NoDup (keys v)) ->
    names_identify metrics p t ->
    evaluate g metrics p t = Ok mv ->
    keys mv = keys metrics /\
    forall n m, In (n, m) metrics -> exists v means, In (n, v) mv /\
      items_rel (own_mean g p t) (statistics m) means /\ values_from_mean_statistics m means = Ok v.
  Proof.
    intros Hout Hid H. apply evaluate_Ok in H; auto. destruct H as (N & HN & H).
    unfold compute_metrics_from_statistics in H. split.
    - clear - H. revert mv H. induction metrics as [|[n m] metrics IH]; intros mv H; simpl in H; [injection H as <-; reflexivity|].
      destruct (compute_metric_from_statistics m N); simpl in H; [|discriminate].
      match type of H with (bind ?m _) = _ => destruct m as [r'|] eqn:Er end; simpl in H; [|discriminate]. injection H as <-.
      unfold keys in *. simpl. f_equal. now apply IH.
    - intros n m Hin. destruct (received metrics N m n Hout Hid Hin HN) as (means & Em & HF).
      assert (exists v, In (n, v) mv /\ compute_metric_from_statistics m N = Ok v) as (v & Hv & Ev).
      { clear - H Hin. revert mv H. induction metrics as [|[n' m'] metrics IH]; intros mv H; simpl in H; [destruct Hin|].
        destruct (compute_metric_from_statistics m' N) as [v'|] eqn:E; simpl in H; [|discriminate].
        match type of H with (bind ?m _) = _ => destruct m as [r'|] eqn:Er end; simpl in H; [|discriminate]. injection H as <-.
        destruct Hin as [[= -> ->]|Hin]; [exists v'; split; [now left|auto]|]. destruct (IH Hin r' eq_refl) as (v & ? & ?). exists v. split; auto. now right. }
      exists v, means. split; auto. split; auto. unfold compute_metric_from_statistics in Ev. rewrite Em in Ev. exact Ev.
  Qed.

  Theorem evaluate_conv (metrics : dict string (metric da)) : (forall s v, In s (registered metrics) -> compute s p t = Ok v -> NoDup (keys v)) ->
    names_identify metrics p t ->
    (forall n m, In (n, m) metrics -> exists means v, items_rel (own_mean g p t) (statistics m) means /\ values_from_mean_statistics m means = Ok v) ->
    exists mv, evaluate g metrics p t = Ok mv.
  Proof.
    intros Hout Hid Hall.
    assert (forall s, In s (registered metrics) -> exists mean, own_mean g p t s mean) as Hs.
    { intros s Hs. unfold registered in Hs. apply in_flat_map in Hs. destruct Hs as ([n m] & Hin & Hs). simpl in Hs.
      destruct (Hall n m Hin) as (means & v & HF & _). clear - HF Hs.
      induction HF as [|[k s'] [k' mean] S means [E1 E2] HF IH]; [destruct Hs|]. destruct Hs as [<-|Hs]; [exists mean; exact E2|auto]. }
    assert (exists N, items_rel (fun s mean => exists raw, compute s p t = Ok raw /\ mean1 g raw mean) (unique_statistics metrics) N) as [N HN].
    { assert (forall U, incl U (unique_statistics metrics) -> exists N, items_rel (fun s mean => exists raw, compute s p t = Ok raw /\ mean1 g raw mean) U N) as K; [|apply K, incl_refl].
      induction U as [|[k s] U IH]; intros Hi; [exists []; constructor|].
      destruct IH as [N HN]; [intros z Hz; apply Hi; now right|].
      assert (In s (registered metrics)) as Hr.
      { assert (In (k, s) (unique_statistics metrics)) as Hin by (apply Hi; now left). apply In_unique in Hin. destruct Hin as [(l1 & l2 & -> & _) _]. apply in_app_iff. right. now left. }
      destruct (Hs s Hr) as [mean Hm]. apply own_mean_iff in Hm; [|intros; eapply Hout; eauto]. exists ((k, mean) :: N). constructor; auto. }
    assert (exists mv, compute_metrics_from_statistics metrics N = Ok mv) as [mv Hmv].
    { unfold compute_metrics_from_statistics. apply mapM_total. intros [n m] Hin. simpl.
      destruct (Hall n m Hin) as (means & v & HF & Hv).
      destruct (received metrics N m n Hout Hid Hin HN) as (means' & Em & HF').
      assert (means' = means) as ->.
      { assert (forall k s, In (k, s) (statistics m) -> forall v, compute s p t = Ok v -> NoDup (keys v)) as Hnd.
        { intros k s Hks v0 Hv0. eapply Hout; [eapply In_registered; eauto|exact Hv0]. }
        clear - HF HF' Hnd. revert means' HF'. induction HF as [|[k s] [k' mean] S means [E1 E2] HF IH]; intros means' HF'; inversion HF' as [|? [k'' mean'] ? ? [E3 E4] HF'']; subst; auto.
        simpl in *. subst. f_equal; [f_equal; eapply own_mean_fun; eauto|]. apply IH; auto. intros; eapply Hnd; eauto. }
      unfold compute_metric_from_statistics. rewrite Em. cbn [bind]. rewrite Hv. cbn [bind]. eauto. }
    exists mv. apply evaluate_Ok; eauto.
  Qed.

  Lemma sub_out (metrics : dict string (metric da)) n m : (forall s v, In s (registered metrics) -> compute s p t = Ok v -> NoDup (keys v)) -> In (n, m) metrics ->
    (forall s v, In s (registered [(n, m)]) -> compute s p t = Ok v -> NoDup (keys v)).
  Proof.
    intros Hout Hin s v Hs. apply Hout. unfold registered in *. simpl in Hs. rewrite app_nil_r in Hs. apply in_flat_map. exists (n, m). auto.
  Qed.
  Lemma sub_id (metrics : dict string (metric da)) n m : names_identify metrics p t -> In (n, m) metrics -> names_identify [(n, m)] p t.
  Proof.
    intros Hid Hin s s' Hs Hs'. apply Hid; unfold registered in *; simpl in Hs, Hs'; rewrite app_nil_r in *; apply in_flat_map; exists (n, m); auto.
  Qed.

  Theorem alone (metrics : dict string (metric da)) mv n m : (forall s v, In s (registered metrics) -> compute s p t = Ok v -> NoDup (keys v)) ->
    names_identify metrics p t -> NoDup (keys metrics) ->
    evaluate g metrics p t = Ok mv -> In (n, m) metrics ->
    exists v, dget mv n = Some v /\ evaluate g [(n, m)] p t = Ok [(n, v)].
  Proof.
    intros Hout Hid Hnd H Hin. destruct (evaluate_each metrics mv Hout Hid H) as [Hk Hall].
    destruct (Hall n m Hin) as (v & means & Hv & HF & Hval).
    exists v. split; [apply In_dget; auto; rewrite Hk; auto|].
    pose proof (sub_out _ _ _ Hout Hin) as Hout1. pose proof (sub_id _ _ _ Hid Hin) as Hid1.
    destruct (evaluate_conv [(n, m)] Hout1 Hid1) as [mv1 H1].
    { intros n' m' [[= <- <-]|[]]. eauto. }
    destruct (evaluate_each _ _ Hout1 Hid1 H1) as [Hk1 Hall1]. destruct (Hall1 n m (or_introl eq_refl)) as (v1 & means1 & Hv1 & HF1 & Hval1).
    assert (means1 = means) as ->.
    { assert (forall k s, In (k, s) (statistics m) -> forall v, compute s p t = Ok v -> NoDup (keys v)) as Hnd'.
      { intros k s Hks v0 Hv0. eapply Hout; [eapply In_registered; eauto|exact Hv0]. }
      clear - HF HF1 Hnd'. revert means1 HF1. induction HF as [|[k s] [k' mean] S means [E1 E2] HF IH]; intros means' HF'; inversion HF' as [|? [k'' mean'] ? ? [E3 E4] HF'']; subst; auto.
      simpl in *. subst. f_equal; [f_equal; eapply own_mean_fun; eauto|]. apply IH; auto. intros; eapply Hnd'; eauto. }
    rewrite Hval in Hval1. injection Hval1 as <-.
    destruct mv1 as [|[n1 w] [|]]; try discriminate. rewrite H1. destruct Hv1 as [[= -> ->]|[]]. reflexivity.
  Qed.

  Theorem fails_alone (metrics : dict string (metric da)) e : (forall s v, In s (registered metrics) -> compute s p t = Ok v -> NoDup (keys v)) ->
    names_identify metrics p t ->
    evaluate g metrics p t = Err e -> exists n m e', In (n, m) metrics /\ evaluate g [(n, m)] p t = Err e'.
  Proof.
    intros Hout Hid H.
    assert (forall l, (exists n m e', In (n, m) l /\ evaluate g [(n, m)] p t = Err e') \/ (forall n m, In (n, m) l -> exists mv, evaluate g [(n, m)] p t = Ok mv)) as K.
    { induction l as [|[n m] l IH]; [right; intros ? ? []|].
      destruct (evaluate g [(n, m)] p t) as [mv|e'] eqn:E; [|left; exists n, m, e'; split; [now left|auto]].
      destruct IH as [(n' & m' & e' & ? & ?)|IH]; [left; exists n', m', e'; split; [now right|auto]|].
      right. intros n' m' [[= <- <-]|Hin]; eauto. }
    destruct (K metrics) as [K'|K']; [exact K'|]. exfalso.
    destruct (evaluate_conv metrics Hout Hid) as [mv Hmv]; [|congruence].
    intros n m Hin. destruct (K' n m Hin) as [mv1 H1].
    destruct (evaluate_each _ _ (sub_out _ _ _ Hout Hin) (sub_id _ _ _ Hid Hin) H1) as [_ Hall].
    destruct (Hall n m (or_introl eq_refl)) as (v & means & _ & HF & Hv). eauto.
  Qed.
End C18.
