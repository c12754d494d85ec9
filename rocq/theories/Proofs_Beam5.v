(** From the pipeline's transforms to the entries of the reconstructed state. *)
From Coq Require Import String ZArith Bool List Permutation Lia Arith.
Import ListNotations.
From Verif Require Import Prelude Values Model_XArray Spec_XArray Proofs_XArray Model_Tree Spec_Tree Proofs_Tree
  Model_TimeChunks Spec_TimeChunks Proofs_TimeChunks Model_MetricsBase
  Model_Aggregation Spec_Aggregation Spec_Aggregator Proofs_AggState Proofs_Aggregator Proofs_Aggregator2 Model_Beam Spec_Beam Proofs_Beam.
From Coq Require Import Reals.
Local Open Scope string_scope.
Local Open Scope list_scope.

(** ** reconstruct *)
Definition look (d : dict string (dict string da)) (k v : string) : option da :=
  match dget d k with Some vs => dget vs v | None => None end.
Lemma look_set d k v a k' v' : look (set_nested d k v a) k' v' = if eq_dec (k, v) (k', v') then Some a else look d k' v'.
Proof.
  unfold look, set_nested. rewrite dget_dset. destruct (eq_dec (k, v) (k', v')) as [E|E].
  - injection E as -> ->. unfold eqb. destruct (eq_dec k' k'); [|congruence]. rewrite dget_dset. unfold eqb. destruct (eq_dec v' v'); congruence.
  - unfold eqb. destruct (eq_dec k' k) as [->|Ek].
    + rewrite dget_dset. unfold eqb. destruct (eq_dec v' v) as [->|]; [congruence|]. destruct (dget d k); reflexivity.
    + reflexivity.
Qed.
Lemma entry_nest d k v : entry (nest_tree d) k v = look d k v.
Proof.
  unfold entry, nest_tree, look, dict in *. rewrite (dget_map_val (fun vs => Dict (map (fun va => (fst va, Leaf (snd va))) vs))).
  destruct (dget d k) as [vs|]; [|reflexivity]. rewrite (dget_map_val (fun a => Leaf a)). now destruct (dget vs v).
Qed.

Definition okey (ty : key_type) (k v : string) : key := mkKey ty k v None None.
Lemma reconstruct_entry pairs ty k v : NoDup (map fst pairs) -> (forall p, In p pairs -> fst p = drop_offsets (fst p)) ->
  entry (part ty (reconstruct pairs)) k v = dget pairs (okey ty k v).
Proof.
  intros Hn Ho. unfold reconstruct, part.
  match goal with |- context [fold_left ?F pairs _] => set (f := F) end.
  assert (forall acc, look (match ty with SumWeightedStatistics => fst | SumWeights => snd end (fold_left f pairs acc)) k v =
    match dget pairs (okey ty k v) with Some a => Some a | None => look (match ty with SumWeightedStatistics => fst | SumWeights => snd end acc) k v end) as H.
  { induction pairs as [|[kk a] pairs IH]; intros acc; [reflexivity|]. inversion Hn as [|? ? Hk Hn']; subst.
    cbn [fold_left]. rewrite IH; auto; [|intros; apply Ho; now right].
    specialize (Ho (kk, a) (or_introl eq_refl)). cbn [fst] in Ho.
    cbn [dget]. destruct (dget pairs (okey ty k v)) as [b|] eqn:Eb.
    - unfold eqb. destruct (eq_dec (okey ty k v) kk) as [E|E]; [|reflexivity].
      exfalso. apply Hk. rewrite <- E. apply dget_In in Eb. apply in_map_iff. exists (okey ty k v, b). auto.
    - unfold eqb, f. cbn [fst snd]. destruct (eq_dec (okey ty k v) kk) as [E|E].
      + rewrite <- E. cbn [okey k_type k_statistic k_variable]. destruct ty; cbn [fst snd]; rewrite look_set; destruct (eq_dec (k, v) (k, v)); congruence.
      + assert (k_type kk = ty -> (k_statistic kk, k_variable kk) <> (k, v)) as Hne.
        { intros E1 E2. injection E2 as E2 E3. apply E. rewrite Ho. unfold drop_offsets, okey. congruence. }
        destruct (k_type kk), ty; cbn [fst snd]; auto; rewrite look_set; specialize (Hne eq_refl); now destruct (eq_dec (k_statistic kk, k_variable kk) (k, v)). }
  specialize (H ([], [])). destruct ty; rewrite entry_nest, H; destruct (dget pairs _); reflexivity.
Qed.

(** ** The transforms *)
Lemma under_In {V} (k : key) (l : list (key * V)) x : In x (under k l) <-> In (k, x) l.
Proof.
  unfold under. rewrite in_map_iff. split.
  - intros [[k' x'] [E H]]. apply filter_In in H. destruct H as [H1 H2]. simpl in *. subst. destruct (eq_dec k' k); [subst; auto|discriminate].
  - intros H. exists (k, x). split; auto. apply filter_In. split; auto. simpl. now destruct (eq_dec k k).
Qed.
Lemma under_app {V} (k : key) (l m : list (key * V)) : under k (l ++ m) = under k l ++ under k m.
Proof. unfold under. now rewrite filter_app, map_app. Qed.
Lemma under_map {V W} (f : V -> W) (k : key) l : under k (map (fun p => (fst p, f (snd p))) l) = map f (under k l).
Proof. unfold under. induction l as [|[k' x] l IH]; simpl; [reflexivity|]. destruct (eq_dec k' k); simpl; now rewrite IH. Qed.

Definition occurs (l : list (key * da)) (ty : key_type) (k v : string) (kk : key) : Prop :=
  In kk (map fst l) /\ drop_offsets kk = okey ty k v.

Lemma drop_idem k : drop_offsets (drop_offsets k) = drop_offsets k.
Proof. reflexivity. Qed.

Lemma NoDup_filter_keys {V} (p : key * V -> bool) l : NoDup (map fst l) -> NoDup (map fst (filter p l)).
Proof.
  induction l as [|x l IH]; intros H; simpl; [constructor|]. inversion H; subst. destruct (p x); auto. simpl. constructor; auto.
  intros F. apply H2. apply in_map_iff in F. destruct F as [y [<- Hy]]. apply filter_In in Hy. apply in_map. tauto.
Qed.

Section Transforms.
  Variables (all summed : list (key * da)) (grouped : list (key * list da)) (groups : list (list (key * da))) (out : list state).
  Hypothesis H1 : combine_per_key all summed.
  Hypothesis H2 : group_by_key (map (fun ka => (drop_offsets (fst ka), snd ka)) summed) grouped.
  Hypothesis H3 : group_all (map (fun kv => (fst kv, combine_data_arrays_by_coords (snd kv))) grouped) groups.
  Hypothesis H4 : out = map reconstruct groups.

  Lemma keys_grouped K : In K (map fst grouped) <-> exists kk, In kk (map fst all) /\ drop_offsets kk = K.
  Proof.
    destruct H2 as (_ & H & _). rewrite H, map_map. cbn [fst]. rewrite in_map_iff. destruct H1 as (_ & H' & _). split.
    - intros [[kk z] [E Hin]]. exists kk. split; auto. apply H'. apply in_map_iff. now exists (kk, z).
    - intros [kk [Hin E]]. apply H' in Hin. apply in_map_iff in Hin. destruct Hin as [[kk' z] [E' Hin]]. exists (kk', z). simpl in *. subst. auto.
  Qed.

  Lemma out_length : (all = [] -> out = []) /\ (all <> [] -> exists s, out = [s]).
  Proof.
    assert (grouped = [] <-> all = []) as Hg.
    { split; intros E.
      - assert (forall K, ~ In K (map fst grouped)) as X by (rewrite E; intros K []). clear E.
        assert (forall kk a, ~ In (kk, a) all) as Y.
        { intros kk a Hin. apply (X (drop_offsets kk)). apply keys_grouped. exists kk. split; auto. apply in_map_iff. now exists (kk, a). }
        clear - Y. destruct all as [|[kk a] r]; [reflexivity|]. exfalso. apply (Y kk a). now left.
      - assert (forall p, ~ In p grouped) as Y.
        { intros p Hin. assert (In (fst p) (map fst grouped)) as X by now apply in_map. apply keys_grouped in X. destruct X as [kk [X _]]. rewrite E in X. destruct X. }
        clear - Y. destruct grouped as [|p r]; [reflexivity|]. exfalso. apply (Y p). now left. }
    clear - H3 H4 Hg. destruct grouped as [|p gr].
    - simpl in H3. subst groups out. split; auto. intros Hn. exfalso. now apply Hn, Hg.
    - destruct H3 as (l & _ & ->). subst out. split; [|intros _; simpl; eauto]. intros E. apply Hg in E. discriminate.
  Qed.

  Lemma out_entry s ty k v : In s out ->
    (entry (part ty s) k v = None -> forall kk, ~ occurs all ty k v kk) /\
    (forall a, entry (part ty s) k v = Some a ->
      exists ks zs, a = combine_data_arrays_by_coords zs /\ (exists kk, occurs all ty k v kk) /\ NoDup ks /\ (forall kk, In kk ks <-> occurs all ty k v kk) /\
        Forall2 (fun kk z => In (kk, z) summed) ks zs).
  Proof.
    intros Hs. subst out. apply in_map_iff in Hs. destruct Hs as [pairs [<- Hp]].
    assert (Permutation pairs (map (fun kv => (fst kv, combine_data_arrays_by_coords (snd kv))) grouped)) as HP.
    { pose proof H3 as H3'. unfold group_all in H3'. destruct (map _ grouped) as [|p l]; [subst; destruct Hp|]. destruct H3' as (l' & HP & ->). destruct Hp as [<-|[]]. exact HP. }
    pose proof H2 as (N2 & _ & G2). pose proof H1 as (N1 & K1 & G1).
    assert (map fst (map (fun kv : key * list da => (fst kv, combine_data_arrays_by_coords (snd kv))) grouped) = map fst grouped) as EM by (rewrite map_map; reflexivity).
    assert (NoDup (map fst pairs)) as HN by (eapply Permutation_NoDup; [apply Permutation_map, Permutation_sym, HP|now rewrite EM]).
    rewrite reconstruct_entry; auto.
    2: { intros p Hin. assert (In (fst p) (map fst grouped)) as X by (rewrite <- EM; apply in_map; eapply Permutation_in; eauto).
         apply keys_grouped in X. destruct X as [kk [_ <-]]. now rewrite drop_idem. }
    split.
    - intros E kk [Hk Hd]. assert (In (okey ty k v) (map fst grouped)) as X by (apply keys_grouped; eauto). rewrite <- EM in X.
      assert (In (okey ty k v) (map fst pairs)) as Y by (eapply Permutation_in; [apply Permutation_map, Permutation_sym, HP|exact X]).
      apply keys_dget in Y. destruct Y as [b Hb]. congruence.
    - intros a Ha. apply dget_In in Ha. apply (Permutation_in _ HP) in Ha. apply in_map_iff in Ha. destruct Ha as [[K vs] [[= E1 E2] Hin]].
      simpl in E1, E2. subst K a. pose proof (G2 _ _ Hin) as HPv.
      set (l := filter (fun p : key * da => if eq_dec (drop_offsets (fst p)) (okey ty k v) then true else false) summed).
      assert (under (okey ty k v) (map (fun ka : key * da => (drop_offsets (fst ka), snd ka)) summed) = map snd l) as EU.
      { unfold l, under. clear. induction summed as [|p r IH]; simpl; [reflexivity|]. destruct (eq_dec (drop_offsets (fst p)) (okey ty k v)); simpl; now rewrite IH. }
      rewrite EU in HPv. apply Permutation_map_inv in HPv. destruct HPv as (l' & -> & HPl).
      exists (map fst l'), (map snd l'). split; [reflexivity|]. split; [|split; [|split]].
      + assert (In (okey ty k v) (map fst grouped)) as X by (apply in_map_iff; now exists (okey ty k v, map snd l')).
        apply keys_grouped in X. destruct X as (kk & X1 & X2). now exists kk.
      + eapply Permutation_NoDup; [apply Permutation_map, HPl|]. unfold l. now apply NoDup_filter_keys.
      + intros kk. assert (In kk (map fst l') <-> In kk (map fst l)) as -> by (split; apply Permutation_in; [apply Permutation_sym|]; now apply Permutation_map).
        unfold l, occurs. rewrite <- K1. split.
        * intros X. apply in_map_iff in X. destruct X as [p [<- X]]. apply filter_In in X. destruct X as [X1 X2]. split; [now apply in_map|].
          destruct (eq_dec (drop_offsets (fst p)) (okey ty k v)); [auto|discriminate].
        * intros [X1 X2]. apply in_map_iff in X1. destruct X1 as [p [<- X1]]. apply in_map. apply filter_In. split; auto. now destruct (eq_dec (drop_offsets (fst p)) (okey ty k v)).
      + assert (forall p, In p l' -> In p summed) as Hi.
        { intros p X. apply (Permutation_in _ (Permutation_sym HPl)) in X. unfold l in X. apply filter_In in X. tauto. }
        clear - Hi. induction l' as [|[kk z] l' IH]; simpl; constructor; [apply Hi; now left|apply IH; intros; apply Hi; now right].
  Qed.
End Transforms.
