(** Nested states as trees: what the round trip through a dataset needs and gives (C69). *)
From Coq Require Import String Ascii List Bool Arith Lia ZArith.
Import ListNotations.
From Verif Require Import Prelude Values Model_XArray Spec_XArray Proofs_XArray Model_Tree Spec_Tree
  Model_MetricsBase Model_Aggregation Spec_Aggregation Spec_Aggregator Proofs_Aggregator2 Spec_RoundTrip
  Model_TimeChunks Model_Beam Spec_Beam Proofs_Beam5 Spec_BeamWrite Proofs_BeamWrite Proofs_BeamWrite2 Proofs_BeamWrite3 Proofs_BeamWrite4.
Local Open Scope string_scope.
Local Open Scope list_scope.

Definition inner (vs : dict string da) : tree da := Dict (map (fun va => (fst va, Leaf (snd va))) vs).
Lemma dget_nest d k : match nest_tree d with Dict kvs => dget kvs k | _ => None end = match dget d k with Some vs => Some (inner vs) | None => None end.
Proof. unfold nest_tree. apply (dget_map_val (fun vs : dict string da => inner vs)). Qed.
Lemma dget_inner (vs : dict string da) v : dget (map (fun va => (fst va, Leaf (snd va))) vs) v = match dget vs v with Some a => Some (Leaf a) | None => None end.
Proof. apply (dget_map_val (fun a : da => Leaf a)). Qed.

Lemma at_path_nest d p : at_path (nest_tree d) p =
  match p with
  | [] => Some (nest_tree d)
  | [Key k] => match dget d k with Some vs => Some (inner vs) | None => None end
  | [Key k; Key v] => match look d k v with Some a => Some (Leaf a) | None => None end
  | _ => None
  end.
Proof.
  destruct p as [|[k|n] p]; [reflexivity| |reflexivity].
  change (at_path (nest_tree d) (Key k :: p)) with (match (match nest_tree d with Dict kvs => dget kvs k | _ => None end) with Some t' => at_path t' p | None => None end).
  rewrite dget_nest. unfold look. destruct (dget d k) as [vs|]; [|destruct p as [|[|] []]; reflexivity].
  destruct p as [|[v|n] p]; [reflexivity| |destruct p; reflexivity]. unfold inner. cbn [at_path]. rewrite dget_inner.
  destruct (dget vs v); [|destruct p; reflexivity]. destruct p as [|[|] p]; reflexivity.
Qed.
Lemma nest_leaf d p a : at_path (nest_tree d) p = Some (Leaf a) -> exists k v, look d k v = Some a.
Proof.
  rewrite at_path_nest. destruct p as [|[k|n] [|[v|m] [|]]]; try discriminate.
  - destruct (dget d k); discriminate.
  - destruct (look d k v) eqn:E; [|discriminate]. intros [= <-]. eauto.
Qed.

Lemma tree_rel_nest (Q : da -> da -> Prop) d d' : proper d -> proper d' ->
  (forall k v, opt_rel Q (look d k v) (look d' k v)) -> tree_rel Q (nest_tree d) (nest_tree d').
Proof.
  intros P P' H p. rewrite !at_path_nest. destruct p as [|[k|n] [|[v|m] [|]]]; try exact I; try (destruct (dget d k), (dget d' k); exact I).
  - assert (In k (keys d) <-> In k (keys d')) as K.
    { rewrite (look_keys d k P), (look_keys d' k P'). split; intros (v & a & E); specialize (H k v); rewrite E in H.
      - destruct (look d' k v) as [b|] eqn:E'; [eauto|destruct H]. - destruct (look d k v) as [b|] eqn:E'; [eauto|destruct H]. }
    destruct (dget d k) eqn:G, (dget d' k) eqn:G'; try exact I.
    + apply dget_Some_keys in G. apply K in G. apply keys_dget in G. destruct G. congruence.
    + apply dget_Some_keys in G'. apply K in G'. apply keys_dget in G'. destruct G'. congruence.
  - specialize (H k v). destruct (look d k v), (look d' k v); auto.
Qed.
Lemma tree_rel_impl (Q Q' : da -> da -> Prop) t u : (forall a b, Q a b -> Q' a b) -> tree_rel Q t u -> tree_rel Q' t u.
Proof.
  intros H T p. specialize (T p). destruct (at_path t p) as [[]|], (at_path u p) as [[]|]; auto.
Qed.
Lemma nested_nest_tree (N : string -> Prop) d : proper d -> (forall k v a, look d k v = Some a -> N k /\ N v) -> nested_dict N (nest_tree d).
Proof.
  intros [Nd W] H. unfold nest_tree. cbn [nested_dict]. split; [rewrite map_map; exact Nd|].
  assert (forall k vs, In (k, vs) d -> N k /\ nested_dict N (inner vs)) as K.
  { intros k vs I. destruct (W k vs I) as [Nv Ne]. assert (forall v a, In (v, a) vs -> N k /\ N v) as Kv.
    { intros v a J. apply (H k v a). unfold look. rewrite (In_dget _ _ _ Nd I). now apply In_dget. }
    split; [destruct vs as [|[v a] vs]; [congruence|]; apply (Kv v a); now left|]. unfold inner. cbn [nested_dict]. split; [rewrite map_map; exact Nv|].
    assert (forall v a, In (v, a) vs -> N v) as Kw by (intros; eapply Kv; eauto). clear - Kw. induction vs as [|[v a] vs IH]; cbn; auto.
    split; [split; [apply (Kw v a); now left|exact Logic.I]|]. apply IH. intros; eapply Kw; right; eauto. }
  clear - K. unfold inner in K. induction d as [|[k vs] d IH]; [exact I|]. cbn [map fst snd]. split; [apply (K k vs); now left|]. apply IH. intros; apply K; now right.
Qed.
Lemma inner_nonempty_nest d : proper d -> inner_nonempty (nest_tree d).
Proof.
  intros [Nd W]. assert (forall k vs, In (k, vs) d -> vs <> []) as K by (intros k vs I; apply (W k vs I)). clear - K.
  unfold nest_tree. cbn [inner_nonempty]. induction d as [|[k vs] d IH]; [exact I|]. cbn [map fst snd]. split.
  - split; [intros [= E]; apply map_eq_nil in E; apply (K k vs); [now left|auto]|].
    cbn [inner_nonempty]. clear. induction vs as [|[v a] vs IH]; [exact I|]. cbn [map fst snd]. split; [split; [discriminate|exact I]|exact IH].
  - apply IH. intros; eapply K; right; eauto.
Qed.

Definition any_name (k : string) : Prop := True.
Lemma nested_In N kvs k u : nested_dict N (Dict kvs) -> In (k, u) kvs -> nested_dict N u.
Proof.
  intros [_ G]. revert G. induction kvs as [|[k0 u0] kvs IH]; [intros _ []|]. intros [[_ H] G] [[= -> ->]|I]; auto.
Qed.
Lemma nest_of_rel (Q : da -> da -> Prop) d t : proper d -> nested_dict any_name t -> tree_rel Q (nest_tree d) t ->
  exists d', t = nest_tree d' /\ proper d' /\ forall k v, opt_rel Q (look d k v) (look d' k v).
Proof.
  intros P ND T. pose proof (T []) as T0. rewrite at_path_nest in T0. cbn [at_path] in T0. destruct t as [a|kvs|l|l]; try (destruct T0; fail). clear T0.
  assert (NoDup (map fst kvs)) as Nk by apply ND.
  assert (forall k u, In (k, u) kvs -> exists vs ws, In (k, vs) d /\ u = Dict ws /\ NoDup (map fst ws) /\ ws <> [] /\ forall v w, In (v, w) ws -> exists a, w = Leaf a) as K.
  { intros k u I. assert (dget kvs k = Some u) as Gu by (now apply In_dget).
    pose proof (T [Key k]) as T1. rewrite at_path_nest in T1. cbn [at_path] in T1. rewrite Gu in T1.
    destruct (dget d k) as [vs|] eqn:Gk; [|destruct u; destruct T1]. destruct u as [|ws| |]; try (destruct T1; fail).
    exists vs, ws. split; [now apply dget_In in Gk|]. split; [reflexivity|]. pose proof (nested_In _ _ _ _ ND I) as NI. split; [apply NI|].
    destruct P as [Nd W]. destruct (W k vs (dget_In _ _ Gk)) as [Nv Ne]. split.
    - intros ->. destruct vs as [|[v a] vs]; [congruence|]. pose proof (T [Key k; Key v]) as T2. rewrite at_path_nest in T2. cbn [at_path] in T2. rewrite Gu in T2. cbn [dget] in T2.
      unfold look in T2. rewrite Gk in T2. cbn [dget] in T2. destruct (eq_dec v v); [exact T2|congruence].
    - intros v w J. pose proof (T [Key k; Key v]) as T2. rewrite at_path_nest in T2. cbn [at_path] in T2. rewrite Gu in T2.
      rewrite (In_dget _ _ _ (proj1 NI) J) in T2. destruct (look d k v); destruct w; try (destruct T2; fail); eauto. }
  set (leaf := fun w : tree da => match w with Leaf a => a | _ => da_empty end).
  set (d' := map (fun ku : string * tree da => (fst ku, match snd ku with Dict ws => map (fun vw : string * tree da => (fst vw, leaf (snd vw))) ws | _ => [] end)) kvs).
  assert (Dict kvs = nest_tree d') as E.
  { unfold nest_tree, d'. f_equal. rewrite map_map. rewrite <- (List.map_id kvs) at 1. apply map_ext_in. intros [k u] I. cbn [fst snd].
    destruct (K k u I) as (vs & ws & _ & -> & _ & _ & L). f_equal. f_equal. rewrite map_map. rewrite <- (List.map_id ws) at 1. apply map_ext_in. intros [v w] J.
    destruct (L v w J) as [a ->]. reflexivity. }
  exists d'. split; [exact E|]. split.
  - split; [unfold d', keys; rewrite map_map; exact Nk|]. intros k vs I. unfold d' in I. apply in_map_iff in I. destruct I as ([k0 u] & [= -> <-] & I).
    destruct (K k u I) as (vs' & ws & _ & -> & N' & Ne & _). unfold keys. rewrite map_map. cbn [fst]. split; [exact N'|]. intros F. apply map_eq_nil in F. auto.
  - intros k v. rewrite E in T. specialize (T [Key k; Key v]). rewrite !at_path_nest in T. destruct (look d k v), (look d' k v); auto.
Qed.

(** ** Names in what from_dataset returns *)
Fixpoint fdistinct (t : ftree) : Prop :=
  match t with
  | FT d cs => NoDup (map fst cs) /\
      (fix go l := match l with [] => True | (_, n) :: l' => fdistinct n /\ go l' end) cs
  end.
Lemma fdistinct_FT d cs : fdistinct (FT d cs) <-> NoDup (map fst cs) /\ forall k n, In (k, n) cs -> fdistinct n.
Proof.
  cbn [fdistinct]. match goal with |- _ /\ ?F cs <-> _ => set (go := F) end.
  assert (go cs <-> forall k n, In (k, n) cs -> fdistinct n) as ->; [|reflexivity].
  induction cs as [|[k n] cs IH]; [split; [intros _ ? ? []|cbn; auto]|]. change (go ((k, n) :: cs)) with (fdistinct n /\ go cs). rewrite IH. split.
  - intros [A B] k' n' [[= <- <-]|I]; eauto. - intros H. split; [apply (H k); now left|]. intros; eapply H; right; eauto.
Qed.
Lemma insert_distinct parts : forall data t, fdistinct t -> fdistinct (insert_at parts data t).
Proof.
  induction parts as [|p ps IH]; intros data [d cs] H; apply fdistinct_FT in H; destruct H as [N W]; cbn [insert_at]; [apply fdistinct_FT; auto|].
  destruct (dget cs p) as [t|] eqn:G; apply fdistinct_FT.
  - split; [now apply (NoDup_keys_dset cs)|]. intros k n I. apply In_dset in I; auto. destruct I as [[-> ->]|[_ I]]; [|eauto]. apply IH. eapply W. apply (dget_In _ _ G).
  - assert (~ In p (map fst cs)) as NI by (intros J; destruct (keys_dget cs p J); congruence). split.
    + rewrite map_app. cbn [map fst]. apply NoDup_app_intro; auto; [repeat constructor; intros []|]. intros x J [<-|[]]. auto.
    + intros k n I. apply in_app_iff in I. destruct I as [I|[[= <- <-]|[]]]; [eauto|]. apply IH. apply fdistinct_FT. split; [constructor|intros ? ? []].
Qed.
Lemma dict_distinct g : forall t r, fdistinct t -> fold_left dict_step g (Ok t) = Ok r -> fdistinct r.
Proof.
  induction g as [|[k x] g IH]; intros t r HT HR; cbn [fold_left] in *; [injection HR as <-; auto|].
  unfold dict_step in HR at 2. cbn [bind fst snd] in *. destruct (existsb _ _); [rewrite dict_err in HR; discriminate|]. eapply IH; [|exact HR]. now apply insert_distinct.
Qed.
Lemma nested_Dict (kvs : list (string * tree da)) : NoDup (map fst kvs) -> (forall k t, In (k, t) kvs -> nested_dict any_name t) -> nested_dict any_name (Dict kvs).
Proof.
  intros N H. cbn [nested_dict]. split; auto. clear N. induction kvs as [|[k t] kvs IH]; [exact I|]. split; [split; [exact I|apply (H k); now left]|]. apply IH. intros; eapply H; right; eauto.
Qed.
Lemma from_ftree_nested n : forall t r, fsize t <= n -> fdistinct t -> from_ftree t = Ok r -> nested_dict any_name (fst r) /\ nested_dict any_name (snd r).
Proof.
  induction n as [|n IH]; intros [d cs] r Hn HT HR; [cbn in Hn; lia|]. apply fdistinct_FT in HT. destruct HT as [N W].
  destruct d as [|kv d].
  - cbn [from_ftree] in *.
    set (go := fix go (l : list (string * ftree)) : result (list (string * (tree da * tree da))) :=
      match l with [] => Ok [] | (k, n) :: l' => do r <- from_ftree n; do rs <- go l'; Ok ((k, r) :: rs) end) in *.
    destruct (go cs) as [rs|] eqn:Eg; [|discriminate]. cbn [bind] in HR. injection HR as <-. cbn [fst snd].
    assert (map fst rs = map fst cs /\ forall k x, In (k, x) rs -> nested_dict any_name (fst x) /\ nested_dict any_name (snd x)) as [Kr Vr].
    { clear N. cbn [fsize] in Hn. revert rs Eg Hn W. induction cs as [|[k x] cs IHc]; intros rs Eg Hn W.
      - cbn in Eg. injection Eg as <-. split; [reflexivity|intros ? ? []].
      - change (go ((k, x) :: cs)) with (do r <- from_ftree x; do rs <- go cs; Ok ((k, r) :: rs)) in Eg. destruct (from_ftree x) as [rx|] eqn:Ex; [|discriminate]. cbn [bind] in Eg.
        destruct (go cs) as [q|]; [|discriminate]. cbn [bind] in Eg. injection Eg as <-.
        change (list_sum (map (fun kn => fsize (snd kn)) ((k, x) :: cs))) with (fsize x + list_sum (map (fun kn => fsize (snd kn)) cs)) in Hn.
        destruct (IHc q eq_refl ltac:(lia)) as [K1 K2]; [intros; eapply W; right; eauto|]. split; [cbn [map fst]; now rewrite K1|].
        intros k' y [[= <- <-]|I]; [|eauto]. apply (IH x rx); [lia| |exact Ex]. apply (W k). now left. }
    split; (apply nested_Dict; [rewrite map_map; cbn [fst]; change (fun x : string * (tree da * tree da) => fst x) with (@fst string (tree da * tree da)); rewrite Kr; exact N|]);
      intros k t I; apply in_map_iff in I; destruct I as ([k0 x] & [= <- <-] & I); cbn [snd]; apply (Vr k0 x I).
  - cbn [from_ftree] in HR. unfold dgetE in HR. destruct (dget _ "sum_weighted_statistics"); [|discriminate]. cbn [bind] in HR. destruct (dget _ "sum_weights"); [|discriminate]. cbn [bind] in HR.
    injection HR as <-. split; exact I.
Qed.
Lemma from_dataset_nested sep ds x y : from_dataset sep ds = Ok (Some (x, y)) -> nested_dict any_name x /\ nested_dict any_name y.
Proof.
  intros E. rewrite from_dataset_steps in E.
  match type of E with bind ?q _ = _ => destruct q as [g|] eqn:Eg; [|discriminate] end. cbn [bind] in E.
  match type of E with bind ?q _ = _ => destruct q as [t|] eqn:Et; [|discriminate] end. cbn [bind] in E.
  destruct (from_ftree t) as [r|] eqn:Er; [|discriminate]. cbn [bind] in E. injection E as ->.
  apply (from_ftree_nested (fsize t) t (x, y) (le_n _)); [|exact Er]. eapply dict_distinct; [|exact Et]. apply fdistinct_FT. split; [constructor|intros ? ? []].
Qed.
