From Coq Require Import String List Bool Lia Arith.
Import ListNotations.
From Verif Require Import Prelude Model_Tree Spec_Tree.
Local Open Scope list_scope.

Section TreeInd.
  Context {A : Type} (P : tree A -> Prop).
  Hypothesis HL : forall a, P (Leaf a).
  Hypothesis HD : forall kvs, Forall (fun kv => P (snd kv)) kvs -> P (Dict kvs).
  Hypothesis HS : forall ts, Forall P ts -> P (Seq ts).
  Hypothesis HDs : forall kvs, P (Dset kvs).
  Fixpoint tree_ind' (t : tree A) : P t :=
    match t with
    | Leaf a => HL a
    | Dict kvs => HD kvs
        ((fix go (l : list (string * tree A)) : Forall (fun kv => P (snd kv)) l :=
           match l with
           | [] => Forall_nil _
           | kv :: l' => Forall_cons kv (tree_ind' (snd kv)) (go l')
           end) kvs)
    | Seq ts => HS ts
        ((fix go (l : list (tree A)) : Forall P l :=
           match l with [] => Forall_nil _ | t :: l' => Forall_cons t (tree_ind' t) (go l') end) ts)
    | Dset kvs => HDs kvs
    end.
End TreeInd.

(** Named versions of the inner loops. *)
Section Loops.
  Context {A B : Type} (func : list (tree A) -> result B) (rebuild : list (string * B) -> tree B).
  Definition go_dict (rest : list (tree A)) :=
    fix go_dict (l : list (string * tree A)) : result (list (string * tree B)) :=
    match l with
    | [] => Ok []
    | (k, t) :: l' =>
        do others <- mapM (fun s => child s k) rest;
        do b <- map_first func rebuild t others;
        do bs <- go_dict l'; Ok ((k, b) :: bs)
    end.
  Fixpoint go_seq (l : list (tree A)) (ls : list (list (tree A))) : result (list (tree B)) :=
    match l with
    | [] => Ok []
    | t :: l' =>
        match heads_tails ls with
        | None => Ok []
        | Some (hs, tl) =>
            do b <- map_first func rebuild t hs;
            do bs <- go_seq l' tl; Ok (b :: bs)
        end
    end.
  Lemma map_first_Dict kvs rest :
    map_first func rebuild (Dict kvs) rest = (do data <- go_dict rest kvs; Ok (Dict data)).
  Proof. reflexivity. Qed.
  Lemma map_first_Seq ts rest :
    map_first func rebuild (Seq ts) rest =
    (do lists <- mapM seq_items rest; do data <- go_seq ts lists; Ok (Seq data)).
  Proof. reflexivity. Qed.
End Loops.

Lemma plain_Dict {A} (kvs : list (string * tree A)) :
  plain (Dict kvs) <-> NoDup (map fst kvs) /\ Forall (fun kv => plain (snd kv)) kvs.
Proof.
  simpl. assert (forall l, (fix go (l : list (string * tree A)) := match l with [] => True | (_, t) :: l' => plain t /\ go l' end) l <-> Forall (fun kv => plain (snd kv)) l) as K.
  { induction l as [|[k t] l IH]; [split; constructor|].
    split; [intros [H1 H2]; constructor; [exact H1|now apply IH]|].
    inversion 1; subst. split; [assumption|now apply IH]. }
  rewrite K. reflexivity.
Qed.
Lemma plain_Seq {A} (ts : list (tree A)) : plain (Seq ts) <-> Forall plain ts.
Proof.
  simpl. induction ts as [|t l IH]; [split; constructor|].
  split; [intros [H1 H2]; constructor; [exact H1|now apply IH]|].
  inversion 1; subst. split; [assumption|now apply IH].
Qed.

(** Leafwise relation between the inputs and the result. *)
Definition leafwise {A B} (func : list (tree A) -> result B) (t : tree A) (rest : list (tree A)) (r : tree B) : Prop :=
  (forall p a, at_path t p = Some (Leaf a) ->
     exists others b, Forall2 (fun s o => at_path s p = Some o) rest others
       /\ func (Leaf a :: others) = Ok b /\ at_path r p = Some (Leaf b)) /\
  (forall p b, at_path r p = Some (Leaf b) -> exists a, at_path t p = Some (Leaf a)).

Lemma child_at {A} (s : tree A) k s' p : child s k = Ok s' -> at_path s (Key k :: p) = at_path s' p.
Proof.
  destruct s; simpl; unfold dgetE; try discriminate.
  - destruct (dget kvs k); [intros [= ->]; reflexivity|discriminate].
  - destruct (dget kvs k); simpl; [intros [= <-]; reflexivity|discriminate].
Qed.

Lemma Forall2_impl_in {A B} (P Q : A -> B -> Prop) la lb :
  (forall a b, In a la -> In b lb -> P a b -> Q a b) -> Forall2 P la lb -> Forall2 Q la lb.
Proof.
  intros H H2. induction H2; constructor; auto.
  - apply H; auto; now left.
  - apply IHForall2. intros a b Ha Hb. apply H; now right.
Qed.

Lemma Forall2_compose {A B C} (P : A -> B -> Prop) (Q : B -> C -> Prop) (S : A -> C -> Prop) la lb lc :
  (forall a b c, P a b -> Q b c -> S a c) -> Forall2 P la lb -> Forall2 Q lb lc -> Forall2 S la lc.
Proof.
  intros H H1. revert lc. induction H1; intros lc H2; inversion H2; subst; constructor; eauto.
Qed.

Lemma heads_tails_spec {A} (ls : list (list A)) hs tl :
  heads_tails ls = Some (hs, tl) -> ls = map (fun p => fst p :: snd p) (combine hs tl) /\ length hs = length ls /\ length tl = length ls.
Proof.
  revert hs tl. induction ls as [|[|x xs] ls IH]; simpl; intros hs tl; [now intros [= <- <-]|discriminate|].
  destruct (heads_tails ls) as [[h t]|]; [|discriminate]. intros [= <- <-].
  destruct (IH h t eq_refl) as (-> & H1 & H2). simpl. rewrite map_length in *. repeat split; auto; lia.
Qed.

Section MapFacts.
  Context {A B : Type} (func : list (tree A) -> result B) (rebuild : list (string * B) -> tree B).

  Lemma go_dict_keys rest l r : go_dict func rebuild rest l = Ok r -> map fst r = map fst l.
  Proof.
    revert r. induction l as [|[k t] l IH]; simpl; intros r; [now intros [= <-]|].
    destruct (mapM _ rest); simpl; [|discriminate].
    destruct (map_first func rebuild t a); simpl; [|discriminate].
    destruct (go_dict func rebuild rest l); simpl; [|discriminate].
    intros [= <-]. simpl. f_equal. now apply IH.
  Qed.

  Lemma go_dict_dget rest l r k :
    go_dict func rebuild rest l = Ok r ->
    match dget l k with
    | None => dget r k = None
    | Some t => exists others b, mapM (fun s => child s k) rest = Ok others /\ map_first func rebuild t others = Ok b /\ dget r k = Some b
    end.
  Proof.
    revert r. induction l as [|[k' t] l IH]; simpl; intros r; [now intros [= <-]|].
    destruct (mapM (fun s => child s k') rest) as [others|] eqn:E1; simpl; [|discriminate].
    destruct (map_first func rebuild t others) as [b|] eqn:E2; simpl; [|discriminate].
    destruct (go_dict func rebuild rest l) as [bs|] eqn:E3; simpl; [|discriminate].
    intros [= <-]. simpl. destruct (eq_dec k k') as [->|].
    - exists others, b. auto.
    - now apply IH.
  Qed.

  Lemma nth_error_ht (ls : list (list (tree A))) hs tl n :
    heads_tails ls = Some (hs, tl) ->
    Forall2 (fun l h => nth_error l 0 = Some h) ls hs /\
    Forall2 (fun l l' => nth_error l (S n) = nth_error l' n) ls tl.
  Proof.
    revert hs tl. induction ls as [|[|x xs] ls IH]; simpl; intros hs tl; [intros [= <- <-]; split; constructor|discriminate|].
    destruct (heads_tails ls) as [[h t]|]; [|discriminate]. intros [= <- <-].
    destruct (IH h t eq_refl). split; constructor; auto.
  Qed.

  (** go_seq stops at the shortest list. *)
  Lemma go_seq_nth l : forall ls r n,
    go_seq func rebuild l ls = Ok r ->
    match nth_error r n with
    | Some b => exists t hs, nth_error l n = Some t /\ Forall2 (fun x h => nth_error x n = Some h) ls hs /\ map_first func rebuild t hs = Ok b
    | None => nth_error l n = None \/ exists x, In x ls /\ nth_error x n = None
    end.
  Proof.
    induction l as [|t l IH]; simpl; intros ls r n.
    - intros [= <-]. destruct n; simpl; auto.
    - destruct (heads_tails ls) as [[hs tl]|] eqn:E.
      + destruct (map_first func rebuild t hs) as [b|] eqn:E2; simpl; [|discriminate].
        destruct (go_seq func rebuild l tl) as [bs|] eqn:E3; simpl; [|discriminate].
        intros [= <-]. destruct n as [|n]; simpl.
        * exists t, hs. split; auto. split; auto. eapply (nth_error_ht _ _ _ 0 E).
        * specialize (IH _ _ n E3). destruct (nth_error bs n) as [b'|].
          -- destruct IH as (t' & hs' & H1 & H2 & H3). exists t', hs'. split; auto. split; auto.
             destruct (nth_error_ht _ _ _ n E) as [_ H4].
             eapply Forall2_compose; [|exact H4|exact H2]. simpl. intros. congruence.
          -- destruct IH as [IH|[x [Hx Hn]]]; [auto|]. right.
             destruct (nth_error_ht _ _ _ n E) as [_ H4].
             clear - H4 Hx Hn. induction H4 as [|u v us vs Huv H4 IH4]; simpl in Hx; [tauto|].
             destruct Hx as [->|Hx]; [exists u; split; [now left|simpl in *; congruence]|].
             destruct (IH4 Hx) as [z [Hz1 Hz2]]. exists z. split; [now right|auto].
      + intros [= <-]. assert (nth_error (@nil (tree B)) n = None) as -> by now destruct n.
        right. clear - E. revert n. induction ls as [|[|x xs] ls IH]; simpl in *; intros n; [discriminate| |].
        * exists []. split; [now left|]. now destruct n.
        * destruct (heads_tails ls) as [[? ?]|]; [discriminate|].
          destruct (IH eq_refl n) as [z [Hz1 Hz2]]. exists z. split; [now right|auto].
  Qed.

  Lemma covers_child (s : tree A) kvs k t s' :
    covers s (Dict kvs) -> dget kvs k = Some t -> child s k = Ok s' -> covers s' t.
  Proof.
    intros Hc Hk Hch p u Hu. assert (at_path (Dict kvs) (Key k :: p) = Some u) as Hu' by (simpl; now rewrite Hk).
    specialize (Hc _ _ Hu'). rewrite !(child_at _ _ _ _ Hch) in Hc. exact Hc.
  Qed.

  Theorem map_leafwise t : forall rest r,
    plain t -> (forall s, In s rest -> covers s t) ->
    map_first func rebuild t rest = Ok r -> leafwise func t rest r.
  Proof.
    induction t as [a|kvs IH|ts IH|kvs] using tree_ind'; intros rest r Hp Hc Hm.
    - simpl in Hm. destruct (func (Leaf a :: rest)) as [b|] eqn:E; simpl in Hm; [|discriminate].
      injection Hm as <-. split.
      + intros [|s p] a' Ha; simpl in Ha.
        * injection Ha as <-. exists rest, b. split; [|auto].
          clear. induction rest; constructor; auto.
        * destruct s; discriminate.
      + intros [|s p] b' Hb; [eexists; reflexivity|]. destruct s; discriminate.
    - rewrite map_first_Dict in Hm. destruct (go_dict func rebuild rest kvs) as [data|] eqn:E; simpl in Hm; [|discriminate].
      injection Hm as <-. apply plain_Dict in Hp. destruct Hp as [_ Hp]. rewrite Forall_forall in IH, Hp.
      assert (forall k, match dget kvs k with
         | None => dget data k = None
         | Some t => exists others b, mapM (fun s => child s k) rest = Ok others /\ leafwise func t others b /\ dget data k = Some b end) as K.
      { intros k. pose proof (go_dict_dget _ _ _ k E) as G. destruct (dget kvs k) as [t|] eqn:Ek; [|exact G].
        destruct G as (others & b & G1 & G2 & G3). exists others, b. split; auto. split; auto.
        pose proof (dget_In _ _ Ek) as Hin. apply (IH (k, t) Hin); simpl; [apply (Hp (k, t) Hin)| |auto].
        intros s' Hs'. apply mapM_Ok_Forall2 in G1.
        assert (exists s, In s rest /\ child s k = Ok s') as [s [Hs1 Hs2]].
        { clear - G1 Hs'. induction G1; simpl in *; [tauto|]. destruct Hs' as [->|Hs']; [eauto|]. destruct (IHG1 Hs') as [z [? ?]]; eauto. }
        eapply covers_child; eauto. }
      split.
      + intros [|[k|n] p] a Ha; simpl in Ha; [discriminate| |discriminate].
        specialize (K k). destruct (dget kvs k) as [t|]; [|discriminate].
        destruct K as (others & b & G1 & G2 & G3). destruct G2 as [G2 _]. destruct (G2 p a Ha) as (oo & bb & H1 & H2 & H3).
        exists oo, bb. split; [|split; auto].
        * apply mapM_Ok_Forall2 in G1. eapply Forall2_compose; [|exact G1|exact H1].
          intros s o c Hs Hc'. rewrite (child_at _ _ _ _ Hs). exact Hc'.
        * simpl. now rewrite G3.
      + intros [|[k|n] p] b Hb; simpl in Hb; [discriminate| |discriminate].
        specialize (K k). simpl. destruct (dget kvs k) as [t|]; [|rewrite K in Hb; discriminate].
        destruct K as (others & b' & G1 & G2 & G3). rewrite G3 in Hb. apply G2 in Hb. exact Hb.
    - rewrite map_first_Seq in Hm. destruct (mapM seq_items rest) as [lists|] eqn:E0; simpl in Hm; [|discriminate].
      destruct (go_seq func rebuild ts lists) as [data|] eqn:E; simpl in Hm; [|discriminate].
      injection Hm as <-. apply plain_Seq in Hp. rewrite Forall_forall in IH, Hp.
      apply mapM_Ok_Forall2 in E0.
      assert (Forall2 (fun s x => s = Seq x) rest lists) as E1.
      { eapply Forall2_impl_in; [|exact E0]. intros s x _ _. destruct s; simpl; congruence. }
      clear E0.
      assert (forall n t, nth_error ts n = Some t -> exists hs b, Forall2 (fun x h => nth_error x n = Some h) lists hs /\ nth_error data n = Some b /\ leafwise func t hs b) as K.
      { intros n t Hn. pose proof (go_seq_nth _ _ _ n E) as G. destruct (nth_error data n) as [b|].
        - destruct G as (t' & hs & G1 & G2 & G3). assert (t' = t) by congruence. subst t'.
          exists hs, b. split; auto. split; auto. apply IH; auto; [eapply nth_error_In; eauto|apply Hp; eapply nth_error_In; eauto|].
          intros s' Hs' p u Hu.
          assert (exists x, In (Seq x) rest /\ nth_error x n = Some s') as [x [Hx1 Hx2]].
          { clear - E1 G2 Hs'. revert hs G2 Hs'. induction E1; intros hs G2 Hs'; inversion G2; subst; simpl in *; [tauto|].
            destruct Hs' as [->|Hs']; [eexists; split; [now left|assumption]|].
            destruct (IHE1 _ H4 Hs') as [z [? ?]]. exists z. split; [now right|auto]. }
          specialize (Hc _ Hx1 (Idx n :: p) u). simpl in Hc. rewrite Hn, Hx2 in Hc. now apply Hc.
        - exfalso. destruct G as [G|[x [Hx Hn2]]]; [congruence|].
          assert (In (Seq x) rest) as Hx1.
          { clear - E1 Hx. induction E1; simpl in *; [tauto|]. destruct Hx as [->|Hx]; [left; auto|right; auto]. }
          specialize (Hc _ Hx1 [Idx n] t). simpl in Hc. rewrite Hn, Hn2 in Hc.
          destruct t; destruct (Hc eq_refl); discriminate. }
      assert (forall n, nth_error ts n = None -> nth_error data n = None) as K2.
      { intros n Hn. pose proof (go_seq_nth _ _ _ n E) as G. destruct (nth_error data n); [|reflexivity].
        destruct G as (t' & hs & G1 & _). congruence. }
      split.
      + intros [|[k|n] p] a Ha; simpl in Ha; [discriminate|discriminate|].
        destruct (nth_error ts n) as [t|] eqn:En; [|discriminate].
        destruct (K n t En) as (hs & b & G1 & G2 & G3). destruct G3 as [G3 _]. destruct (G3 p a Ha) as (oo & bb & H1 & H2 & H3).
        exists oo, bb. split; [|split; auto].
        * eapply Forall2_compose with (lb := lists); [|exact E1|].
          2:{ eapply Forall2_compose; [|exact G1|exact H1]. intros x h c Hx Hh. instantiate (1 := fun x c => match nth_error x n with Some h => at_path h p = Some c | None => False end). simpl. now rewrite Hx. }
          simpl. intros s x c -> Hx. simpl. destruct (nth_error x n); [exact Hx|tauto].
        * simpl. now rewrite G2.
      + intros [|[k|n] p] b Hb; simpl in Hb; [discriminate|discriminate|].
        simpl. destruct (nth_error ts n) as [t|] eqn:En.
        * destruct (K n t En) as (hs & b' & G1 & G2 & G3). rewrite G2 in Hb. now apply G3 in Hb.
        * rewrite (K2 n En) in Hb. discriminate.
    - destruct Hp.
  Qed.

  Theorem map_shape t : forall rest r,
    plain t -> (forall s, In s rest -> covers s t) ->
    map_first func rebuild t rest = Ok r -> same_shape t r.
  Proof.
    induction t as [a|kvs IH|ts IH|kvs] using tree_ind'; intros rest r Hp Hc Hm.
    - simpl in Hm. destruct (func (Leaf a :: rest)); simpl in Hm; [|discriminate]. injection Hm as <-. constructor.
    - rewrite map_first_Dict in Hm. destruct (go_dict func rebuild rest kvs) as [data|] eqn:E; simpl in Hm; [|discriminate].
      injection Hm as <-. constructor. apply plain_Dict in Hp. destruct Hp as [Hnd Hp].
      assert (forall l data, (forall kv, In kv l -> In kv kvs) ->
        go_dict func rebuild rest l = Ok data -> same_items l data) as Q.
      { rewrite Forall_forall in IH, Hp. clear E.
        induction l as [|[k t] l IHl]; intros dat Hsub HG; simpl in HG.
        - injection HG as <-. constructor.
        - destruct (mapM (fun s => child s k) rest) as [others|] eqn:E1; simpl in HG; [|discriminate].
          destruct (map_first func rebuild t others) as [b|] eqn:E2; simpl in HG; [|discriminate].
          fold (go_dict func rebuild rest) in HG.
          destruct (go_dict func rebuild rest l) as [bs|] eqn:E3; simpl in HG; [|discriminate].
          injection HG as <-. constructor.
          + assert (In (k, t) kvs) as Hin by (apply Hsub; now left).
            refine (IH (k, t) Hin others b (Hp (k, t) Hin) _ E2).
            intros s' Hs'. apply mapM_Ok_Forall2 in E1.
            assert (exists s, In s rest /\ child s k = Ok s') as [s [Hs1 Hs2]].
            { clear - E1 Hs'. induction E1; simpl in *; [tauto|]. destruct Hs' as [->|Hs']; [eauto|]. destruct (IHE1 Hs') as [z [? ?]]; eauto. }
            eapply covers_child; eauto. apply In_dget; auto.
          + apply IHl; auto. intros kv Hkv. apply Hsub. now right. }
      apply Q; auto.
    - rewrite map_first_Seq in Hm. destruct (mapM seq_items rest) as [lists|] eqn:E0; simpl in Hm; [|discriminate].
      destruct (go_seq func rebuild ts lists) as [data|] eqn:E; simpl in Hm; [|discriminate].
      injection Hm as <-. constructor. apply plain_Seq in Hp. rewrite Forall_forall in IH, Hp.
      apply mapM_Ok_Forall2 in E0.
      assert (Forall2 (fun s x => s = Seq x) rest lists) as E1.
      { eapply Forall2_impl_in; [|exact E0]. intros s x _ _. destruct s; simpl; congruence. }
      clear E0.
      assert (forall s x, In (s, x) (combine rest lists) -> True) as _ by auto.
      assert (forall x, In x lists -> covers (Seq x) (Seq ts)) as Hcl.
      { intros x Hx. assert (In (Seq x) rest) as Hx1.
        { clear - E1 Hx. induction E1; simpl in *; [tauto|]. destruct Hx as [->|Hx]; [left; auto|right; auto]. }
        now apply Hc. }
      clear E1 Hc. revert lists data E Hcl. induction ts as [|t ts IHts]; intros lists data E Hcl; simpl in E.
      + injection E as <-. constructor.
      + assert (exists hs tl, heads_tails lists = Some (hs, tl)) as (hs & tl & Eh).
        { clear - Hcl. induction lists as [|[|x xs] lists IHl]; simpl.
          - eauto.
          - exfalso.
            destruct t; destruct (Hcl [] (or_introl eq_refl) [Idx 0] _ eq_refl); discriminate.
          - destruct IHl as (h & tl & ->); [intros; apply Hcl; now right|]. eauto. }
        rewrite Eh in E.
        destruct (map_first func rebuild t hs) as [b|] eqn:E2; simpl in E; [|discriminate].
        destruct (go_seq func rebuild ts tl) as [bs|] eqn:E3; simpl in E; [|discriminate].
        injection E as <-. destruct (heads_tails_spec _ _ _ Eh) as (Hl & Hl1 & Hl2).
        constructor.
        * apply (IH t (or_introl eq_refl) hs); auto; [apply Hp; now left|].
          intros s Hs p u Hu.
          assert (exists xs, In (s :: xs) lists) as [xs Hxs].
          { rewrite Hl. destruct (In_nth_error _ _ Hs) as [n Hn].
            destruct (nth_error tl n) as [xs|] eqn:Et.
            - exists xs. apply in_map_iff. exists (s, xs). split; auto.
              clear - Hn Et. revert tl n Hn Et. induction hs as [|h hs IH]; intros [|x tl] [|n]; simpl; try discriminate.
              + intros [= ->] [= ->]. now left.
              + intros H1 H2. right. eauto.
            - apply nth_error_None in Et. assert (n < length hs)%nat by (apply nth_error_Some; congruence). lia. }
          specialize (Hcl _ Hxs (Idx 0 :: p) u). simpl in Hcl. now apply Hcl.
        * apply (IHts (fun x Hx => IH x (or_intror Hx)) (fun x Hx => Hp x (or_intror Hx)) tl bs E3).
          intros xs Hxs p u Hu.
          assert (exists s, In (s :: xs) lists) as [s Hs].
          { rewrite Hl. destruct (In_nth_error _ _ Hxs) as [n Hn].
            destruct (nth_error hs n) as [s|] eqn:Et.
            - exists s. apply in_map_iff. exists (s, xs). split; auto.
              clear - Hn Et. revert tl n Hn Et. induction hs as [|h hs IH]; intros [|x tl] [|n]; simpl; try discriminate.
              + intros [= ->] [= ->]. now left.
              + intros H1 H2. right. eauto.
            - apply nth_error_None in Et. assert (n < length tl)%nat by (apply nth_error_Some; congruence). lia. }
          destruct p as [|[k|n] p]; simpl in Hu.
          -- injection Hu as <-. eexists. reflexivity.
          -- discriminate.
          -- specialize (Hcl _ Hs (Idx (S n) :: p) u). simpl in Hcl. now apply Hcl.
    - destruct Hp.
  Qed.

  (** A key of the first dict that is missing elsewhere is a KeyError. *)
  Theorem map_missing_key kvs rest k :
    In k (map fst kvs) -> (exists kvs', In (Dict kvs') rest /\ ~ In k (map fst kvs')) ->
    forall r, map_first func rebuild (Dict kvs) rest <> Ok r.
  Proof.
    intros Hk (kvs' & Hin & Hn) r Hm. rewrite map_first_Dict in Hm.
    destruct (go_dict func rebuild rest kvs) as [data|] eqn:E; simpl in Hm; [|discriminate].
    pose proof (go_dict_dget _ _ _ k E) as G. destruct (keys_dget kvs k Hk) as [t Ht]. rewrite Ht in G.
    destruct G as (others & b & G1 & _). apply mapM_Ok_Forall2 in G1.
    assert (exists o, child (Dict kvs') k = Ok o) as [o Ho].
    { clear - G1 Hin. induction G1; simpl in *; [tauto|]. destruct Hin as [->|Hin]; eauto. }
    simpl in Ho. unfold dgetE in Ho. destruct (dget kvs' k) eqn:Ed; [|discriminate].
    apply Hn. now apply dget_Some_keys in Ed.
  Qed.
End MapFacts.

(** A dict of leaves mapped against dicts lacking a key, with a total function: KeyError. *)
Theorem map_flat_missing_KeyError {A B} (g : list (tree A) -> B) rebuild kvs rests k :
  Forall (fun kv => exists a, snd kv = Leaf a) kvs ->
  In k (map fst kvs) -> (exists kvs', In kvs' rests /\ ~ In k (map fst kvs')) ->
  map_first (fun ss => Ok (g ss)) rebuild (Dict kvs) (map Dict rests) = Err KeyError.
Proof.
  intros Hl Hk (kvs' & Hin & Hn). rewrite map_first_Dict.
  assert (go_dict (fun ss => Ok (g ss)) rebuild (map Dict rests) kvs = Err KeyError) as ->; [|reflexivity].
  assert (forall k, (exists o, mapM (fun s => child s k) (map Dict rests) = Ok o) \/ mapM (fun s => child s k) (map Dict rests) = Err KeyError) as Q.
  { intros k'. clear. induction rests as [|r rs IH]; simpl; [eauto|]. unfold dgetE.
    destruct (dget r k'); simpl; [|auto]. destruct IH as [[o ->]| ->]; simpl; eauto. }
  induction kvs as [|[k0 t] kvs IH]; simpl in Hk; [tauto|].
  inversion Hl as [|? ? [a Ha] Hl']; subst. simpl in Ha. subst t. simpl.
  destruct (Q k0) as [[o Ho]|Ho]; rewrite Ho; simpl; [|reflexivity].
  fold (go_dict (fun ss => Ok (g ss)) rebuild (map Dict rests)).
  destruct (in_dec string_dec k (map fst kvs)) as [Hk'|Hk'].
  - now rewrite IH.
  - destruct Hk as [->|Hk]; [|tauto]. exfalso. apply mapM_Ok_Forall2 in Ho.
    assert (exists z, child (Dict kvs') k = Ok z) as [z Hz].
    { clear - Ho Hin. remember (map Dict rests) as R. revert rests HeqR Hin. induction Ho; intros [|r rs] HeqR Hin; simpl in *; try discriminate; [tauto|].
      injection HeqR as -> ->. destruct Hin as [->|Hin]; eauto. }
    simpl in Hz. unfold dgetE in Hz. destruct (dget kvs' k) eqn:Ed; [|discriminate]. apply Hn. now apply dget_Some_keys in Ed.
Qed.

(** Identity and composition for a single structure. *)
Definition lift1 {A B} (f : A -> result B) (ss : list (tree A)) : result B :=
  match ss with [Leaf a] => f a | _ => Err TypeError end.

Theorem map_id {A} rebuild (t : tree A) : plain t -> map_structure (lift1 Ok) rebuild [t] = Ok t.
Proof.
  simpl. induction t as [a|kvs IH|ts IH|kvs] using tree_ind'; intros Hp; [reflexivity| | |destruct Hp].
  - rewrite map_first_Dict. apply plain_Dict in Hp. destruct Hp as [_ Hp].
    assert (go_dict (lift1 Ok) rebuild [] kvs = Ok kvs) as ->; [|reflexivity].
    induction kvs as [|[k t] kvs IHk]; [reflexivity|]. inversion IH; subst. inversion Hp; subst. simpl in *.
    rewrite H1 by auto. simpl. fold (go_dict (lift1 Ok) rebuild []). now rewrite IHk.
  - rewrite map_first_Seq. apply plain_Seq in Hp. simpl.
    assert (go_seq (lift1 Ok) rebuild ts [] = Ok ts) as ->; [|reflexivity].
    induction ts as [|t ts IHk]; [reflexivity|]. inversion IH; subst. inversion Hp; subst. simpl in *.
    rewrite H1 by auto. simpl. now rewrite IHk.
Qed.

Theorem map_compose {A B C} (f : A -> result B) (g : B -> result C) rb1 rb2 rb3 (t : tree A) t1 t2 :
  plain t ->
  map_structure (lift1 f) rb1 [t] = Ok t1 -> map_structure (lift1 g) rb2 [t1] = Ok t2 ->
  map_structure (lift1 (fun a => bind (f a) g)) rb3 [t] = Ok t2.
Proof.
  simpl. revert t1 t2. induction t as [a|kvs IH|ts IH|kvs] using tree_ind'; intros t1 t2 Hp; [| | |destruct Hp].
  - simpl. destruct (f a); simpl; [|discriminate]. intros [= <-]. simpl. auto.
  - rewrite !map_first_Dict. apply plain_Dict in Hp. destruct Hp as [_ Hp].
    destruct (go_dict (lift1 f) rb1 [] kvs) as [d1|] eqn:E1; simpl; [|discriminate]. intros [= <-].
    rewrite map_first_Dict. destruct (go_dict (lift1 g) rb2 [] d1) as [d2|] eqn:E2; simpl; [|discriminate]. intros [= <-].
    assert (go_dict (lift1 (fun a => bind (f a) g)) rb3 [] kvs = Ok d2) as ->; [|reflexivity].
    revert d1 d2 E1 E2. induction kvs as [|[k t] kvs IHk]; intros d1 d2 E1 E2; simpl in E1.
    + injection E1 as <-. simpl in E2. injection E2 as <-. reflexivity.
    + inversion IH; subst. inversion Hp; subst. simpl in *.
      destruct (map_first (lift1 f) rb1 t []) as [b|] eqn:F1; simpl in E1; [|discriminate].
      fold (go_dict (lift1 f) rb1 []) in E1.
      destruct (go_dict (lift1 f) rb1 [] kvs) as [bs|] eqn:F2; simpl in E1; [|discriminate]. injection E1 as <-.
      simpl in E2. destruct (map_first (lift1 g) rb2 b []) as [c|] eqn:F3; simpl in E2; [|discriminate].
      fold (go_dict (lift1 g) rb2 []) in E2.
      destruct (go_dict (lift1 g) rb2 [] bs) as [cs|] eqn:F4; simpl in E2; [|discriminate]. injection E2 as <-.
      fold (go_dict (lift1 (fun a => bind (f a) g)) rb3 []).
      rewrite (H1 _ _ H3 eq_refl F3). simpl. now rewrite (IHk H2 H4 _ _ eq_refl F4).
  - rewrite !map_first_Seq. apply plain_Seq in Hp. simpl.
    destruct (go_seq (lift1 f) rb1 ts []) as [d1|] eqn:E1; simpl; [|discriminate]. intros [= <-].
    rewrite map_first_Seq. simpl. destruct (go_seq (lift1 g) rb2 d1 []) as [d2|] eqn:E2; simpl; [|discriminate]. intros [= <-].
    assert (go_seq (lift1 (fun a => bind (f a) g)) rb3 ts [] = Ok d2) as ->; [|reflexivity].
    revert d1 d2 E1 E2. induction ts as [|t ts IHk]; intros d1 d2 E1 E2; simpl in E1.
    + injection E1 as <-. simpl in E2. injection E2 as <-. reflexivity.
    + inversion IH; subst. inversion Hp; subst. simpl in *.
      destruct (map_first (lift1 f) rb1 t []) as [b|] eqn:F1; simpl in E1; [|discriminate].
      destruct (go_seq (lift1 f) rb1 ts []) as [bs|] eqn:F2; simpl in E1; [|discriminate]. injection E1 as <-.
      simpl in E2. destruct (map_first (lift1 g) rb2 b []) as [c|] eqn:F3; simpl in E2; [|discriminate].
      destruct (go_seq (lift1 g) rb2 bs []) as [cs|] eqn:F4; simpl in E2; [|discriminate]. injection E2 as <-.
      rewrite (H1 _ _ H3 eq_refl F3). simpl. now rewrite (IHk H2 H4 _ _ eq_refl F4).
Qed.
