(** from_dataset looks at the arrays of its variables only to return them (C69). *)
From Coq Require Import String Ascii List Bool Arith Lia.
Import ListNotations.
From Verif Require Import Prelude Values Model_XArray Spec_XArray Model_Tree Spec_Tree Model_Aggregation Spec_Aggregation Spec_Aggregator Proofs_Aggregator2.
Local Open Scope string_scope.
Local Open Scope list_scope.

Section Cong.
  Variable Q : da -> da -> Prop.

  Lemma items_dget {A B} (R : A -> B -> Prop) (l : list (string * A)) l' k a : items_rel R l l' -> dget l k = Some a -> exists b, dget l' k = Some b /\ R a b.
  Proof. intros H G. pose proof (items_rel_dget R l l' k H) as K. rewrite G in K. destruct (dget l' k) as [b|]; [eauto|destruct K]. Qed.
  Lemma items_none {A B} (R : A -> B -> Prop) (l : list (string * A)) l' k : items_rel R l l' -> dget l k = None -> dget l' k = None.
  Proof. intros H G. pose proof (items_rel_dget R l l' k H) as K. rewrite G in K. destruct (dget l' k) as [b|]; [destruct K|reflexivity]. Qed.
  Lemma items_dset {A B} (R : A -> B -> Prop) (l : list (string * A)) l' k a b : items_rel R l l' -> R a b -> items_rel R (dset l k a) (dset l' k b).
  Proof.
    intros H AB. induction H as [|[k1 x] [k2 y] l l' [E K] HF IH]; cbn [dset].
    - constructor; [auto|constructor].
    - cbn [fst snd] in *. subst k2. destruct (eq_dec k k1); constructor; auto.
  Qed.
  Lemma items_app {A B} (R : A -> B -> Prop) (l : list (string * A)) l' k a b : items_rel R l l' -> R a b -> items_rel R (l ++ [(k, a)]) (l' ++ [(k, b)]).
  Proof. intros H AB. apply Forall2_app; auto. Qed.

  Definition group_step (sep : ascii) (r : result (dict string (list (string * da)))) (kv : string * da) :=
    do g <- r;
    match rsplit1 sep (fst kv) with
    | None => Err ValueError
    | Some (path, var) =>
        let p := String slash (replace_char sep slash path) in
        let old := match dget g p with Some d => d | None => [] end in
        Ok (dset g p (dset old var (snd kv)))
    end.
  Lemma group_err sep ds e : fold_left (group_step sep) ds (Err e) = Err e.
  Proof. induction ds as [|kv ds IH]; cbn; auto. Qed.
  Lemma group_cong sep ds ds' : items_rel Q ds ds' -> forall g g' r, items_rel (items_rel Q) g g' ->
    fold_left (group_step sep) ds (Ok g) = Ok r -> exists r', fold_left (group_step sep) ds' (Ok g') = Ok r' /\ items_rel (items_rel Q) r r'.
  Proof.
    induction 1 as [|[k x] [k' y] ds ds' [E K] HF IH]; intros g g' r HG HR; cbn [fold_left] in *.
    - injection HR as <-. eauto.
    - cbn [fst snd] in *. subst k'. unfold group_step in HR at 2. unfold group_step at 2. cbn [bind fst snd] in *.
      destruct (rsplit1 sep k) as [[path var]|]; [|rewrite group_err in HR; discriminate].
      cbv zeta in *. eapply IH; [|exact HR]. apply items_dset; auto. apply items_dset; auto.
      pose proof (items_rel_dget _ _ _ (String slash (replace_char sep slash path)) HG) as D.
      destruct (dget g _), (dget g' _); try (destruct D; fail); auto. constructor.
  Qed.

  Fixpoint frel (t u : ftree) {struct t} : Prop :=
    match t, u with
    | FT d cs, FT d' cs' => items_rel Q d d' /\
        (fix go (l : list (string * ftree)) (l' : list (string * ftree)) : Prop :=
           match l, l' with
           | [], [] => True
           | (k, x) :: l, (k', y) :: l' => (k = k' /\ frel x y) /\ go l l'
           | _, _ => False
           end) cs cs'
    end.
  Lemma frel_FT d cs d' cs' : frel (FT d cs) (FT d' cs') <-> items_rel Q d d' /\ items_rel frel cs cs'.
  Proof.
    cbn [frel]. match goal with |- _ /\ ?F cs cs' <-> _ => set (go := F) end.
    assert (go cs cs' <-> items_rel frel cs cs') as ->; [|reflexivity].
    revert cs'. induction cs as [|[k x] cs IH]; intros [|[k' y] cs']; cbn.
    - split; [constructor|auto].
    - split; [intros []|intros H; inversion H].
    - split; [intros []|intros H; inversion H].
    - split.
      + intros [[-> K] G]. constructor; [auto|]. now apply IH.
      + intros H. inversion H as [|? ? ? ? [E K] HF]; subst. cbn in *. split; auto. now apply IH.
  Qed.

  Lemma insert_cong parts : forall data data' t t', items_rel Q data data' -> frel t t' -> frel (insert_at parts data t) (insert_at parts data' t').
  Proof.
    induction parts as [|p ps IH]; intros data data' [d cs] [d' cs'] HD HT; apply frel_FT in HT; destruct HT as [H1 H2]; cbn [insert_at].
    - apply frel_FT. auto.
    - destruct (dget cs p) as [t|] eqn:G.
      + destruct (items_dget _ _ _ _ _ H2 G) as (t' & -> & K). apply frel_FT. split; auto. apply items_dset; auto.
      + rewrite (items_none _ _ _ _ H2 G). apply frel_FT. split; auto. apply items_app; auto. apply IH; auto. apply frel_FT. split; constructor.
  Qed.
  Definition dict_step (r : result ftree) (pd : string * list (string * da)) :=
    do t <- r; if existsb (String.eqb "..") (path_parts (fst pd)) then Err KeyError else Ok (insert_at (path_parts (fst pd)) (snd pd) t).
  Lemma dict_err ds e : fold_left dict_step ds (Err e) = Err e.
  Proof. induction ds as [|kv ds IH]; cbn; auto. Qed.
  Lemma dict_cong g g' : items_rel (items_rel Q) g g' -> forall t t' r, frel t t' ->
    fold_left dict_step g (Ok t) = Ok r -> exists r', fold_left dict_step g' (Ok t') = Ok r' /\ frel r r'.
  Proof.
    induction 1 as [|[k x] [k' y] g g' [E K] HF IH]; intros t t' r HT HR; cbn [fold_left] in *.
    - injection HR as <-. eauto.
    - cbn [fst snd] in *. subst k'. unfold dict_step in HR at 2. unfold dict_step at 2. cbn [bind fst snd] in *.
      destruct (existsb _ _); [rewrite dict_err in HR; discriminate|]. eapply IH; [|exact HR]. now apply insert_cong.
  Qed.

  Lemma tree_rel_Dict (l l' : list (string * tree da)) : items_rel (tree_rel Q) l l' -> tree_rel Q (Dict l) (Dict l').
  Proof.
    intros H p. destruct p as [|[k|n] p]; cbn [at_path]; auto. pose proof (items_rel_dget _ _ _ k H) as D.
    destruct (dget l k), (dget l' k); try (destruct D; fail); auto. apply D.
  Qed.
  Fixpoint fsize (t : ftree) : nat := match t with FT _ cs => S (list_sum (map (fun kn => fsize (snd kn)) cs)) end.
  Lemma from_ftree_cong n : forall t t' r, fsize t <= n -> frel t t' -> from_ftree t = Ok r ->
    exists r', from_ftree t' = Ok r' /\ tree_rel Q (fst r) (fst r') /\ tree_rel Q (snd r) (snd r').
  Proof.
    induction n as [|n IH]; intros [d cs] [d' cs'] r Hn HT HR; [cbn in Hn; lia|]. apply frel_FT in HT. destruct HT as [H1 H2].
    destruct H1 as [|[k a] [k' b] d d' [E K] H1].
    - cbn [from_ftree] in *.
      set (go := fix go (l : list (string * ftree)) : result (list (string * (tree da * tree da))) :=
        match l with [] => Ok [] | (k, n) :: l' => do r <- from_ftree n; do rs <- go l'; Ok ((k, r) :: rs) end) in *.
      destruct (go cs) as [rs|] eqn:Eg; [|discriminate]. cbn [bind] in HR. injection HR as <-.
      assert (exists rs', go cs' = Ok rs' /\ items_rel (fun x y => tree_rel Q (fst x) (fst y) /\ tree_rel Q (snd x) (snd y)) rs rs') as (rs' & -> & RR).
      { clear - IH Hn H2 Eg. cbn [fsize] in Hn. revert rs Eg Hn. induction H2 as [|[k x] [k' y] cs cs' [E K] HF IHc]; intros rs Eg Hn.
        - cbn in *. injection Eg as <-. exists []. split; [reflexivity|constructor].
        - cbn [fst snd] in *. subst k'. cbn [go] in Eg |- *. destruct (from_ftree x) as [rx|] eqn:Ex; [|discriminate]. cbn [bind] in Eg.
          cbn [map list_sum fold_right snd] in Hn. change (fold_right Nat.add 0 (map (fun kn : string * ftree => fsize (snd kn)) cs)) with (list_sum (map (fun kn : string * ftree => fsize (snd kn)) cs)) in Hn.
          destruct (IH x y rx ltac:(lia) K Ex) as (ry & -> & T1 & T2). cbn [bind].
          fold go in Eg |- *. destruct (go cs) as [q|]; [|discriminate]. cbn [bind] in Eg. injection Eg as <-.
          destruct (IHc q eq_refl ltac:(lia)) as (q' & -> & RR). cbn [bind]. exists ((k, ry) :: q'). split; [reflexivity|]. constructor; auto. }
      cbn [bind]. eexists. split; [reflexivity|]. cbn [fst snd].
      split; apply tree_rel_Dict; clear - RR; induction RR as [|[k x] [k' y] q q' [E [K1 K2]] HF IHc]; cbn [map fst snd] in *; constructor; auto.
    - cbn [fst snd] in *. subst k'. cbn [from_ftree] in *. unfold dgetE in *.
      assert (items_rel Q ((k, a) :: d) ((k, b) :: d')) as HD by (constructor; auto).
      destruct (dget ((k, a) :: d) "sum_weighted_statistics") as [u|] eqn:G1; [|discriminate]. cbn [bind] in HR.
      destruct (dget ((k, a) :: d) "sum_weights") as [v|] eqn:G2; [|discriminate]. cbn [bind] in HR. injection HR as <-.
      destruct (items_dget _ _ _ _ _ HD G1) as (u' & -> & K1). destruct (items_dget _ _ _ _ _ HD G2) as (v' & -> & K2). cbn [bind].
      eexists. split; [reflexivity|]. cbn [fst snd]. split; intros [|[|] p]; cbn; auto.
  Qed.

  Lemma from_dataset_steps sep ds : from_dataset sep ds =
    do g <- fold_left (group_step sep) ds (Ok []); do t <- fold_left dict_step g (Ok (FT [] [])); do r <- from_ftree t; Ok (Some r).
  Proof. reflexivity. Qed.
  Theorem from_dataset_cong sep ds ds' x y : items_rel Q ds ds' -> from_dataset sep ds = Ok (Some (x, y)) ->
    exists x' y', from_dataset sep ds' = Ok (Some (x', y')) /\ tree_rel Q x x' /\ tree_rel Q y y'.
  Proof.
    intros H E. rewrite from_dataset_steps in *.
    match type of E with bind ?q _ = _ => destruct q as [g|] eqn:Eg; [|discriminate] end. cbn [bind] in E.
    destruct (group_cong sep ds ds' H [] [] g (Forall2_nil _) Eg) as (g' & Eg' & GG).
    match type of Eg' with ?q = _ => match goal with |- context [bind ?q' _] => change q' with q end end. rewrite Eg'. cbn [bind].
    match type of E with bind ?q _ = _ => destruct q as [t|] eqn:Et; [|discriminate] end. cbn [bind] in E.
    destruct (dict_cong g g' GG (FT [] []) (FT [] []) t) as (t' & Et' & TT); [apply frel_FT; split; constructor|exact Et|].
    match type of Et' with ?q = _ => match goal with |- context [bind ?q' _] => change q' with q end end. rewrite Et'. cbn [bind].
    destruct (from_ftree t) as [r|] eqn:Er; [|discriminate]. cbn [bind] in E. injection E as ->.
    destruct (from_ftree_cong (fsize t) t t' (x, y) (le_n _) TT Er) as ([x' y'] & -> & T1 & T2). cbn [bind]. eauto.
  Qed.
End Cong.
