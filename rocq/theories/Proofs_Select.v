(** Lemmas for Rename, Select and StackToNewDimension. *)
From Coq Require Import String ZArith List Bool Reals Lia Permutation.
Import ListNotations.
From Verif Require Import Prelude Values Model_XArray Spec_XArray Proofs_XArray Model_MetricsBase Model_Aggregation Model_Deterministic Model_Loaders Spec_Loaders
  Model_Wrappers Model_Prepare Spec_Prepare Proofs_Loaders Proofs_Prepare Proofs_Prepare2 Spec_Aggregator Proofs_Aggregator Proofs_Reduce Spec_Reduce Proofs_Ensemble2 Proofs_Det2 Proofs_Beam9 Model_Select Spec_Select.
Local Open Scope string_scope.
Local Open Scope list_scope.

(** ** Rename *)
Lemma in_array_names a n : In n (array_names a) <-> In n (dnames a) \/ In n (keys (aux a)).
Proof. unfold array_names. rewrite nodup_In, in_app_iff. reflexivity. Qed.
Lemma rename_array_Ok m a b : rename_array m a = Ok b ->
  (forall n, In n (keys m) -> In n (array_names a)) /\
  (forall n n', In n (array_names a) -> In n' (array_names a) -> new_name m n = new_name m n' -> n = n') /\ b = ren (new_name m) a.
Proof.
  unfold rename_array. destruct (forallb _ _) eqn:F; [|discriminate]. destruct (nodupb _) eqn:N; [|discriminate]. cbn [andb]. intros [= <-].
  rewrite forallb_forall in F. split; [intros n I; apply memb_In, F, I|]. split; [|reflexivity]. apply (NoDup_map_inj (new_name m) (array_names a)). apply nodupb_NoDup, N.
Qed.
Lemma NoDup_nodupb l : NoDup l -> nodupb l = true.
Proof. intros N. induction N as [|x l H N IH]; [reflexivity|]. cbn [nodupb]. rewrite IH, andb_true_r. apply negb_true_iff, memb_false, H. Qed.
Lemma rename_array_intro m a :
  (forall n, In n (keys m) -> In n (array_names a)) ->
  (forall n n', In n (array_names a) -> In n' (array_names a) -> new_name m n = new_name m n' -> n = n') ->
  rename_array m a = Ok (ren (new_name m) a).
Proof.
  intros H J. unfold rename_array. assert (forallb (fun n => memb n (array_names a)) (keys m) = true) as ->. { apply forallb_forall. intros n I. apply memb_In, H, I. }
  assert (nodupb (map (new_name m) (array_names a)) = true) as ->; [|reflexivity]. apply NoDup_nodupb. apply NoDup_map_on; [exact J|]. apply NoDup_nodup.
Qed.

(** ** Select *)
Lemma sel_array_Ok kw a b : NoDup (keys kw) -> tidy a -> sel_array kw a = Ok b -> selected_from (Some kw) id_name a b.
Proof.
  intros N T. unfold sel_array. destruct (sel_kwargs kw [("", a)]) as [out|] eqn:E; [|discriminate]. cbn [bind]. destruct (sel_kwargs_spec _ _ _ N E) as [K S].
  destruct out as [|[k x] [|? ?]]; try discriminate. intros [= <-]. destruct (S "" a eq_refl T) as (b' & G & R). change (k :: nil = ("" : string) :: nil) in K. injection K as ->. cbn [dget] in G. destruct (eq_dec "" ""); [|congruence]. injection G as <-. exact R.
Qed.
Lemma sel_array_err kw a e : sel_array kw a = Err e -> e = KeyError.
Proof.
  unfold sel_array. destruct (sel_kwargs kw [("", a)]) as [out|] eqn:E; cbn [bind].
  - destruct out as [|[k x] [|? ?]]; congruence.
  - intros [= <-]. apply (sel_kwargs_err _ _ _ E).
Qed.
Lemma pos_label_spec ls k l : pos_label ls k = Ok l <-> at_position ls k l.
Proof.
  unfold pos_label, at_position. set (p := if Z.ltb k 0 then (k + Z.of_nat (length ls))%Z else k). destruct (Z.ltb p 0) eqn:E.
  - apply Z.ltb_lt in E. split; [discriminate|]. intros (q & _ & H). lia.
  - apply Z.ltb_ge in E. split.
    + destruct (nth_error ls (Z.to_nat p)) eqn:G; [|discriminate]. intros [= <-]. exists (Z.to_nat p). split; auto. lia.
    + intros (q & G & H). rewrite <- H, Nat2Z.id, G. reflexivity.
Qed.
Lemma pos_label_err ls k e : pos_label ls k = Err e -> e = IndexError.
Proof. unfold pos_label. destruct (Z.ltb _ 0); [congruence|]. destruct (nth_error _ _); congruence. Qed.
Lemma at_position_In ls k l : at_position ls k l -> In l ls.
Proof. intros (p & G & _). apply (nth_error_In _ _ G). Qed.
Lemma slice_labels_spec ls start stop : slice_of ls start stop (slice_labels ls start stop).
Proof.
  unfold slice_of, slice_labels. set (n := Z.of_nat (length ls)). set (a := match start with Some k => slice_bound n k | None => 0%Z end). set (b := match stop with Some k => slice_bound n k | None => n end).
  assert (0 <= a <= n)%Z as Ha by (subst a; unfold slice_bound; destruct start; lia). assert (0 <= b <= n)%Z as Hb by (subst b; unfold slice_bound; destruct stop; lia).
  exists (firstn (Z.to_nat a) ls), (skipn (Z.to_nat (b - a)) (skipn (Z.to_nat a) ls)). split.
  - rewrite firstn_skipn, firstn_skipn. reflexivity.
  - intros p l G. assert (p < length ls)%nat as Lp by (apply nth_error_Some; congruence). rewrite !firstn_length, skipn_length.
    assert (match start with Some k => (if Z.ltb k 0 then k + n else k) <= Z.of_nat p | None => True end <-> a <= Z.of_nat p)%Z as ->.
    { subst a. destruct start as [k|]; [|lia]. unfold slice_bound. destruct (Z.ltb k 0); lia. }
    assert (match stop with Some k => Z.of_nat p < (if Z.ltb k 0 then k + n else k) | None => True end <-> Z.of_nat p < b)%Z as ->.
    { subst b. destruct stop as [k|]; [|lia]. unfold slice_bound. destruct (Z.ltb k 0); lia. }
    subst n. lia.
Qed.
Lemma slice_of_incl ls start stop l : slice_of ls start stop l -> incl l ls.
Proof. intros (before & after & -> & _) x I. apply in_app_iff. right. apply in_app_iff. auto. Qed.
Lemma sel_array_one d l a b : sel_array [(d, IxLabel l)] a = Ok b -> sel1 d (IxLabel l) a b.
Proof.
  unfold sel_array. cbn [sel_kwargs]. destruct (sel_indexer d (IxLabel l) [("", a)]) as [out|] eqn:E; [|discriminate]. cbn [bind]. destruct (sel_indexer_spec _ _ _ _ E) as [K S].
  destruct out as [|[k x] [|? ?]]; try discriminate. intros [= <-]. destruct (S "" a eq_refl) as (b' & G & R). change (k :: nil = ("" : string) :: nil) in K. injection K as ->. cbn [dget] in G. destruct (eq_dec "" ""); [|congruence]. injection G as <-. exact R.
Qed.
Lemma isel_one_spec d p a b : isel_one d p a = Ok b -> exists have ix, dget (dims a) d = Some have /\ labels_at have p ix /\ sel1 d ix a b.
Proof.
  unfold isel_one. destruct (dget (dims a) d) as [have|] eqn:E; [|discriminate]. destruct p as [k|ks|start stop].
  - destruct (pos_label have k) as [l|] eqn:P; [|discriminate]. cbn [bind]. intros H. exists have, (IxLabel l). split; auto. split; [apply pos_label_spec, P|]. apply sel_array_one, H.
  - destruct (mapM (pos_label have) ks) as [ls|] eqn:P; [|discriminate]. cbn [bind]. intros [= <-]. exists have, (IxList ls). split; auto. apply mapM_Ok_Forall2 in P.
    assert (Forall2 (at_position have) ks ls) as F. { clear - P. induction P; constructor; auto. apply pos_label_spec; auto. }
    split; [exact F|]. unfold sel1. rewrite E. split; [|reflexivity]. clear - F. induction F as [|? ? ? ? A F IH]; intros z I; [contradiction|]. destruct I as [<-|I]; [apply (at_position_In _ _ _ A)|apply IH, I].
  - intros [= <-]. exists have, (IxList (slice_labels have start stop)). split; auto. split; [apply slice_labels_spec|]. unfold sel1. rewrite E. split; [|reflexivity]. apply (slice_of_incl _ start stop), slice_labels_spec.
Qed.
Lemma sel1_other d ix a b n : sel1 d ix a b -> n <> d -> dget (dims b) n = dget (dims a) n.
Proof.
  intros S Ne. unfold sel1 in S. destruct (dget (dims a) d) as [have|] eqn:E; [|now subst]. destruct ix as [l|ls|lo hi].
  - destruct S as (_ & -> & _). rewrite dget_keep. assert (negb (eqb n d) = true) as -> by (apply negb_true_iff, eqb_false_iff; auto). reflexivity.
  - destruct S as (_ & ->). rewrite dget_restrict. destruct (eq_dec n d); [contradiction|reflexivity].
  - subst b. rewrite dget_restrict. destruct (eq_dec n d); [contradiction|reflexivity].
Qed.
Definition positions_of (ds : dimlist) (p : dict string position) (q : dict string indexer) : Prop :=
  Forall2 (fun x y => fst y = fst x /\ exists have, dget ds (fst x) = Some have /\ labels_at have (snd x) (snd y)) p q.
Lemma positions_keys ds p q : positions_of ds p q -> keys q = keys p.
Proof. intros F. induction F as [|x y p q [E _] F IH]; [reflexivity|]. change (fst y :: keys q = fst x :: keys p). congruence. Qed.
Lemma isel_array_spec kw : forall a b, NoDup (keys kw) -> tidy a -> isel_array kw a = Ok b ->
  exists kw', positions_of (dims a) kw kw' /\ selected_from (Some kw') id_name a b.
Proof.
  induction kw as [|[d p] kw IH]; intros a b N T H.
  - injection H as <-. exists []. split; [constructor|]. apply selected_nil, T.
  - cbn [isel_array] in H. destruct (isel_one d p a) as [a1|] eqn:E; [|discriminate]. cbn [bind] in H. change (NoDup (d :: keys kw)) in N. apply NoDup_cons_iff in N. destruct N as [N1 N2].
    destruct (isel_one_spec _ _ _ _ E) as (have & ix & G & L & S1). pose proof (sel1_tidy _ _ _ _ T S1) as T1. destruct (IH _ _ N2 T1 H) as (kw' & F & S).
    exists ((d, ix) :: kw'). assert (keys kw' = keys kw) as K by (apply (positions_keys _ _ _ F)). split.
    + constructor; [cbn [fst snd]; eauto|]. assert (forall x, In x kw -> fst x <> d) as Ne. { intros x I Ex. apply N1. rewrite <- Ex. apply in_map, I. }
      clear - F Ne S1. induction F as [|x y p q (E & have & G & L) F IH]; constructor.
      * split; auto. exists have. split; auto. rewrite <- G. symmetry. apply (sel1_other _ _ _ _ _ S1). apply Ne. left; auto.
      * apply IH. intros x0 I. apply Ne. right; auto.
    + apply (selected_step d ix kw' a a1 b); auto. rewrite K. exact N1.
Qed.
Lemma selected_tidy kw a b : tidy a -> NoDup (keys kw) -> sel_array kw a = Ok b -> tidy b.
Proof.
  unfold sel_array. intros T _. destruct (sel_kwargs kw [("", a)]) as [out|] eqn:E; [|discriminate]. cbn [bind].
  assert (forall kw ds out, sel_kwargs kw ds = Ok out -> (forall v x, In (v, x) ds -> tidy x) -> NoDup (keys ds) -> forall v x, In (v, x) out -> tidy x) as Q.
  { clear. induction kw as [|[d ix] kw IH]; intros ds out H W N v x I; [injection H as <-; apply (W v x I)|]. cbn [sel_kwargs] in H. destruct (sel_indexer d ix ds) as [ds1|] eqn:E; [|discriminate]. cbn [bind] in H.
    destruct (sel_indexer_spec _ _ _ _ E) as [K S]. apply (IH ds1 out H) with (v := v); auto; [|rewrite K; exact N]. intros v1 x1 I1. assert (NoDup (keys ds1)) as N1 by (rewrite K; exact N).
    assert (In v1 (keys ds)) as Iv by (rewrite <- K; apply (in_map fst _ _ I1)). apply keys_dget in Iv. destruct Iv as [a G]. destruct (S v1 a G) as (b & Gb & Sb). apply (In_dget _ _ _ N1) in I1. rewrite Gb in I1. injection I1 as <-.
    apply (sel1_tidy d ix a); auto. apply (W v1 a). apply (dget_In _ _ G). }
  destruct out as [|[k x] [|? ?]]; try discriminate. intros [= <-]. apply (Q _ _ _ E) with (v := k); [|repeat constructor; cbn; tauto|left; reflexivity]. intros v x0 [[= <- <-]|[]]. exact T.
Qed.

(** Errors *)
Lemma isel_one_err d p a e : isel_one d p a = Err e -> (e = ValueError /\ ~ In d (dnames a)) \/ (e = IndexError /\ In d (dnames a)).
Proof.
  unfold isel_one. destruct (dget (dims a) d) as [have|] eqn:E.
  - intros H. right. assert (In d (dnames a)) as I by (apply (dget_Some_keys _ _ E)). split; auto. destruct p as [k|ks|start stop]; [| |discriminate].
    + destruct (pos_label have k) as [l|] eqn:P; cbn [bind] in H; [|injection H as <-; apply (pos_label_err _ _ _ P)]. exfalso. apply pos_label_spec, at_position_In in P.
      unfold sel_array in H. cbn [sel_kwargs sel_indexer] in H. unfold sel_scalar in H. assert (has_dim [("", a)] d = true) as Hd by (apply has_dim_iff; exists "", a; split; [left; reflexivity|exact I]). rewrite Hd in H. cbn [mapM fst snd] in H. rewrite E in H.
      assert (memb l have = true) as M by (apply memb_In, P). rewrite M in H. cbn [bind] in H. discriminate.
    + destruct (mapM (pos_label have) ks) as [ls|] eqn:P; cbn [bind] in H; [discriminate|]. injection H as ->. clear - P. induction ks as [|k ks IH]; [discriminate|]. cbn [mapM] in P. destruct (pos_label have k) eqn:Q; cbn [bind] in P.
      * destruct (mapM _ ks); cbn [bind] in P; [discriminate|]. apply IH, P.
      * injection P as ->. apply (pos_label_err _ _ _ Q).
  - intros [= <-]. left. split; auto. apply dget_None in E. exact E.
Qed.

(** ** Stack *)
Lemma stacked_names ds a : map fst (stacked_box ds a) = ds.
Proof. unfold stacked_box. rewrite map_map. cbn [fst]. apply List.map_id. Qed.
Lemma flat_map_length {A B} (f : A -> list B) k l : (forall x, length (f x) = k) -> length (flat_map f l) = (length l * k)%nat.
Proof. intros H. induction l as [|x l IH]; [reflexivity|]. cbn [flat_map length]. rewrite app_length, H, IH. lia. Qed.
Lemma envs_size box : forall e, length (envs box e) = product (map (fun p => length (snd p)) box).
Proof. induction box as [|[d ls] box IH]; intros e; [reflexivity|]. cbn [envs map snd product]. apply flat_map_length. intros l. apply IH. Qed.
Lemma stacked_size ds a e : length (envs (stacked_box ds a) e) = product (sizes_of a ds).
Proof. rewrite envs_size. unfold stacked_box, sizes_of. rewrite map_map. reflexivity. Qed.
Lemma nth_error_flat_map {A B} (f : A -> list B) k : (forall x, length (f x) = k) -> forall l i x j, nth_error l i = Some x -> (j < k)%nat -> nth_error (flat_map f l) (i * k + j) = nth_error (f x) j.
Proof.
  intros H. induction l as [|y l IH]; intros i x j G L; [destruct i; discriminate|]. cbn [flat_map]. destruct i as [|i].
  - injection G as ->. cbn [Nat.mul Nat.add]. apply nth_error_app1. rewrite H. exact L.
  - cbn [nth_error] in G. rewrite nth_error_app2 by (rewrite H; cbn [Nat.mul]; lia). rewrite H. replace (S i * k + j - k)%nat with (i * k + j)%nat by (cbn [Nat.mul]; lia). apply IH; auto.
Qed.
Lemma row_major_lt sizes idx : within sizes idx -> (row_major sizes idx < product sizes)%nat.
Proof. intros F. induction F as [|n i sizes idx L F IH]; cbn [row_major product]; [lia|]. nia. Qed.
Lemma row_major_onto sizes : forall k, (k < product sizes)%nat -> exists idx, within sizes idx /\ row_major sizes idx = k.
Proof.
  induction sizes as [|n sizes IH]; intros k L; cbn [product] in L.
  - exists []. split; [constructor|]. cbn. lia.
  - assert (product sizes <> 0)%nat as P by nia. destruct (IH (k mod product sizes)%nat) as (idx & W & E); [apply Nat.mod_upper_bound, P|].
    exists ((k / product sizes)%nat :: idx). split; [constructor; auto; apply Nat.div_lt_upper_bound; nia|]. cbn [row_major]. rewrite E. pose proof (Nat.div_mod k (product sizes) P). nia.
Qed.
Lemma row_major_inj sizes : forall idx idx', within sizes idx -> within sizes idx' -> row_major sizes idx = row_major sizes idx' -> idx = idx'.
Proof.
  induction sizes as [|n sizes IH]; intros idx idx' F F' E; inversion F as [|? i ? is L Fi]; inversion F' as [|? j ? js L' Fj]; subst; [reflexivity|]. cbn [row_major] in E.
  pose proof (row_major_lt _ _ Fi) as A. pose proof (row_major_lt _ _ Fj) as B. assert (i = j) as -> by nia. f_equal. apply IH; auto. lia.
Qed.
Lemma envs_nth box : forall e idx, NoDup (map fst box) -> within (map (fun p => length (snd p)) box) idx ->
  exists e', nth_error (envs box e) (row_major (map (fun p => length (snd p)) box) idx) = Some e' /\
    (forall n, ~ In n (map fst box) -> e' n = e n) /\ Forall2 (fun p i => nth_error (snd p) i = Some (e' (fst p))) box idx.
Proof.
  induction box as [|[d ls] box IH]; intros e idx N F.
  - exists e. inversion F; subst. split; [reflexivity|]. split; [auto|constructor].
  - inversion F as [|? i ? is L Fi]; subst. cbn [map fst] in N. apply NoDup_cons_iff in N. destruct N as [N1 N2]. cbn [snd] in L. destruct (nth_error ls i) as [l|] eqn:G; [|apply nth_error_None in G; lia].
    destruct (IH (upd e d l) is N2 Fi) as (e' & H & O & V). exists e'. split; [|split].
    + cbn [map snd row_major envs]. rewrite (nth_error_flat_map (fun l => envs box (upd e d l)) (product (map (fun p => length (snd p)) box))) with (x := l); auto; [intros x; apply envs_size|]. apply row_major_lt, Fi.
    + intros n I. cbn [map fst In] in I. rewrite O by tauto. apply upd_other. intros ->. tauto.
    + constructor; auto. cbn [fst snd]. rewrite O by auto. rewrite upd_same. exact G.
Qed.
Lemma stack_array_Ok ds new a b : stack_array ds new a = Ok b ->
  incl ds (dnames a) /\ NoDup ds /\ ds <> [] /\ ~ (In new (dnames a) /\ ~ In new ds) /\ ~ In new (keys (aux a)) /\
  dims b = keep (fun n => negb (memb n ds)) (dims a) ++ [(new, positions_upto (product (sizes_of a ds)))] /\
  forall e, get b e = get a (unstack ds new a e).
Proof.
  unfold stack_array. destruct (subsetb ds (dnames a)) eqn:S; [|discriminate]. destruct (nodupb ds) eqn:N; [|discriminate]. destruct (Nat.eqb (length ds) 0) eqn:L; [discriminate|]. cbn [negb orb].
  destruct (memb new (map fst _)) eqn:M1; [discriminate|]. destruct (memb new (keys (aux a))) eqn:M2; [discriminate|]. cbn [orb]. intros [= <-]. cbn [dims get].
  split; [intros d I; unfold subsetb in S; rewrite forallb_forall in S; apply memb_In, S, I|]. split; [apply nodupb_NoDup, N|]. split; [intros ->; discriminate|].
  split. { intros [I1 I2]. apply memb_false in M1. apply M1. apply names_keep. split; auto. apply negb_true_iff, memb_false, I2. }
  split; [apply memb_false, M2|]. rewrite stacked_size. auto.
Qed.
Lemma stack_array_intro ds new a : incl ds (dnames a) -> NoDup ds -> ds <> [] -> ~ (In new (dnames a) /\ ~ In new ds) -> ~ In new (keys (aux a)) -> exists b, stack_array ds new a = Ok b.
Proof.
  intros S N L M1 M2. unfold stack_array. assert (subsetb ds (dnames a) = true) as ->. { apply forallb_forall. intros d I. apply memb_In, S, I. } rewrite (NoDup_nodupb _ N).
  assert (Nat.eqb (length ds) 0 = false) as -> by (destruct ds; [congruence|reflexivity]). cbn [negb orb].
  assert (memb new (map fst (keep (fun n => negb (memb n ds)) (dims a))) = false) as ->.
  { apply memb_false. intros I. apply names_keep in I. destruct I as [I1 I2]. apply M1. split; auto. apply negb_true_iff, memb_false in I2. exact I2. }
  assert (memb new (keys (aux a)) = false) as -> by (apply memb_false, M2). cbn [orb]. eauto.
Qed.
Lemma stack_array_err ds new a e : stack_array ds new a = Err e -> (e = KeyError /\ ~ incl ds (dnames a)) \/ (e = ValueError /\ incl ds (dnames a)).
Proof.
  unfold stack_array. destruct (subsetb ds (dnames a)) eqn:S; cbn [negb].
  - assert (incl ds (dnames a)) as I. { intros d I. unfold subsetb in S; rewrite forallb_forall in S. apply memb_In, S, I. }
    destruct (_ || _) at 1; [intros [= <-]; auto|]. destruct (_ || _) at 1; [intros [= <-]; auto|discriminate].
  - intros [= <-]. left. split; auto. intros I. assert (subsetb ds (dnames a) = true); [|congruence]. apply forallb_forall. intros d J. apply memb_In, I, J.
Qed.
Lemma stacked_sizes ds a : map (fun p => length (snd p)) (stacked_box ds a) = sizes_of a ds.
Proof. unfold stacked_box, sizes_of. rewrite map_map. reflexivity. Qed.
(** The value at a row-major position. *)
Lemma stack_value ds new a b idx e e' : wf a -> stack_array ds new a = Ok b -> within (sizes_of a ds) idx ->
  e new = LZ (Z.of_nat (row_major (sizes_of a ds) idx)) ->
  (forall n, In n (dnames a) -> ~ In n ds -> e' n = e n) ->
  Forall2 (fun d i => nth_error (labels_of (dims a) d) i = Some (e' d)) ds idx ->
  get b e = get a e'.
Proof.
  intros W H F E O V. apply stack_array_Ok in H. destruct H as (_ & N & _ & _ & _ & _ & G). rewrite G. unfold unstack. rewrite E, Nat2Z.id.
  set (e0 := fun n => if memb n ds then env0 n else e n). destruct (envs_nth (stacked_box ds a) e0 idx) as (e1 & E1 & O1 & V1); [rewrite stacked_names; exact N|rewrite stacked_sizes; exact F|]. rewrite stacked_sizes in E1. rewrite stacked_names in O1.
  rewrite (nth_error_nth _ _ _ E1). apply W. intros n I. destruct (in_dec string_dec n ds) as [J|J].
  - clear - V V1 J. unfold stacked_box in V1. revert idx V V1. induction ds as [|d ds IH]; intros idx V V1; [contradiction|]. inversion V as [|? i ? is A B]; subst. cbn [map] in V1. inversion V1 as [|? ? ? ? A1 B1]; subst. destruct J as [<-|J].
    + cbn [fst snd] in A1. congruence.
    + apply (IH J _ B B1).
  - rewrite O1, O; auto. unfold e0. destruct (memb n ds) eqn:M; [apply memb_In in M; contradiction|reflexivity].
Qed.
Lemma envs_agree (P : string -> Prop) box : forall e e', (forall n, P n -> ~ In n (map fst box) -> e n = e' n) -> Forall2 (fun x y : env => forall n, P n -> x n = y n) (envs box e) (envs box e').
Proof.
  induction box as [|[d ls] box IH]; intros e e' H; cbn [envs]; [constructor; auto|]. assert (forall l, Forall2 (fun x y : env => forall n, P n -> x n = y n) (envs box (upd e d l)) (envs box (upd e' d l))) as Q.
  { intros l. apply IH. intros n Pn Ni. unfold upd. destruct (string_dec n d); auto. apply H; auto. intros [K|K]; [cbn in K; congruence|contradiction]. }
  induction ls as [|l ls IHl]; cbn [flat_map]; [constructor|]. apply Forall2_app; auto.
Qed.
Lemma Forall2_nth {A B} (P : A -> B -> Prop) l l' : Forall2 P l l' -> forall k d d', P d d' -> P (nth k l d) (nth k l' d').
Proof. intros F. induction F; intros k d d' H0; destruct k; cbn [nth]; auto. Qed.
Lemma unstack_agree ds new a (S : list string) e e' : (forall d, In d S -> e d = e' d) -> In new S -> (forall n, In n (dnames a) -> ~ In n ds -> In n S) ->
  forall n, In n (dnames a) -> unstack ds new a e n = unstack ds new a e' n.
Proof.
  intros H Hn Hs n I. unfold unstack. rewrite <- (H new Hn). set (e0 := fun m => if memb m ds then env0 m else e m). set (e1 := fun m => if memb m ds then env0 m else e' m).
  assert (forall m, In m (dnames a) -> e0 m = e1 m) as Q. { intros m Im. unfold e0, e1. destruct (memb m ds) eqn:M; auto. apply H, Hs; auto. apply memb_false, M. }
  destruct (e new); auto. apply (Forall2_nth (fun x y : env => forall m, In m (dnames a) -> x m = y m)); auto. apply envs_agree. auto.
Qed.
(** The values along the new dimension. *)
Lemma stack_along ds new a b e : wf a -> stack_array ds new a = Ok b -> along b new e = map (get a) (envs (stacked_box ds a) e).
Proof.
  intros W H. pose proof H as H0. apply stack_array_Ok in H. destruct H as (I & N & _ & M1 & _ & D & G). unfold along.
  assert (labels_of (dims b) new = positions_upto (product (sizes_of a ds))) as ->.
  { unfold labels_of. rewrite D. assert (dget (keep (fun n => negb (memb n ds)) (dims a)) new = None) as E.
    { apply dget_None. intros J. apply names_keep in J. destruct J as [J P]. apply M1. split; auto. apply negb_true_iff, memb_false in P. exact P. }
    rewrite (dget_app (keep (fun n => negb (memb n ds)) (dims a))), E. cbn [dget]. destruct (eq_dec new new); congruence. }
  unfold positions_upto. rewrite map_map. rewrite <- (stacked_size ds a e). set (l := envs (stacked_box ds a) e).
  rewrite (map_ext_in _ (fun k => get a (nth k l env0))).
  - clearbody l. clear. assert (forall pre, map (fun k => get a (nth k (pre ++ l) env0)) (seq (length pre) (length l)) = map (get a) l) as Q; [|apply (Q [])].
    induction l as [|x l IH]; intros pre; [reflexivity|]. cbn [length seq map]. rewrite app_nth2, Nat.sub_diag by lia. cbn [nth]. f_equal. specialize (IH (pre ++ [x])). rewrite app_length in IH. cbn [length] in IH. rewrite Nat.add_1_r, <- app_assoc in IH. exact IH.
  - intros k Ik. apply in_seq in Ik. rewrite G. apply W. intros n In_. unfold unstack. cbv zeta. rewrite upd_same. cbv iota. rewrite Nat2Z.id. set (e0 := fun m => if memb m ds then env0 m else upd e new (LZ (Z.of_nat k)) m).
    assert (Forall2 (fun x y : env => forall m, In m (dnames a) -> x m = y m) (envs (stacked_box ds a) e0) l) as F.
    { apply envs_agree. rewrite stacked_names. intros m Im Nm. unfold e0. destruct (memb m ds) eqn:M; [apply memb_In in M; contradiction|]. apply upd_other. intros ->. apply M1. auto. }
    assert (k < length (envs (stacked_box ds a) e0))%nat as L0 by (rewrite (envs_length _ e0 e); unfold l in Ik; lia).
    pose proof (Forall2_nth _ _ _ F k env0 env0 (fun m _ => eq_refl) n In_) as Q. rewrite (nth_indep (envs (stacked_box ds a) e0) env0 e0 L0) in Q. exact Q.
Qed.
(** Those are the values of [a] over all labels of the stacked dimensions. *)
Lemma stacked_points ds a e : wf a -> incl ds (dnames a) -> NoDup ds -> Permutation (envs (stacked_box ds a) e) (sum_points ds a e).
Proof.
  intros W I N. apply (reduced_perm [a] ds e); [|apply sum_points_spec, W]. assert (NoDup (map fst (stacked_box ds a))) as Nb by (rewrite stacked_names; exact N). split.
  - apply envs_NoDup; auto. intros d ls J. unfold stacked_box in J. apply in_map_iff in J. destruct J as (d0 & [= <- <-] & J). apply wf_labels_NoDup, W.
  - intros e'. rewrite (envs_spec _ Nb). rewrite stacked_names. split.
    + intros [Hp Ho]. split.
      * intros d Nd. apply Ho. intros J. apply Nd. split; auto. exists a. split; [left; reflexivity|apply I, J].
      * intros a0 d [<-|[]] J _. apply (Hp d). unfold stacked_box. apply in_map_iff. exists d. auto.
    + intros [Ho Hp]. split.
      * intros d ls J. unfold stacked_box in J. apply in_map_iff in J. destruct J as (d0 & [= <- <-] & J). apply (Hp a); auto. left; reflexivity.
      * intros d J. apply Ho. intros [J' _]. contradiction.
Qed.
Lemma wf_stack ds new a b : wf a -> stack_array ds new a = Ok b -> wf b.
Proof.
  intros W H. apply stack_array_Ok in H. destruct H as (I & N & _ & M1 & _ & D & G). assert (dnames b = map fst (keep (fun n => negb (memb n ds)) (dims a)) ++ [new]) as Dn by (unfold dnames; rewrite D, map_app; reflexivity). split; [|split].
  - rewrite Dn. apply NoDup_app_intro; [apply keep_NoDup, W|repeat constructor; cbn; tauto|]. intros x Ix [<-|[]]. apply names_keep in Ix. destruct Ix as [Ix P]. apply M1. split; auto. apply negb_true_iff, memb_false in P. exact P.
  - intros d ls J. rewrite D in J. apply in_app_iff in J. destruct J as [J|[[= <- <-]|[]]].
    + apply filter_In in J. destruct J as [J _]. apply (proj1 (proj2 W) d ls J).
    + unfold positions_upto. apply FinFun.Injective_map_NoDup; [intros x y E; injection E; lia|]. apply seq_NoDup.
  - intros e e' H. rewrite !G. apply W. intros n In_. apply unstack_agree with (S := dnames b); auto.
    + rewrite Dn. apply in_app_iff. right. left. reflexivity.
    + intros n0 I0 J0. rewrite Dn. apply in_app_iff. left. apply names_keep. split; [exact I0|]. apply negb_true_iff, memb_false, J0.
Qed.
