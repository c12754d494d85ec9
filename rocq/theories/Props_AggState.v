(** C05 (combining_sum) and C06 (AggregationState.sum). *)
From Coq Require Import String List Permutation ZArith.
Import ListNotations.
From Verif Require Import Prelude Values Model_XArray Spec_XArray Proofs_XArray Model_Tree Spec_Tree Model_Aggregation Spec_Aggregation Proofs_AggState.
From Coq Require Import Reals Lra.
Local Open Scope R_scope.
Local Open Scope string_scope.
Local Open Scope list_scope.

(** The result has exactly the dimensions and the labels occurring in some input. *)
Theorem C05_outer_join : forall arrs,
  (forall d, In d (dnames (combining_sum arrs)) <-> exists a, In a arrs /\ In d (dnames a)) /\
  (forall d x, In x (labels_of (dims (combining_sum arrs)) d) <->
               exists a, In a arrs /\ In x (labels_of (dims a) d)).
Proof. exact comb_sum_names_labels. Qed.
Print Assumptions C05_outer_join.

(** At every point the value is the sum of the inputs' contributions (value, or 0). *)
Theorem C05_zero_filled : forall arrs e,
  exists vs, Forall2 (fun a v => contributes a e v) arrs vs /\ get (combining_sum arrs) e = vsum vs.
Proof. exact comb_sum_value. Qed.
Print Assumptions C05_zero_filled.

(** No NaN that was not in some input at that very point. *)
Theorem C05_no_new_NaN : forall arrs e,
  (forall a, In a arrs -> point_of (dims a) e -> isfin (get a e) = true \/ get a e = NaN) ->
  get (combining_sum arrs) e = NaN -> exists a, In a arrs /\ point_of (dims a) e /\ get a e = NaN.
Proof. exact comb_sum_no_new_NaN. Qed.
Print Assumptions C05_no_new_NaN.

(** Well-formedness is preserved, so sums can be summed again. *)
Theorem C05_well_formed : forall arrs, (forall a, In a arrs -> wf a) -> wf (combining_sum arrs).
Proof. exact wf_comb_sum. Qed.
Print Assumptions C05_well_formed.

(** Any two nested sums over the same non-zero states (in any order, any bracketing, with
    zero states and empty sums inserted anywhere) both succeed and give equal states. *)
Theorem C06_order_and_bracketing : forall e1 e2,
  (forall p, In p (atoms e1) -> plain (fst p) /\ plain (snd p)) ->
  (forall p q, In p (atoms e1) -> In q (atoms e1) -> compatible (Some p) (Some q)) ->
  Permutation (atoms e1) (atoms e2) ->
  exists s1 s2, eval e1 = Ok s1 /\ eval e2 = Ok s2 /\ state_equiv s1 s2.
Proof. exact eval_bracket_perm. Qed.
Print Assumptions C06_order_and_bracketing.

(** What the sum is: at every path, the combining_sum of the arrays found there. *)
Theorem C06_leafwise_value : forall ps s,
  ps <> [] ->
  (forall p, In p ps -> plain (fst p) /\ plain (snd p)) ->
  (forall p q, In p ps -> In q ps -> compatible (Some p) (Some q)) ->
  state_sum (map Some ps) = Ok s ->
  exists x y, s = Some (x, y) /\
   (forall q p, In p ps ->
     (forall a, at_path (fst p) q = Some (Leaf a) -> exists b, at_path x q = Some (Leaf b) /\
         da_equiv b (combining_sum (map (fun p => leaf_at q (fst p)) ps))) /\
     (forall a, at_path (snd p) q = Some (Leaf a) -> exists b, at_path y q = Some (Leaf b) /\
         da_equiv b (combining_sum (map (fun p => leaf_at q (snd p)) ps)))).
Proof. exact sum_value_spec. Qed.
Print Assumptions C06_leafwise_value.

Theorem C06_zero_neutral : forall l1 l2, state_sum (l1 ++ zero :: l2) = state_sum (l1 ++ l2).
Proof.
  intros l1 l2. unfold state_sum.
  replace (nonzero_states (l1 ++ zero :: l2)) with (nonzero_states (l1 ++ l2)); [reflexivity|].
  unfold nonzero_states. now rewrite !flat_map_app.
Qed.
Print Assumptions C06_zero_neutral.

Theorem C06_only_zeros : forall n, state_sum (repeat zero n) = Ok zero.
Proof.
  intros n. unfold state_sum. replace (nonzero_states (repeat zero n)) with (@nil (tree da * tree da)); [reflexivity|].
  induction n; simpl; auto.
Qed.
Print Assumptions C06_only_zeros.

(** Non-vacuity: two states with partly different labels along "time". *)
Definition arr (ts : list Z) (v : R) : da :=
  mkDa [("time", map LZ ts)] (fun _ => Fin v) [].
Definition exs (ts : list Z) (v : R) : tree da * tree da :=
  (Dict [("MSE", Dict [("t", Leaf (arr ts v))])], Dict [("MSE", Dict [("t", Leaf (arr ts 1))])]).
Lemma arr_wf ts v : NoDup ts -> wf (arr ts v).
Proof.
  intros H. split; [repeat constructor; simpl; tauto|]. split; [|reflexivity].
  intros d ls [[= <- <-]|[]]. clear - H. induction H; simpl; constructor; auto.
  rewrite in_map_iff. intros [y [[= ->] Hy]]. tauto.
Qed.
Lemma exs_compatible t1 v1 t2 v2 : NoDup t1 -> NoDup t2 -> compatible (Some (exs t1 v1)) (Some (exs t2 v2)).
Proof.
  intros H1 H2.
  assert (forall w1 w2, wf (arr t1 w1) /\ wf (arr t2 w2) /\ same_dims (arr t1 w1) (arr t2 w2)) as K.
  { intros. split; [now apply arr_wf|]. split; [now apply arr_wf|]. intros d. reflexivity. }
  split; intros p; (destruct p as [|[k|n] p]; cbn [at_path exs dget]; auto;
    destruct (eq_dec k "MSE"); auto; destruct p as [|[k'|n] p]; cbn [at_path dget]; auto;
    destruct (eq_dec k' "t"); auto; destruct p as [|[|] p]; cbn [at_path]; auto).
Qed.
Example C06_example_hyps : let e := SumOf [Atom (Some (exs [1;2]%Z 3)); Atom zero; SumOf [Atom (Some (exs [2;3]%Z 4))]] in
  (forall p, In p (atoms e) -> plain (fst p) /\ plain (snd p)) /\
  (forall p q, In p (atoms e) -> In q (atoms e) -> compatible (Some p) (Some q)).
Proof.
  assert (NoDup [1;2]%Z /\ NoDup [2;3]%Z) as [N1 N2] by (split; repeat constructor; simpl; intuition discriminate).
  split.
  - intros p [<-|[<-|[]]]; simpl; repeat split; repeat constructor; simpl; tauto.
  - intros p q [<-|[<-|[]]] [<-|[<-|[]]]; apply exs_compatible; auto.
Qed.
Example C05_example_value : forall e, e "time" = LZ 2 ->
  get (combining_sum [arr [1;2]%Z 3; arr [2;3]%Z 4]) e = Fin 7.
Proof.
  intros e He. change (get (comb_sum [arr [1;2]%Z 3; arr [2;3]%Z 4]) e = Fin 7). rewrite comb_sum_get. simpl. unfold zx, in_box. cbn. rewrite He. cbn.
  f_equal. lra.
Qed.

(** The restriction to common dimension names is needed: with arrays of different
    dimension names (broadcasting), bracketing matters. *)
Theorem C06_mixed_dims_refuted : exists a b c : da, wf a /\ wf b /\ wf c /\
  ~ da_equiv (combining_sum [combining_sum [a; b]; c]) (combining_sum [a; b; c]).
Proof.
  exists (arr [1]%Z 1), (scalar (Fin 5)), (arr [2]%Z 1).
  assert (NoDup [1%Z] /\ NoDup [2%Z]) as [N1 N2] by (split; repeat constructor; simpl; tauto).
  split; [now apply arr_wf|]. split; [repeat constructor; simpl; tauto|]. split; [now apply arr_wf|].
  intros (_ & _ & H). specialize (H (fun _ => LZ 2)).
  assert (point_of (dims (combining_sum [combining_sum [arr [1%Z] 1; scalar (Fin 5)]; arr [2%Z] 1])) (fun _ => LZ 2)) as Hp.
  { apply in_box_iff. vm_compute. reflexivity. }
  specialize (H Hp). revert H.
  change combining_sum with comb_sum. rewrite !comb_sum_get.
  assert (forall l, dims (comb_sum l) = dims (comb_sum l)) by reflexivity.
  cbn [map vsum fold_right]. unfold zx at 1 2 3 4 5.
  replace (in_box (dims (comb_sum [arr [1%Z] 1; scalar (Fin 5)])) (fun _ => LZ 2)) with false by (vm_compute; reflexivity).
  replace (in_box (dims (arr [2%Z] 1)) (fun _ => LZ 2)) with true by (vm_compute; reflexivity).
  replace (in_box (dims (arr [1%Z] 1)) (fun _ => LZ 2)) with false by (vm_compute; reflexivity).
  replace (in_box (dims (scalar (Fin 5))) (fun _ => LZ 2)) with true by (vm_compute; reflexivity).
  cbn. intros [= H']. lra.
Qed.
Print Assumptions C06_mixed_dims_refuted.
