(** C27-C30: ensemble statistics and CRPS. *)
From Coq Require Import String ZArith List Bool Reals Permutation Lra Lia Sorted.
Import ListNotations.
From Verif Require Import Prelude Values Model_XArray Spec_XArray Proofs_XArray Model_Tree Model_MetricsBase Model_Aggregation
  Spec_Aggregator Spec_Metrics Proofs_Metrics Spec_Means Proofs_Means Model_Deterministic Proofs_Deterministic Model_Categorical Proofs_Categorical
  Spec_Reduce Proofs_Reduce Spec_Statistic Spec_Ensemble Model_Ensemble Proofs_Ensemble Proofs_Ensemble2.
Local Open Scope R_scope.
Local Open Scope string_scope.
Local Open Scope list_scope.

(** ** C27: CRPSSpread *)
(** The array whose spread is measured. *)
Definition measured (which : string) (pv tv : da) : da := if string_dec which "predictions" then pv else tv.

Lemma spread_value argsort d use_sort fair which pv tv r e xs : argsort_ok argsort ->
  wf (measured which pv tv) -> crps_spread_var argsort d use_sort fair which false pv tv = Ok r ->
  along (measured which pv tv) d e = map Fin xs -> (2 <= length xs)%nat /\ get r e = Fin (spread fair xs).
Proof.
  intros HA W H Hx. unfold crps_spread_var in H. unfold measured in *. unfold eqb in H.
  destruct (eq_dec which "predictions") as [E|E]; destruct (string_dec which "predictions") as [E'|E']; try contradiction;
  [|destruct (eq_dec which "targets"); [|discriminate]]; cbn [bind] in H.
  all: match type of W with wf ?a => destruct (size_of d a) as [n|] eqn:Es; [|discriminate] end; cbn [bind] in H.
  all: destruct (Nat.ltb n 2) eqn:L; [discriminate|]; apply Nat.ltb_ge in L.
  all: assert (n = length xs) as -> by (apply (f_equal (@length val)) in Hx; unfold along in Hx; rewrite !map_length in Hx; unfold size_of in Es; unfold labels_of in Hx;
         match type of Es with match ?x with _ => _ end = _ => destruct x; [|discriminate] end; congruence).
  all: pose proof (size_ge2 xs L) as L2; assert (size xs * (size xs - fair1 fair) <> 0) as N by (unfold fair1; destruct fair; nra).
  all: split; [exact L|]; unfold spread; change (if fair then 1 else 0) with (fair1 fair).
  all: destruct use_sort; [exact (spread_sorted_value argsort d fair _ r e xs HA W H Hx N)|].
  all: exact (spread_pairs_value d fair false _ _ r e xs (size xs) W H Hx eq_refl N).
Qed.

(** Pairwise and sort-based implementations, fair or not, of either side: the mean absolute
    difference over pairs (of distinct members if fair), for any order of ties. *)
Theorem C27_value : forall argsort d use_sort fair which p t v pv tv st e xs, argsort_ok argsort ->
  NoDup (keys p) -> dget p v = Some pv -> dget t v = Some tv -> wf (measured which pv tv) ->
  statistic_value (CRPSSpread argsort d use_sort fair which false) p t v st ->
  along (measured which pv tv) d e = map Fin xs ->
  get st e = Fin (sum2 (fun x y => Rabs (x - y)) xs xs / (size xs * (size xs - if fair then 1 else 0))) /\ 2 <= size xs.
Proof.
  intros argsort d us fair which p t v pv tv st e xs HA Hn Hp Ht W H Hx. apply (per_variable_value _ _ _ _ _ pv tv) in H; auto.
  destruct (crps_spread_var argsort d us fair which false pv tv) as [r|] eqn:E; [|discriminate]. cbn [bind] in H. injection H as <-.
  destruct (spread_value _ _ _ _ _ _ _ _ _ _ HA W E Hx) as [L V]. split; [exact V|now apply size_ge2].
Qed.
Print Assumptions C27_value.

(** Both implementations agree, also when the members come in another order and whichever
    sorting algorithm is used. *)
Theorem C27_sort_equals_pairwise : forall argsort argsort' d fair p p' t v pv pv' tv st st' e xs xs', argsort_ok argsort ->
  NoDup (keys p) -> NoDup (keys p') -> dget p v = Some pv -> dget p' v = Some pv' -> dget t v = Some tv -> wf pv -> wf pv' ->
  statistic_value (CRPSSpread argsort d true fair "predictions" false) p t v st ->
  statistic_value (CRPSSpread argsort' d false fair "predictions" false) p' t v st' ->
  along pv d e = map Fin xs -> along pv' d e = map Fin xs' -> Permutation xs xs' -> get st e = get st' e.
Proof.
  intros argsort argsort' d fair p p' t v pv pv' tv st st' e xs xs' HA Hn Hn' Hp Hp' Ht W W' H H' Hx Hx' P.
  destruct (C27_value argsort d true fair "predictions" p t v pv tv st e xs HA Hn Hp Ht W H Hx) as [-> L].
  apply (per_variable_value _ _ _ _ _ pv' tv) in H'; auto.
  destruct (crps_spread_var argsort' d false fair "predictions" false pv' tv) as [r|] eqn:E; [|discriminate]. cbn [bind] in H'. injection H' as <-.
  assert (crps_spread_var argsort d false fair "predictions" false pv' tv = Ok r) as E' by exact E.
  destruct (spread_value argsort d false fair "predictions" pv' tv r e xs' HA W' E' Hx') as [_ ->]. unfold spread.
  assert (size xs = size xs') as -> by (unfold size; f_equal; now apply Permutation_length). f_equal. f_equal. now apply sum2_perm.
Qed.
Print Assumptions C27_sort_equals_pairwise.

(** Fewer than two members are a ValueError, and so is skipna with sorting or an unknown side. *)
Theorem C27_errors : forall argsort d use_sort fair v pv tv,
  (forall ls, dget (dims pv) d = Some ls -> (length ls < 2)%nat ->
     compute (CRPSSpread argsort d use_sort fair "predictions" false) [(v, pv)] [(v, tv)] = Err ValueError) /\
  (forall which, compute (CRPSSpread argsort d true fair which true) [(v, pv)] [(v, tv)] = Err ValueError) /\
  (forall which skipna, which <> "predictions" -> which <> "targets" ->
     compute (CRPSSpread argsort d use_sort fair which skipna) [(v, pv)] [(v, tv)] = Err ValueError).
Proof.
  intros argsort d us fair v pv tv. split; [|split].
  - intros ls Hd L. simpl. unfold eqb. destruct (eq_dec v v); [|contradiction]. unfold crps_spread_var, size_of. unfold eqb.
    destruct (eq_dec "predictions" "predictions"); [|contradiction]. cbn [bind]. rewrite Hd. cbn [bind]. apply Nat.ltb_lt in L. rewrite L. reflexivity.
  - intros which. simpl. unfold eqb. destruct (eq_dec v v); [|contradiction]. unfold crps_spread_var, eqb.
    destruct (eq_dec which "predictions"); [|destruct (eq_dec which "targets")]; cbn [bind]; try reflexivity; unfold reduce; destruct (subsetb _ _); reflexivity.
  - intros which skipna H1 H2. simpl. unfold eqb. destruct (eq_dec v v); [|contradiction]. unfold crps_spread_var, eqb.
    destruct (eq_dec which "predictions"); [contradiction|]. destruct (eq_dec which "targets"); [contradiction|]. reflexivity.
Qed.
Print Assumptions C27_errors.

(** With skipna the ensemble consists of the members that are not NaN; with fewer than two of
    them the fair spread is NaN. *)
Lemma spread_skipna argsort d fair pv tv r e xs : wf pv -> crps_spread_var argsort d false fair "predictions" true pv tv = Ok r ->
  valid (along pv d e) = map Fin xs -> let n := size xs in
  (n * (n - fair1 fair) <> 0 -> get r e = Fin (spread fair xs)) /\ (n * (n - fair1 fair) = 0 -> (length xs <= 1)%nat -> get r e = NaN).
Proof.
  intros W H Hx n. unfold crps_spread_var in H. unfold eqb in H. destruct (eq_dec "predictions" "predictions"); [|contradiction]. cbn [bind] in H.
  destruct (reduce np_count [d] pv) as [c|] eqn:E; [|discriminate]. cbn [bind] in H.
  assert (get c e = Fin (size xs)) as Hc by (rewrite (reduce_along _ _ _ _ _ (proj1 W) E); now apply np_count_members).
  split; intros N.
  - exact (spread_pairs_value d fair true pv c r e xs (size xs) W H Hx Hc N).
  - intros L. exact (spread_pairs_missing d fair true pv c r e xs (size xs) W H Hx L Hc N).
Qed.
Theorem C27_skipna : forall argsort d fair p t v pv tv st e xs, NoDup (keys p) -> dget p v = Some pv -> dget t v = Some tv -> wf pv ->
  statistic_value (CRPSSpread argsort d false fair "predictions" true) p t v st ->
  filter (fun x => negb (isnan x)) (along pv d e) = map Fin xs ->
  ((2 <= length xs)%nat -> get st e = Fin (sum2 (fun x y => Rabs (x - y)) xs xs / (size xs * (size xs - if fair then 1 else 0)))) /\
  ((length xs < 2)%nat -> fair = true -> get st e = NaN) /\ (xs = [] -> get st e = NaN).
Proof.
  intros argsort d fair p t v pv tv st e xs Hn Hp Ht W H Hx. apply (per_variable_value _ _ _ _ _ pv tv) in H; auto.
  destruct (crps_spread_var argsort d false fair "predictions" true pv tv) as [r|] eqn:E; [|discriminate]. cbn [bind] in H. injection H as <-.
  destruct (spread_skipna argsort d fair pv tv r e xs W E Hx) as [K1 K2]. split; [|split].
  - intros L. apply K1. apply size_ge2 in L. unfold fair1. destruct fair; nra.
  - intros L ->. apply K2; [|lia]. unfold fair1. destruct xs as [|x [|y xs]]; [unfold size; simpl; ring|unfold size; simpl; ring|simpl in L; lia].
  - intros ->. apply K2; [unfold size; simpl; ring|simpl; lia].
Qed.
Print Assumptions C27_skipna.

(** A member-by-member array for examples. *)
Definition ens (xs : list val) : da :=
  mkDa [("number", map (fun i => LZ (Z.of_nat i)) (seq 0 (length xs)))]
       (fun e => match e "number" with LZ z => nth (Z.to_nat z) xs NaN | _ => NaN end) [].
Lemma wf_ens xs : wf (ens xs).
Proof.
  split; [|split].
  - repeat constructor. intros [].
  - intros d ls [[= <- <-]|[]]. apply FinFun.Injective_map_NoDup; [|apply seq_NoDup]. intros a b [= H]. lia.
  - intros e e' H. cbn [ens get]. rewrite (H "number"); [reflexivity|]. now left.
Qed.
Lemma along_ens xs e : along (ens xs) "number" e = xs.
Proof.
  unfold along. change (labels_of (dims (ens xs)) "number") with (map (fun i => LZ (Z.of_nat i)) (seq 0 (length xs))). rewrite map_map.
  cbn [ens get]. rewrite (map_ext _ (fun i => nth i xs NaN)) by (intros i; rewrite upd_same, Nat2Z.id; reflexivity).
  induction xs as [|x xs IH]; [reflexivity|]. cbn [length seq map nth]. f_equal. rewrite <- seq_shift, map_map. exact IH.
Qed.
(** Contrary to the documentation of skipna_ensemble, the unfair spread of a single valid member
    is 0, not NaN. *)
Theorem C27_single_member_refuted : forall argsort e, exists st,
  statistic_value (CRPSSpread argsort "number" false false "predictions" true) [("t", ens [Fin 1; NaN])] [("t", ens [Fin 3])] "t" st /\
  get st e = Fin 0.
Proof.
  intros argsort e. destruct (crps_spread_var argsort "number" false false "predictions" true (ens [Fin 1; NaN]) (ens [Fin 3])) as [r|] eqn:E; [|discriminate].
  exists r. split.
  - apply single_value. rewrite E. reflexivity.
  - destruct (spread_skipna argsort "number" false _ _ r e [1] (wf_ens _) E) as [K _]; [rewrite along_ens; reflexivity|].
    rewrite K; unfold spread, fair1, size, sum2; simpl; [f_equal; rewrite dist_refl; field|lra].
Qed.
Print Assumptions C27_single_member_refuted.

(** An argsort: insertion sort of the indices. *)
Definition fin_part (v : val) : R := match v with Fin x => x | _ => 0 end.
Fixpoint insj (key : nat -> R) (j : nat) (l : list nat) : list nat :=
  match l with [] => [j] | i :: l' => if Rle_dec (key j) (key i) then j :: l else i :: insj key j l' end.
Definition argsort0 (vs : list val) : list nat :=
  fold_right (insj (fun j => nth j (map fin_part vs) 0)) [] (seq 0 (length vs)).
Lemma insj_perm key j l : Permutation (insj key j l) (j :: l).
Proof. induction l as [|q l IH]; simpl; [reflexivity|]. destruct (Rle_dec _ _); [reflexivity|]. rewrite IH. apply perm_swap. Qed.
Lemma insj_sorted key j l : StronglySorted (fun a b => key a <= key b) l -> StronglySorted (fun a b => key a <= key b) (insj key j l).
Proof.
  induction 1 as [|q l S IH F]; simpl; [repeat constructor|]. destruct (Rle_dec (key j) (key q)).
  - constructor; [constructor; auto|]. constructor; [exact r|]. rewrite Forall_forall in *. intros y Hy. apply F in Hy. lra.
  - constructor; auto. rewrite Forall_forall in *. intros y Hy. apply (Permutation_in _ (insj_perm key j l)) in Hy. destruct Hy as [<-|Hy]; [lra|now apply F].
Qed.
Example C27_argsort_exists : argsort_ok argsort0.
Proof.
  intros xs. unfold argsort0. rewrite map_length, map_map. cbn [fin_part]. rewrite map_id. set (key := fun j => nth j xs 0).
  assert (forall l, Permutation (fold_right (insj key) [] l) l) as P by (induction l; simpl; [reflexivity|]; rewrite insj_perm; now constructor).
  assert (forall l, StronglySorted (fun a b => key a <= key b) (fold_right (insj key) [] l)) as S by (induction l; simpl; [constructor|]; now apply insj_sorted).
  split; [apply P|]. specialize (S (seq 0 (length xs))). induction S as [|q l S IH F]; intros k k' j j' Hk Hj Hj'; [destruct k; discriminate|].
  destruct k as [|k], k' as [|k']; cbn [nth_error] in *; try lia.
  - injection Hj as <-. injection Hj' as <-. apply Rle_refl.
  - injection Hj as <-. rewrite Forall_forall in F. apply F. eapply nth_error_In, Hj'.
  - apply (IH k k'); auto. lia.
Qed.
Example C27_example : exists st,
  statistic_value (CRPSSpread argsort0 "number" true true "predictions" false) [("t", ens [Fin 3; Fin 1; Fin 3])] [("t", ens [Fin 3])] "t" st /\
  get st env0 = Fin (4 / 3).
Proof.
  destruct (crps_spread_var argsort0 "number" true true "predictions" false (ens [Fin 3; Fin 1; Fin 3]) (ens [Fin 3])) as [r|] eqn:E; [|discriminate].
  exists r. split.
  - apply single_value. rewrite E. reflexivity.
  - destruct (spread_value argsort0 "number" true true "predictions" _ _ r env0 [3; 1; 3] C27_argsort_exists (wf_ens _) E (along_ens _ _)) as [_ ->].
    f_equal. unfold spread, sum2, dist, size. simpl. rewrite !Rabs_pos_eq by lra. replace (1 - 3) with (- (2)) by ring. rewrite !Rabs_Ropp, !Rabs_pos_eq by lra. field.
Qed.
