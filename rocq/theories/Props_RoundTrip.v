(** C14 (Dataset round trip) and C15 (DataTree round trip) of AggregationState. *)
From Coq Require Import String Ascii List Permutation ZArith.
Import ListNotations.
From Verif Require Import Prelude Values Model_XArray Spec_XArray Proofs_XArray Model_Tree Spec_Tree
  Model_Aggregation Spec_Aggregation Proofs_AggState Spec_RoundTrip Proofs_RoundTrip.
From Coq Require Import Reals Lra.
Local Open Scope R_scope.
Local Open Scope string_scope.
Local Open Scope list_scope.

(** Every nested state whose names contain no '/', whose weights have the keys of its
    statistics and where statistic and weight of one node agree on their coordinate
    labels is returned unchanged. *)
Theorem C15_round_trip : forall x y,
  nested_dict node_name x -> same_keys x y ->
  (forall p a b, at_path x p = Some (Leaf a) -> at_path y p = Some (Leaf b) -> wf a /\ wf b /\ labels_agree a b) ->
  exists d, to_data_tree (Some (x, y)) = Ok d /\ state_equiv (from_data_tree d) (Some (x, y)).
Proof. exact data_tree_round_trip. Qed.
Print Assumptions C15_round_trip.

Theorem C15_zero_state : to_data_tree zero = Err TypeError.
Proof. reflexivity. Qed.

(** The Dataset form: names must be usable path components without the separator, no
    inner dictionary may be empty, and all arrays must agree on labels of shared
    dimensions. *)
Theorem C14_round_trip : forall sep x y,
  ~ occurs sep "sum_weighted_statistics" -> ~ occurs sep "sum_weights" ->
  nested_dict (plain_name sep) x -> inner_nonempty x -> same_keys x y ->
  (forall a, in_state (x, y) a -> wf a) ->
  (forall a b, in_state (x, y) a -> in_state (x, y) b -> labels_agree a b) ->
  exists ds s, to_dataset sep (Some (x, y)) = Ok ds /\ from_dataset sep ds = Ok s /\
               state_equiv s (Some (x, y)).
Proof. exact dataset_round_trip_state. Qed.
Print Assumptions C14_round_trip.

(** ** Every condition is needed *)
Definition one : da := mkDa [("bin", [LZ 0; LZ 1])] (fun _ => Fin 1) [].
Definition two : da := mkDa [("bin", [LZ 1; LZ 2])] (fun _ => Fin 2) [].
Definition st1 (s v : string) (a : da) : tree da := Dict [(s, Dict [(v, Leaf a)])].

(** A separator inside a variable name turns it into a path. *)
Theorem C14_separator_in_name_refuted : exists ds s,
  to_dataset "#" (Some (st1 "MSE" "t#2m" one, st1 "MSE" "t#2m" one)) = Ok ds /\
  from_dataset "#" ds = Ok s /\ ~ state_equiv s (Some (st1 "MSE" "t#2m" one, st1 "MSE" "t#2m" one)).
Proof.
  do 2 eexists. split; [reflexivity|]. split; [reflexivity|].
  intros [H _]. specialize (H [Key "MSE"; Key "t#2m"]). exact H.
Qed.

(** A statistic without variables disappears. *)
Theorem C14_empty_statistic_refuted : exists ds s,
  to_dataset "#" (Some (Dict [("MSE", Dict [])], Dict [("MSE", Dict [])])) = Ok ds /\
  from_dataset "#" ds = Ok s /\ ~ state_equiv s (Some (Dict [("MSE", Dict [])], Dict [("MSE", Dict [])])).
Proof.
  do 2 eexists. split; [reflexivity|]. split; [reflexivity|].
  intros [H _]. specialize (H [Key "MSE"]). exact H.
Qed.

(** A separator occurring in the two fixed variable names cannot be read back. *)
Theorem C14_underscore_separator_refuted : exists ds,
  to_dataset "_" (Some (st1 "MSE" "t" one, st1 "MSE" "t" one)) = Ok ds /\
  from_dataset "_" ds = Err KeyError.
Proof. eexists. split; reflexivity. Qed.

(** Variables with different labels along one dimension come back NaN-padded. *)
Theorem C14_different_labels_refuted :
  let s := Some (Dict [("MSE", Dict [("t", Leaf one); ("u", Leaf two)])],
                 Dict [("MSE", Dict [("t", Leaf one); ("u", Leaf two)])]) in
  exists ds s', to_dataset "#" s = Ok ds /\ from_dataset "#" ds = Ok s' /\ ~ state_equiv s' s.
Proof.
  do 2 eexists. split; [reflexivity|]. split; [reflexivity|].
  intros [H _]. specialize (H [Key "MSE"; Key "t"]). cbn in H. destruct H as (_ & H & _).
  specialize (H "bin" (LZ 2)). cbn in H. destruct H as [H _].
  destruct (H ltac:(auto)) as [E|[E|[]]]; discriminate.
Qed.

(** ** Non-vacuity *)
Lemma one_wf : wf one.
Proof.
  split; [repeat constructor; simpl; tauto|]. split; [|reflexivity].
  intros d ls [[= <- <-]|[]]. repeat constructor; simpl; intuition discriminate.
Qed.
Definition exs : tree da := Dict [("MSE", Dict [("t", Leaf one); ("u", Leaf one)]); ("MAE", Dict [("t", Leaf one)])].
Lemma exs_leaf p a : at_path exs p = Some (Leaf a) -> a = one.
Proof.
  intros H. destruct p as [|[k|?] p]; try discriminate. unfold exs in H. cbn [at_path dget] in H.
  repeat match type of H with context [eq_dec ?u ?v] => destruct (eq_dec u v) end; try discriminate;
  destruct p as [|[k'|?] p]; try discriminate; cbn [at_path dget] in H;
  repeat match type of H with context [eq_dec ?u ?v] => destruct (eq_dec u v) end; try discriminate;
  (destruct p as [|[]]; [|discriminate|discriminate]); now injection H as <-.
Qed.
Lemma exs_same : same_keys exs exs.
Proof. intros p. destruct (at_path exs p) as [[| | |]|] eqn:E; auto. exfalso.
  destruct p as [|[k|?] p]; try discriminate. unfold exs in E. cbn [at_path dget] in E.
  repeat match type of E with context [eq_dec ?u ?v] => destruct (eq_dec u v) end; try discriminate;
  destruct p as [|[k'|?] p]; try discriminate; cbn [at_path dget] in E;
  repeat match type of E with context [eq_dec ?u ?v] => destruct (eq_dec u v) end; try discriminate;
  destruct p as [|[]]; discriminate.
Qed.

Example C14_nonvacuous : exists ds s, to_dataset "#" (Some (exs, exs)) = Ok ds /\ from_dataset "#" ds = Ok s /\
  state_equiv s (Some (exs, exs)) /\ map fst ds = ["MSE#t#sum_weighted_statistics"; "MSE#t#sum_weights";
   "MSE#u#sum_weighted_statistics"; "MSE#u#sum_weights"; "MAE#t#sum_weighted_statistics"; "MAE#t#sum_weights"].
Proof.
  destruct (C14_round_trip "#" exs exs) as (ds & s & H1 & H2 & H3).
  - simpl. intuition discriminate.
  - simpl. intuition discriminate.
  - unfold plain_name. simpl. repeat split; repeat (constructor; simpl; try tauto); intuition discriminate.
  - simpl. intuition discriminate.
  - exact exs_same.
  - intros a [p [H|H]]; apply exs_leaf in H; subst; apply one_wf.
  - intros a b [p [H|H]] [q [H'|H']]; apply exs_leaf in H, H'; subst; intros d _ _ l; reflexivity.
  - exists ds, s. repeat split; try assumption; try apply H3. cbn in H1. injection H1 as <-. reflexivity.
Qed.
Example C15_nonvacuous : exists d, to_data_tree (Some (exs, exs)) = Ok d /\ state_equiv (from_data_tree d) (Some (exs, exs)).
Proof.
  apply C15_round_trip.
  - unfold node_name. simpl. repeat split; repeat (constructor; simpl; try tauto); intuition discriminate.
  - exact exs_same.
  - intros p a b H H'; apply exs_leaf in H, H'; subst. repeat split; try apply one_wf. auto. auto.
Qed.
