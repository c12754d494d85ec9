(** C21: map_structure (xarray_tree.py 42-68). *)
From Coq Require Import String List Arith.
Import ListNotations.
From Verif Require Import Prelude Model_Tree Spec_Tree Proofs_Tree.
Local Open Scope string_scope.

(** Every leaf of the first structure yields, at the same path, the function applied to
    that leaf and to whatever the other structures hold at that path; and the result has
    no other leaves. *)
Theorem C21_leafwise : forall (A B : Type) (func : list (tree A) -> result B) rebuild t rest r,
  plain t -> (forall s, In s rest -> covers s t) ->
  map_structure func rebuild (t :: rest) = Ok r ->
  (forall p a, at_path t p = Some (Leaf a) ->
     exists others b, Forall2 (fun s o => at_path s p = Some o) rest others
       /\ func (Leaf a :: others) = Ok b /\ at_path r p = Some (Leaf b)) /\
  (forall p b, at_path r p = Some (Leaf b) -> exists a, at_path t p = Some (Leaf a)).
Proof. intros A B func rebuild t rest r Hp Hc Hm. exact (map_leafwise func rebuild t rest r Hp Hc Hm). Qed.
Print Assumptions C21_leafwise.

(** Same keys in the same order, same lengths. *)
Theorem C21_shape : forall (A B : Type) (func : list (tree A) -> result B) rebuild t rest r,
  plain t -> (forall s, In s rest -> covers s t) ->
  map_structure func rebuild (t :: rest) = Ok r -> same_shape t r.
Proof. intros A B func rebuild t rest r Hp Hc Hm. exact (map_shape func rebuild t rest r Hp Hc Hm). Qed.
Print Assumptions C21_shape.

(** A key of the first dict missing in another dict: no result. *)
Theorem C21_missing_key_fails : forall (A B : Type) (func : list (tree A) -> result B) rebuild kvs rest k,
  In k (map fst kvs) -> (exists kvs', In (Dict kvs') rest /\ ~ In k (map fst kvs')) ->
  forall r, map_structure func rebuild (Dict kvs :: rest) <> Ok r.
Proof. intros A B func rebuild kvs rest k H1 H2. exact (map_missing_key func rebuild kvs rest k H1 H2). Qed.
Print Assumptions C21_missing_key_fails.

(** ... and if the function itself never raises, the exception is KeyError. *)
Theorem C21_missing_key_KeyError : forall (A B : Type) (g : list (tree A) -> B) rebuild kvs rests k,
  Forall (fun kv => exists a, snd kv = Leaf a) kvs ->
  In k (map fst kvs) -> (exists kvs', In kvs' rests /\ ~ In k (map fst kvs')) ->
  map_structure (fun ss => Ok (g ss)) rebuild (Dict kvs :: map Dict rests) = Err KeyError.
Proof. intros A B g rebuild kvs rests k H1 H2 H3. exact (map_flat_missing_KeyError g rebuild kvs rests k H1 H2 H3). Qed.
Print Assumptions C21_missing_key_KeyError.

Theorem C21_identity : forall (A : Type) rebuild (t : tree A),
  plain t -> map_structure (lift1 Ok) rebuild [t] = Ok t.
Proof. exact @map_id. Qed.
Print Assumptions C21_identity.

Theorem C21_composition : forall (A B C : Type) (f : A -> result B) (g : B -> result C) rb1 rb2 rb3 (t : tree A) t1 t2,
  plain t ->
  map_structure (lift1 f) rb1 [t] = Ok t1 -> map_structure (lift1 g) rb2 [t1] = Ok t2 ->
  map_structure (lift1 (fun a => bind (f a) g)) rb3 [t] = Ok t2.
Proof. exact @map_compose. Qed.
Print Assumptions C21_composition.

Theorem C21_no_structures : forall (A B : Type) (func : list (tree A) -> result B) rebuild,
  map_structure func rebuild [] = Err ValueError.
Proof. reflexivity. Qed.

(** Without the covering assumption the shape claim is false: a list that is longer in the
    first structure than in another is silently truncated (zip, line 67). *)
Theorem C21_shape_lists_refuted : exists (t s r : tree nat),
  plain t /\ plain s /\
  map_structure (fun ss => match ss with [Leaf a; Leaf b] => Ok (a + b) | _ => Err TypeError end)
    (fun kvs => Dset kvs) [t; s] = Ok r /\ ~ same_shape t r.
Proof.
  exists (Seq [Leaf 1; Leaf 2]), (Seq [Leaf 10]), (Seq [Leaf 11]).
  repeat split; simpl; auto. intros H. inversion H; subst.
  match goal with H : same_list _ _ |- _ => inversion H; subst end.
  match goal with H : same_list [_] [] |- _ => inversion H end.
Qed.

(** Non-vacuity: nested dict/list structures; the second has an extra key, which is ignored. *)
Definition ex_t := Dict [("a", Leaf 1); ("b", Seq [Leaf 2; Dict [("c", Leaf 3)]])].
Definition ex_s := Dict [("z", Leaf 0); ("b", Seq [Leaf 20; Dict [("c", Leaf 30)]]); ("a", Leaf 10)].
Definition ex_add (ss : list (tree nat)) := match ss with [Leaf a; Leaf b] => Ok (a + b) | _ => Err TypeError end.
Example C21_example_result :
  map_structure ex_add (fun kvs => Dset kvs) [ex_t; ex_s]
  = Ok (Dict [("a", Leaf 11); ("b", Seq [Leaf 22; Dict [("c", Leaf 33)]])]).
Proof. reflexivity. Qed.
Example C21_example_hyps : plain ex_t /\ covers ex_s ex_t.
Proof.
  split.
  - cbn. repeat split; repeat constructor; simpl; intuition discriminate.
  - intros p u. unfold ex_t, ex_s.
    destruct p as [|[k|n] p]; cbn [at_path dget]; [intros [= <-]; eauto| |discriminate].
    destruct (eq_dec k "a") as [->|Ha].
    { destruct p as [|[|] p]; cbn; intros [= <-]; eauto. }
    destruct (eq_dec k "b") as [->|Hb]; [|discriminate].
    destruct p as [|[k'|[|[|n]]] p]; cbn; try discriminate; try (intros [= <-]; eauto).
    + destruct p as [|[|] p]; cbn; intros [= <-]; eauto.
    + destruct p as [|[k'|] p]; cbn; try discriminate; [intros [= <-]; eauto|].
      destruct (eq_dec k' "c"); [|discriminate]. destruct p as [|[|] p]; cbn; intros [= <-]; eauto.
    + destruct n; discriminate.
Qed.
Example C21_example_KeyError :
  map_structure ex_add (fun kvs => Dset kvs) [ex_s; ex_t] = Err KeyError.
Proof. reflexivity. Qed.
