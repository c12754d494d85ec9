(** Shared vocabulary: Python exceptions as values, Python dictionaries as
    association lists in insertion order.  Nothing here is specific to one
    file of /repo; the model files cite the code. *)
From Coq Require Import String Ascii.
From Coq Require Import List ZArith Lia Bool Arith.
From Coq Require Import Permutation.
Import ListNotations.
Set Implicit Arguments.

(** Exception classes raised by the modelled code (built-in Python classes). *)
Inductive err :=
| ValueError | KeyError | TypeError | IndexError | AttributeError
| AssertionError | ZeroDivisionError | NotImplementedError | FileNotFoundError
| RuntimeError.

Inductive result (A : Type) :=
| Ok (a : A)
| Err (e : err).
Arguments Ok {A} a.
Arguments Err {A} e.

Definition bind {A B} (r : result A) (f : A -> result B) : result B :=
  match r with Ok a => f a | Err e => Err e end.
Notation "'do' x <- r ; k" := (bind r (fun x => k))
  (at level 200, x pattern, r at level 100, k at level 200).

(** List comprehension whose body may raise: the first exception wins, in list order. *)
Fixpoint mapM {A B} (f : A -> result B) (l : list A) : result (list B) :=
  match l with
  | [] => Ok []
  | a :: l' => do b <- f a; do bs <- mapM f l'; Ok (b :: bs)
  end.

Class EqDec (A : Type) := eq_dec : forall a b : A, {a = b} + {a <> b}.
#[global] Instance EqDec_string : EqDec string := string_dec.
#[global] Instance EqDec_Z : EqDec Z := Z.eq_dec.
#[global] Instance EqDec_nat : EqDec nat := Nat.eq_dec.
#[global] Instance EqDec_prod {A B} `{EqDec A} `{EqDec B} : EqDec (A * B).
Proof. intros [a b] [c d]. destruct (eq_dec a c); [destruct (eq_dec b d)|]; [left|right|right]; congruence. Defined.
#[global] Instance EqDec_option {A} `{EqDec A} : EqDec (option A).
Proof. intros [a|] [b|]; [destruct (eq_dec a b)| | |]; [left|right|right|right|left]; congruence. Defined.

Definition eqb {A} `{EqDec A} (a b : A) : bool := if eq_dec a b then true else false.

Lemma eqb_true_iff {A} `{EqDec A} (a b : A) : eqb a b = true <-> a = b.
Proof. unfold eqb. destruct (eq_dec a b); split; congruence. Qed.
Lemma eqb_refl {A} `{EqDec A} (a : A) : eqb a a = true.
Proof. now apply eqb_true_iff. Qed.
Lemma eqb_false_iff {A} `{EqDec A} (a b : A) : eqb a b = false <-> a <> b.
Proof. unfold eqb. destruct (eq_dec a b); split; congruence. Qed.

Definition memb {A} `{EqDec A} (a : A) (l : list A) : bool := existsb (eqb a) l.
Lemma memb_In {A} `{EqDec A} (a : A) l : memb a l = true <-> In a l.
Proof.
  unfold memb. rewrite existsb_exists. split.
  - intros [x [Hx He]]. apply eqb_true_iff in He. now subst.
  - intros Hx. exists a. split; auto. apply eqb_refl.
Qed.
Lemma memb_false {A} `{EqDec A} (a : A) l : memb a l = false <-> ~ In a l.
Proof. rewrite <- memb_In. destruct (memb a l); split; congruence. Qed.

(** Python [dict] in insertion order. *)
Definition dict (K V : Type) := list (K * V).

Section Dict.
  Context {K V : Type} `{EqDec K}.

  Fixpoint dget (d : dict K V) (k : K) : option V :=
    match d with
    | [] => None
    | (k', v) :: d' => if eq_dec k k' then Some v else dget d' k
    end.

  (** [d[k] = v]: overwrites in place, else appends. *)
  Fixpoint dset (d : dict K V) (k : K) (v : V) : dict K V :=
    match d with
    | [] => [(k, v)]
    | (k', v') :: d' =>
        if eq_dec k k' then (k', v) :: d' else (k', v') :: dset d' k v
    end.

  Definition keys (d : dict K V) : list K := map fst d.
  Definition values (d : dict K V) : list V := map snd d.

  (** [d[k]] with [KeyError]. *)
  Definition dgetE (d : dict K V) (k : K) : result V :=
    match dget d k with Some v => Ok v | None => Err KeyError end.

  (** [dict(items)]: later pairs overwrite earlier ones. *)
  Definition dict_of (l : list (K * V)) : dict K V :=
    fold_left (fun d kv => dset d (fst kv) (snd kv)) l [].

  Lemma dget_dset d k v k' :
    dget (dset d k v) k' = if eq_dec k' k then Some v else dget d k'.
  Proof.
    induction d as [|[a b] d IH]; simpl.
    - destruct (eq_dec k' k); reflexivity.
    - destruct (eq_dec k a) as [->|n]; simpl.
      + destruct (eq_dec k' a); reflexivity.
      + rewrite IH. destruct (eq_dec k' a) as [->|]; destruct (eq_dec a k); try congruence.
        all: destruct (eq_dec k' k); congruence.
  Qed.

  Lemma dget_In d k v : dget d k = Some v -> In (k, v) d.
  Proof.
    induction d as [|[a b] d IH]; simpl; [discriminate|].
    destruct (eq_dec k a) as [->|]; [intros [= ->]; now left|auto].
  Qed.

  Lemma dget_None d k : dget d k = None <-> ~ In k (keys d).
  Proof.
    induction d as [|[a b] d IH]; simpl; [tauto|].
    destruct (eq_dec k a) as [->|n].
    - split; [discriminate|tauto].
    - rewrite IH. split; intros Hn; [intros [e|i]; [congruence|tauto]|tauto].
  Qed.

  Lemma dget_Some_keys d k v : dget d k = Some v -> In k (keys d).
  Proof. intros H1. apply dget_In in H1. now apply (in_map fst) in H1. Qed.

  Lemma keys_dget d k : In k (keys d) -> exists v, dget d k = Some v.
  Proof.
    intros Hk. destruct (dget d k) eqn:E; [eauto|]. apply dget_None in E. tauto.
  Qed.

  Lemma In_dget d k v : NoDup (keys d) -> In (k, v) d -> dget d k = Some v.
  Proof.
    induction d as [|[a b] d IH]; simpl; [tauto|].
    intros Hnd. inversion Hnd as [|? ? Hni Hnd']; subst.
    intros [[= -> ->]|Hin].
    - destruct (eq_dec k k); congruence.
    - destruct (eq_dec k a) as [->|]; [|auto].
      exfalso. apply Hni. now apply (in_map fst) in Hin.
  Qed.

  Lemma keys_dset d k v :
    keys (dset d k v) = if memb k (keys d) then keys d else keys d ++ [k].
  Proof.
    induction d as [|[a b] d IH]; simpl; [reflexivity|].
    destruct (eq_dec k a) as [->|n]; simpl.
    - now rewrite eqb_refl.
    - unfold memb in *. simpl. replace (eqb k a) with false by (symmetry; now apply eqb_false_iff).
      simpl. rewrite IH. destruct (existsb (eqb k) (keys d)); reflexivity.
  Qed.

  Lemma NoDup_keys_dset d k v : NoDup (keys d) -> NoDup (keys (dset d k v)).
  Proof.
    intros Hd. rewrite keys_dset. destruct (memb k (keys d)) eqn:E; [auto|].
    apply memb_false in E.
    eapply Permutation_NoDup; [apply Permutation_cons_append|]. now constructor.
  Qed.

  Lemma In_keys_dset d k v k' : In k' (keys (dset d k v)) <-> k' = k \/ In k' (keys d).
  Proof.
    rewrite keys_dset. destruct (memb k (keys d)) eqn:E.
    - apply memb_In in E. split; [tauto|]. intros [->|]; auto.
    - rewrite in_app_iff. simpl. intuition.
  Qed.

  Lemma dict_of_app l k v : dict_of (l ++ [(k, v)]) = dset (dict_of l) k v.
  Proof. unfold dict_of. now rewrite fold_left_app. Qed.

  Lemma NoDup_keys_dict_of l : NoDup (keys (dict_of l)).
  Proof.
    induction l as [|[k v] l IH] using rev_ind; [constructor|].
    rewrite dict_of_app. now apply NoDup_keys_dset.
  Qed.

  Lemma In_keys_dict_of l k : In k (keys (dict_of l)) <-> In k (map fst l).
  Proof.
    induction l as [|[a v] l IH] using rev_ind; [reflexivity|].
    rewrite dict_of_app, In_keys_dset, map_app, in_app_iff, IH. simpl. intuition.
  Qed.

  (** Reading a key of [dict(items)] yields the value of the last pair with it. *)
  Lemma dget_dict_of_last l1 l2 k v :
    ~ In k (map fst l2) -> dget (dict_of (l1 ++ (k, v) :: l2)) k = Some v.
  Proof.
    revert l1 v. induction l2 as [|[a b] l2 IH] using rev_ind; intros l1 v Hn.
    - rewrite dict_of_app, dget_dset. destruct (eq_dec k k); congruence.
    - rewrite app_comm_cons, app_assoc, dict_of_app, dget_dset.
      rewrite map_app, in_app_iff in Hn. simpl in Hn.
      destruct (eq_dec k a) as [->|]; [tauto|]. apply IH. tauto.
  Qed.

  Lemma dict_of_NoDup l : NoDup (map fst l) -> dict_of l = l.
  Proof.
    induction l as [|[k v] l IH] using rev_ind; [reflexivity|].
    rewrite map_app. simpl. intros Hnd. rewrite dict_of_app.
    pose proof (NoDup_remove _ _ _ Hnd) as [H1 H2]. rewrite app_nil_r in *.
    rewrite IH by auto. clear - H2.
    induction l as [|[a b] l IH]; simpl in *; [reflexivity|].
    destruct (eq_dec k a) as [->|]; [tauto|]. now rewrite IH by tauto.
  Qed.
End Dict.

(** mapM facts *)
Lemma mapM_Ok_length {A B} (f : A -> result B) l r : mapM f l = Ok r -> length r = length l.
Proof.
  revert r. induction l as [|a l IH]; simpl; intros r; [now intros [= <-]|].
  destruct (f a); simpl; [|discriminate]. destruct (mapM f l); simpl; [|discriminate].
  intros [= <-]. simpl. f_equal. now apply IH.
Qed.

Lemma mapM_Ok_Forall2 {A B} (f : A -> result B) l r :
  mapM f l = Ok r <-> Forall2 (fun a b => f a = Ok b) l r.
Proof.
  revert r. induction l as [|a l IH]; simpl; intros r.
  - split; [intros [= <-]; constructor|]. now inversion 1.
  - split.
    + destruct (f a) eqn:E; simpl; [|discriminate].
      destruct (mapM f l) eqn:E2; simpl; [|discriminate].
      intros [= <-]. constructor; auto. now apply IH.
    + inversion 1; subst. rewrite H2. simpl. apply IH in H4. now rewrite H4.
Qed.

Lemma mapM_pure {A B} (f : A -> B) l : mapM (fun a => Ok (f a)) l = Ok (map f l).
Proof. induction l; simpl; [reflexivity|]. now rewrite IHl. Qed.

Lemma mapM_ext {A B} (f g : A -> result B) l :
  (forall a, In a l -> f a = g a) -> mapM f l = mapM g l.
Proof.
  induction l; simpl; intros Hf; [reflexivity|].
  rewrite Hf by auto. now rewrite IHl by auto.
Qed.
