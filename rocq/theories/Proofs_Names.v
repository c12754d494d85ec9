(** Reading names back. *)
From Coq Require Import Ascii String ZArith List Bool Lia Reals.
Import ListNotations.
From Verif Require Import Prelude Values Model_XArray Model_MetricsBase Model_Deterministic Model_Categorical Model_Ensemble Model_Wrappers Model_Spatial Proofs_Strings Spec_Names.
Local Open Scope string_scope.
Local Open Scope list_scope.

Lemma list_split {A} (c : A) (a b x y : list A) : ~ In c a -> ~ In c b -> a ++ c :: x = b ++ c :: y -> a = b /\ x = y.
Proof.
  revert b. induction a as [|u a IH]; intros [|v b] Ha Hb H; cbn in *.
  - injection H as ->. auto.
  - injection H as -> _. exfalso. auto.
  - injection H as <- _. exfalso. auto.
  - injection H as -> H. apply IH in H; auto. destruct H as [-> ->]. auto.
Qed.
Lemma list_split_last {A} (c : A) (a b x y : list A) : ~ In c x -> ~ In c y -> a ++ c :: x = b ++ c :: y -> a = b /\ x = y.
Proof.
  intros Hx Hy H. apply (f_equal (@rev A)) in H. rewrite !rev_app_distr in H. cbn [rev] in H. rewrite <- !app_assoc in H. cbn [app] in H.
  apply list_split in H; [|now rewrite <- in_rev..]. destruct H as [E1 E2]. apply (f_equal (@rev A)) in E1, E2. rewrite !rev_involutive in E1, E2. auto.
Qed.
(** Everything after the last occurrence of a character. *)
Lemma split_last c (a b x y : string) : ~ In c (chars x) -> ~ In c (chars y) -> (a ++ String c x = b ++ String c y)%string -> a = b /\ x = y.
Proof.
  intros Hx Hy H. apply (f_equal chars) in H. rewrite !chars_app in H. change (chars (String c x)) with (c :: chars x) in H. change (chars (String c y)) with (c :: chars y) in H.
  apply list_split_last in H; auto. destruct H as [E1 E2]. split; now apply chars_inj.
Qed.
(** Two different endings. *)
Lemma endings (a b x y : string) : rev (chars x) <> [] -> (a ++ x = b ++ y)%string -> rev (chars x) ++ rev (chars a) = rev (chars y) ++ rev (chars b).
Proof. intros _ H. apply (f_equal chars) in H. rewrite !chars_app in H. apply (f_equal (@rev _)) in H. now rewrite !rev_app_distr in H. Qed.

(** ** Lists of numbers *)
Lemma str_int_nonempty n : str_int n <> "".
Proof.
  unfold str_int. destruct n as [|p|p]; cbn; try discriminate. destruct (Pos.to_uint p) eqn:E; try discriminate. exfalso. exact (DecimalPos.Unsigned.to_uint_nonnil p E).
Qed.
Lemma join_comma_inj f (Hf : forall x : Z, f x <> "" /\ ~ In ","%char (chars (f x))) (Hi : forall x y, f x = f y -> x = y) l l' : join_comma (map f l) = join_comma (map f l') -> l = l'.
Proof.
  revert l'. induction l as [|x l IH]; intros [|y l'] H; [reflexivity|..].
  - destruct l' as [|z l']; cbn [map join_comma] in H; [destruct (Hf y) as [N _]; congruence|]. destruct (Hf y) as [N _]. destruct (f y); [contradiction|discriminate].
  - destruct l as [|z l]; cbn [map join_comma] in H; [destruct (Hf x) as [N _]; congruence|]. destruct (Hf x) as [N _]. destruct (f x); [contradiction|discriminate].
  - destruct l as [|x' l], l' as [|y' l'].
    + cbn [map join_comma] in H. apply Hi in H. congruence.
    + exfalso. cbn [map] in H. change (f x = f y ++ String "," (join_comma (f y' :: map f l')))%string in H. apply (proj2 (Hf x)). rewrite H, chars_app. apply in_or_app. right. now left.
    + exfalso. cbn [map] in H. change (f x ++ String "," (join_comma (f x' :: map f l)) = f y)%string in H. apply (proj2 (Hf y)). rewrite <- H, chars_app. apply in_or_app. right. now left.
    + cbn [map] in H. change (f x ++ String "," (join_comma (map f (x' :: l))) = f y ++ String "," (join_comma (map f (y' :: l'))))%string in H.
      apply split_at in H; [|apply Hf..]. destruct H as [E1 E2]. apply Hi in E1. apply IH in E2. congruence.
Qed.
Lemma join_chars f l c : In c (chars (join_comma (map f l))) -> c = ","%char \/ exists x : Z, In x l /\ In c (chars (f x)).
Proof.
  induction l as [|x l IH]; [intros []|]. destruct l as [|y l].
  - cbn [map join_comma]. intros H. right. exists x. split; [now left|exact H].
  - cbn [map] in *. change (join_comma (f x :: f y :: map f l)) with (f x ++ String "," (join_comma (f y :: map f l)))%string. rewrite chars_app, in_app_iff. intros [H|[H|H]]; [right; exists x; split; [now left|exact H]|now left|]. apply IH in H. destruct H as [H|(z & I & H)]; [now left|]. right. exists z. split; [now right|exact H].
Qed.
Definition size_names (s : sizes) : list Z := match s with One n => [n] | Many l => l end.
Lemma size_names_spec s s' : size_names s = size_names s' <-> same_sizes s s'.
Proof. destruct s, s'; cbn; split; congruence. Qed.
Lemma suffix_of s w : get_suffix s w = (join_comma (map str_int (size_names s)) ++ if w then "_wrap_longitude" else "")%string.
Proof. destruct s; reflexivity. Qed.
Lemma str_int_comma x : str_int x <> "" /\ ~ In ","%char (chars (str_int x)).
Proof. split; [apply str_int_nonempty|]. apply str_int_no; [reflexivity|discriminate]. Qed.
Lemma get_suffix_inj s w s' w' : get_suffix s w = get_suffix s' w' <-> same_sizes s s' /\ w = w'.
Proof.
  rewrite !suffix_of, <- size_names_spec. split; [|intros [-> ->]; reflexivity]. intros H.
  assert (forall s0 : sizes, ~ In "_"%char (chars (join_comma (map str_int (size_names s0))))) as U.
  { intros s0 I. apply join_chars in I. destruct I as [I|(x & _ & I)]; [discriminate|]. revert I. apply str_int_no; [reflexivity|discriminate]. }
  destruct w, w'.
  - apply sapp_inj_r in H. split; [|reflexivity]. exact (join_comma_inj _ str_int_comma str_int_inj _ _ H).
  - exfalso. rewrite sapp_nil_r in H. apply (U s'). rewrite <- H, chars_app. apply in_or_app. right. now left.
  - exfalso. rewrite sapp_nil_r in H. apply (U s). rewrite H, chars_app. apply in_or_app. right. now left.
  - rewrite !sapp_nil_r in H. split; [|reflexivity]. exact (join_comma_inj _ str_int_comma str_int_inj _ _ H).
Qed.
Lemma skipna_suffix d d' k k' : (d ++ "_skipna_ensemble_" ++ bool_name k = d' ++ "_skipna_ensemble_" ++ bool_name k')%string <-> d = d' /\ k = k'.
Proof.
  split; [|intros [-> ->]; reflexivity]. intros H. destruct k, k'; [|exfalso|exfalso|]; try (apply sapp_inj_r in H; auto; fail); apply endings in H; try discriminate; cbn in H; discriminate.
Qed.
Lemma spread_suffix (d d' : string) (f f' o o' : bool) :
  (d ++ "_" ++ (if f then "fair" else "unfair") ++ "_" ++ (if o then "targets" else "predictions") = d' ++ "_" ++ (if f' then "fair" else "unfair") ++ "_" ++ (if o' then "targets" else "predictions"))%string <-> d = d' /\ f = f' /\ o = o'.
Proof.
  split; [|intros (-> & -> & ->); reflexivity]. intros H.
  destruct f, f', o, o'; try (apply sapp_inj_r in H; auto; fail); exfalso; apply endings in H; try (destruct o, o'; discriminate); try discriminate; cbn in H; discriminate.
Qed.

(** ** Tokens separated by '_' *)
Fixpoint tokens (s : string) : list string :=
  match s with
  | EmptyString => [""]
  | String c s' => match tokens s' with
                   | [] => [String c ""]
                   | t :: ts => if Ascii.eqb c "_" then "" :: t :: ts else String c t :: ts
                   end
  end.
Lemma tokens_nonempty s : tokens s <> [].
Proof. destruct s as [|c s]; cbn; [discriminate|]. destruct (tokens s); [discriminate|]. destruct (Ascii.eqb c "_"); discriminate. Qed.
Lemma tokens_app a b : tokens (a ++ "_" ++ b)%string = tokens a ++ tokens b.
Proof.
  induction a as [|c a IH].
  - change ("" ++ "_" ++ b)%string with (String "_" b). cbn [tokens]. destruct (tokens b) eqn:E; [now apply tokens_nonempty in E|]. reflexivity.
  - change (String c a ++ "_" ++ b)%string with (String c (a ++ "_" ++ b)). cbn [tokens]. rewrite IH. destruct (tokens a) as [|t ts] eqn:E; [now apply tokens_nonempty in E|]. cbn [app]. now destruct (Ascii.eqb c "_").
Qed.
Lemma tokens_one s : ~ In "_"%char (chars s) -> tokens s = [s].
Proof.
  induction s as [|c s IH]; intros H; [reflexivity|]. cbn [tokens]. rewrite IH; [|intros I; apply H; now right]. destruct (Ascii.eqb c "_") eqn:E; [apply Ascii.eqb_eq in E; subst c; exfalso; apply H; now left|reflexivity].
Qed.
Lemma tokens_join l : l <> [] -> tokens (join_underscore l) = flat_map tokens l.
Proof.
  induction l as [|x l IH]; [contradiction|]. intros _. destruct l as [|y l]; [cbn; now rewrite app_nil_r|]. change (join_underscore (x :: y :: l)) with (x ++ "_" ++ join_underscore (y :: l))%string. rewrite tokens_app, IH by discriminate. reflexivity.
Qed.
