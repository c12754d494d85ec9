(** Strings: separators, printed integers. *)
From Coq Require Import Ascii String ZArith List Bool Lia DecimalString DecimalZ Decimal.
Import ListNotations.
From Verif Require Import Prelude Model_Spatial.
Local Open Scope string_scope.
Local Open Scope list_scope.

Definition chars (s : string) : list ascii := list_ascii_of_string s.
Lemma chars_app s t : chars (s ++ t)%string = chars s ++ chars t.
Proof. induction s as [|c s IH]; [reflexivity|]. cbn. f_equal. exact IH. Qed.
Lemma chars_inj s t : chars s = chars t -> s = t.
Proof. intros H. rewrite <- (string_of_list_ascii_of_string s), <- (string_of_list_ascii_of_string t). unfold chars in H. now rewrite H. Qed.
Lemma sapp_assoc (a b c : string) : ((a ++ b) ++ c = a ++ b ++ c)%string.
Proof. induction a as [|x a IH]; cbn; [reflexivity|]. now rewrite IH. Qed.
Lemma sapp_nil_r (a : string) : (a ++ "" = a)%string.
Proof. induction a as [|x a IH]; cbn; [reflexivity|]. now rewrite IH. Qed.
Lemma sapp_inj_l (p a b : string) : (p ++ a = p ++ b)%string -> a = b.
Proof. induction p as [|c p IH]; cbn; [auto|]. intros [= H]. auto. Qed.
Lemma sapp_inj_r (a b p : string) : (a ++ p = b ++ p)%string -> a = b.
Proof. intros H. apply chars_inj. apply (f_equal chars) in H. rewrite !chars_app in H. now apply app_inv_tail in H. Qed.
(** Everything up to the first occurrence of a character. *)
Lemma split_at c (a b x y : string) : ~ In c (chars a) -> ~ In c (chars b) -> (a ++ String c x = b ++ String c y)%string -> a = b /\ x = y.
Proof.
  revert b. induction a as [|u a IH]; intros [|v b] Ha Hb H; cbn in *.
  - injection H as ->. auto.
  - injection H as <- _. exfalso. apply Hb. now left.
  - injection H as -> _. exfalso. apply Ha. now left.
  - injection H as <- H. destruct (IH b) as [-> ->]; auto.
Qed.

(** Printed integers. *)
Definition digit (c : ascii) : bool := (48 <=? nat_of_ascii c)%nat && (nat_of_ascii c <=? 57)%nat.
Lemma uint_digits d c : In c (chars (NilEmpty.string_of_uint d)) -> digit c = true.
Proof. induction d; cbn; intros H; [destruct H|..]; destruct H as [<-|H]; auto. Qed.
Lemma str_int_inj a b : str_int a = str_int b -> a = b.
Proof.
  unfold str_int. intros H. assert (Z.to_int a = Z.to_int b) as E. { apply (f_equal NilEmpty.int_of_string) in H. rewrite !NilEmpty.isi in H. congruence. }
  rewrite <- (DecimalZ.of_to a), <- (DecimalZ.of_to b). now rewrite E.
Qed.
Lemma str_int_chars a c : In c (chars (str_int a)) -> digit c = true \/ (c = "-"%char /\ (a < 0)%Z).
Proof.
  unfold str_int. destruct a as [|p|p]; cbn [Z.to_int NilEmpty.string_of_int].
  - intros [<-|[]]. auto.
  - intros H. left. exact (uint_digits _ _ H).
  - cbn. intros [<-|H]; [right; split; [reflexivity|lia]|left; exact (uint_digits _ _ H)].
Qed.
Lemma str_int_no a c : digit c = false -> c <> "-"%char -> ~ In c (chars (str_int a)).
Proof. intros D N H. apply str_int_chars in H. destruct H as [H|[H _]]; congruence. Qed.
Lemma str_nat_no a c : (0 <= a)%Z -> digit c = false -> ~ In c (chars (str_int a)).
Proof. intros P D H. apply str_int_chars in H. destruct H as [H|[_ H]]; [congruence|lia]. Qed.
(** A number before a separator. *)
Lemma split_int a b c x y : digit c = false -> c <> "-"%char -> (str_int a ++ String c x = str_int b ++ String c y)%string -> a = b /\ x = y.
Proof. intros D N H. apply split_at in H; try (now apply str_int_no). destruct H as [H ->]. split; [now apply str_int_inj|reflexivity]. Qed.
