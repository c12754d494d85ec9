(** Lemmas for the benchmark script. *)
From Coq Require Import String Ascii ZArith Lia List Bool Sorting.Sorted.
Import ListNotations.
From Verif Require Import Prelude Values Model_XArray Model_MetricsBase Model_Calendar Model_TimeChunks Model_Combine Model_Benchmark
  Spec_Calendar Spec_Benchmark Proofs_Calendar Proofs_Calendar2.
Local Open Scope Z_scope.
Local Open Scope string_scope.
Local Open Scope list_scope.

(** ** np.arange *)
Lemma arange_every a b step ts : 0 < step -> arange a b step = Ok ts -> every a b step ts.
Proof.
  intros Hs H. unfold arange in H. destruct (step =? 0)%Z eqn:E; [apply Z.eqb_eq in E; lia|]. injection H as <-. intros k t.
  assert (forall j : nat, (j < Z.to_nat (ceil_div (b - a) step))%nat <-> a + Z.of_nat j * step < b) as Q.
  { intros j. unfold ceil_div. pose proof (Z.div_mod (- (b - a)) step ltac:(lia)) as D. pose proof (Z.mod_pos_bound (- (b - a)) step Hs) as M. split; intros H; [|]; nia. }
  destruct (Nat.lt_ge_cases k (Z.to_nat (ceil_div (b - a) step))) as [L|L].
  - rewrite (map_nth_error (fun k => a + Z.of_nat k * step) k _ (d := k)).
    + apply Q in L. split; [intros [= <-]; auto|intros [-> _]; reflexivity].
    + rewrite nth_error_nth' with (d := 0%nat) by (rewrite seq_length; exact L). rewrite seq_nth by exact L. reflexivity.
  - rewrite (proj2 (nth_error_None _ _)) by (rewrite map_length, seq_length; exact L). split; [discriminate|]. intros [-> H]. apply Q in H. lia.
Qed.
Lemma arange_total a b step : step <> 0 -> exists ts, arange a b step = Ok ts.
Proof. intros H. unfold arange. destruct (Z.eqb_spec step 0); [contradiction|eauto]. Qed.
Lemma every_In a b step ts : 0 < step -> every a b step ts -> forall t, In t ts <-> a <= t < b /\ (step | t - a).
Proof.
  intros Hs E t. split.
  - intros I. apply In_nth_error in I. destruct I as (k & I). apply E in I. destruct I as [-> L]. split; [nia|]. exists (Z.of_nat k). ring.
  - intros [[L1 L2] (q & Q)]. apply nth_error_In with (Z.to_nat q). apply E. assert (0 <= q) by nia. split; [rewrite Z2Nat.id by assumption; lia|exact L2].
Qed.
Lemma every_sorted a b step ts : 0 < step -> every a b step ts -> StronglySorted Z.lt ts.
Proof.
  revert a. induction ts as [|x ts IH]; intros a Hs E; constructor.
  - apply (IH (a + step) Hs). intros k t. specialize (E (S k) t). cbn [nth_error] in E. rewrite E. split; intros [-> L]; split; lia.
  - apply Forall_forall. intros y I. apply In_nth_error in I. destruct I as (k & I). pose proof (proj1 (E (S k) y) I) as [Ey _]. pose proof (proj1 (E 0%nat x) eq_refl) as [Ex _]. nia.
Qed.

(** ** Years *)
Lemma digit_value_ok n : (n <= 9)%nat -> digit_value (digit_char n) = Some (Z.of_nat n).
Proof. intros H. do 10 (destruct n as [|n]; [reflexivity|]). lia. Qed.
Lemma year_number_ok s y : four_digits s y -> year_number s = Ok y.
Proof.
  intros (a & b & c & d & (Ha & Hb & Hc & Hd) & -> & ->). cbn [year_number]. rewrite !digit_value_ok by assumption. f_equal. lia.
Qed.
Lemma digit_inv c v : digit_value c = Some v -> exists n, (n <= 9)%nat /\ c = digit_char n /\ v = Z.of_nat n.
Proof.
  unfold digit_value. cbv zeta. set (m := nat_of_ascii c). destruct ((48 <=? Z.of_nat m)%Z && (Z.of_nat m <=? 57)%Z) eqn:E; [|discriminate]. intros [= <-]. apply andb_true_iff in E. destruct E as [A B]. apply Z.leb_le in A, B.
  exists (m - 48)%nat. split; [lia|]. split; [|lia]. unfold digit_char. replace (48 + (m - 48))%nat with m by lia. symmetry. apply ascii_nat_embedding.
Qed.
Lemma year_number_inv s y : year_number s = Ok y -> four_digits s y.
Proof.
  destruct s as [|c0 [|c1 [|c2 [|c3 [|c4 s]]]]]; try discriminate. cbn [year_number]. destruct (digit_value c0) eqn:E0; [|discriminate]. destruct (digit_value c1) eqn:E1; [|discriminate]. destruct (digit_value c2) eqn:E2; [|discriminate]. destruct (digit_value c3) eqn:E3; [|discriminate].
  apply digit_inv in E0, E1, E2, E3. destruct E0 as (a & Ha & -> & ->), E1 as (b & Hb & -> & ->), E2 as (c & Hc & -> & ->), E3 as (d & Hd & -> & ->). intros [= <-]. exists a, b, c, d. split; [auto|]. split; [reflexivity|]. lia.
Qed.
Lemma digit_char_inj a b : (a <= 9)%nat -> (b <= 9)%nat -> digit_char a = digit_char b -> a = b.
Proof. intros Ha Hb E. assert (Some (Z.of_nat a) = Some (Z.of_nat b)) as K by (rewrite <- !digit_value_ok by assumption; congruence). injection K. lia. Qed.
(** The string 2022 is the year 2022. *)
Lemma year_string_eqb s y s' y' : four_digits s y -> four_digits s' y' -> String.eqb s s' = (y =? y')%Z.
Proof.
  intros (a & b & c & d & (Ha & Hb & Hc & Hd) & -> & ->) (a' & b' & c' & d' & (Ha' & Hb' & Hc' & Hd') & -> & ->).
  apply Bool.eq_iff_eq_true. rewrite String.eqb_eq, Z.eqb_eq. split.
  - intros [= Ea Eb Ec Ed]. apply digit_char_inj in Ea, Eb, Ec, Ed; auto. subst. reflexivity.
  - intros E. assert (a = a' /\ b = b' /\ c = c' /\ d = d') as (-> & -> & -> & ->) by lia. reflexivity.
Qed.
Lemma y2022 : four_digits "2022" 2022. Proof. exists 2%nat, 0%nat, 2%nat, 2%nat. split; [lia|]. split; reflexivity. Qed.
Lemma y2020 : four_digits "2020" 2020. Proof. exists 2%nat, 0%nat, 2%nat, 0%nat. split; [lia|]. split; reflexivity. Qed.
Lemma date_jan1 y h : date y 1 1 h = days (year_start y) + hours h.
Proof. unfold date, days, hours, ns_day, ns_hour. change (sumz (firstn (Z.to_nat (1 - 1)) (month_lengths y))) with 0. ring. Qed.
Lemma date_december y d h : date y 12 d h = days (year_start (y + 1)) - days (32 - d) + hours h.
Proof.
  unfold date, days, hours, ns_day, ns_hour. rewrite year_start_next. change (sumz (firstn (Z.to_nat (12 - 1)) (month_lengths y))) with (31 + (feb y + 275)). unfold feb. destruct (is_leap y); ring.
Qed.
Lemma divides_day n : (hours 12 | days n) /\ (hours 24 | days n).
Proof. unfold days, hours. split; [exists (2 * n); ring|exists n; ring]. Qed.
