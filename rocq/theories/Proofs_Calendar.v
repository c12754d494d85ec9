(** The calendar functions are what they should be. *)
From Coq Require Import ZArith List Lia Bool.
Import ListNotations.
From Verif Require Import Model_Calendar.
Local Open Scope Z_scope.

Ltac zdiv := Z.div_mod_to_equations; lia.

Lemma year_start_next y : year_start (y + 1) = year_start y + (if is_leap y then 366 else 365).
Proof.
  unfold year_start, is_leap, leaps_before.
  destruct (y mod 4 =? 0) eqn:E4; destruct (y mod 100 =? 0) eqn:E100; destruct (y mod 400 =? 0) eqn:E400;
    rewrite ?Z.eqb_eq, ?Z.eqb_neq in *; cbn [andb orb negb]; change ((1970 - 1) / 4) with 492; change ((1970 - 1) / 100) with 19; change ((1970 - 1) / 400) with 4; zdiv.
Qed.
Lemma year_start_mono a b : a < b -> year_start a < year_start b.
Proof.
  intros H. assert (forall n, 0 <= n -> year_start a < year_start (a + 1 + n)) as K.
  { intros n Hn. pattern n. apply natlike_ind; [| |exact Hn].
    - rewrite Z.add_0_r, year_start_next. destruct (is_leap a); lia.
    - intros x Hx IH. replace (a + 1 + Z.succ x) with (a + 1 + x + 1) by lia. rewrite year_start_next. destruct (is_leap (a + 1 + x)); lia. }
  specialize (K (b - a - 1) ltac:(lia)). now replace (a + 1 + (b - a - 1)) with b in K by lia.
Qed.
Lemma year_of_day_spec d : year_start (year_of_day d) <= d < year_start (year_of_day d + 1).
Proof.
  unfold year_of_day. set (y := 400 * d / 146097 + 1970).
  assert (year_start (y - 1) <= d < year_start (y + 2)) as H.
  { unfold year_start, leaps_before. change ((1970 - 1) / 4) with 492; change ((1970 - 1) / 100) with 19; change ((1970 - 1) / 400) with 4. unfold y. zdiv. }
  destruct (d <? year_start y) eqn:E1; rewrite ?Z.ltb_lt, ?Z.ltb_ge in *; [replace (y - 1 + 1) with y by lia; lia|].
  destruct (year_start (y + 1) <=? d) eqn:E2; rewrite ?Z.leb_le, ?Z.leb_gt in *; [replace (y + 1 + 1) with (y + 2) by lia; lia|lia].
Qed.
Lemma year_unique d y : year_start y <= d < year_start (y + 1) -> year_of_day d = y.
Proof.
  intros H. pose proof (year_of_day_spec d) as S. set (z := year_of_day d) in *.
  destruct (Z.lt_trichotomy z y) as [L|[E|L]]; auto; exfalso.
  - assert (year_start (z + 1) <= year_start y); [|lia]. destruct (Z.eq_dec (z + 1) y) as [<-|]; [lia|]. apply Z.lt_le_incl, year_start_mono. lia.
  - assert (year_start (y + 1) <= year_start z); [|lia]. destruct (Z.eq_dec (y + 1) z) as [<-|]; [lia|]. apply Z.lt_le_incl, year_start_mono. lia.
Qed.
Lemma dayofyear_range t : 1 <= dayofyear t <= (if is_leap (year_of t) then 366 else 365).
Proof.
  unfold dayofyear. pose proof (year_of_day_spec (day_of t)) as S. fold (year_of t) in S. rewrite year_start_next in S. destruct (is_leap (year_of t)); lia.
Qed.
Lemma hour_range t : 0 <= hour_of t <= 23.
Proof. unfold hour_of, ns_day, ns_hour. zdiv. Qed.
Lemma time_decompose t : exists r, 0 <= r < ns_hour /\
  t = (year_start (year_of t) + (dayofyear t - 1)) * ns_day + hour_of t * ns_hour + r.
Proof.
  exists (t mod ns_hour). split; [apply Z.mod_pos_bound; reflexivity|].
  unfold dayofyear, hour_of, day_of. replace (year_start (year_of t) + (t / ns_day - year_start (year_of t) + 1 - 1)) with (t / ns_day) by lia.
  unfold ns_day, ns_hour. zdiv.
Qed.
Lemma day_hour_of D h r : 0 <= h <= 23 -> 0 <= r < ns_hour -> day_of (D * ns_day + h * ns_hour + r) = D /\ hour_of (D * ns_day + h * ns_hour + r) = h.
Proof. unfold day_of, hour_of, ns_day, ns_hour. intros. zdiv. Qed.
Lemma month_day_range ls m d : (forall l, In l ls -> 0 < l) -> 0 <= d < fold_right Z.add 0 ls ->
  m <= fst (month_day ls m d) < m + Z.of_nat (length ls) /\
  1 <= snd (month_day ls m d) <= nth (Z.to_nat (fst (month_day ls m d) - m)) ls 0 /\
  d = fold_right Z.add 0 (firstn (Z.to_nat (fst (month_day ls m d) - m)) ls) + snd (month_day ls m d) - 1.
Proof.
  revert m d. induction ls as [|l ls IH]; intros m d Hp Hd; simpl in Hd; [lia|].
  cbn [month_day]. destruct (d <? l) eqn:E; rewrite ?Z.ltb_lt, ?Z.ltb_ge in E.
  - cbn [fst snd]. rewrite Z.sub_diag. simpl. lia.
  - destruct (IH (m + 1) (d - l)) as (H1 & H2 & H3); [intros; apply Hp; now right|lia|].
    set (q := month_day ls (m + 1) (d - l)) in *.
    replace (Z.to_nat (fst q - m)) with (S (Z.to_nat (fst q - (m + 1)))) by lia. simpl.
    split; [lia|]. split; [lia|]. simpl in H3. lia.
Qed.
Lemma month_range t : 1 <= month_of t <= 12 /\ 1 <= dom_of t <= 31.
Proof.
  unfold month_of, dom_of. pose proof (dayofyear_range t) as R.
  destruct (month_day_range (month_lengths (year_of t)) 1 (dayofyear t - 1)) as (H1 & H2 & _).
  - unfold month_lengths, feb. destruct (is_leap _); simpl; intuition subst; lia.
  - unfold month_lengths, feb. destruct (is_leap _); simpl; lia.
  - split; [change (Z.of_nat (length (month_lengths (year_of t)))) with 12 in H1; lia|].
    split; [lia|]. destruct H2 as [_ H2]. etransitivity; [exact H2|].
    generalize (Z.to_nat (fst (month_day (month_lengths (year_of t)) 1 (dayofyear t - 1)) - 1)). intros n.
    unfold month_lengths, feb. destruct (is_leap _); do 13 (destruct n as [|n]; [simpl; lia|]); destruct n; simpl; lia.
Qed.
