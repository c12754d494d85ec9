(** The model's calendar functions compute the components of the civil date. *)
From Coq Require Import String ZArith QArith Qround Qcanon List Lia Bool.
Import ListNotations.
From Verif Require Import Prelude Model_XArray Model_Calendar Proofs_Calendar Spec_Binning Spec_Calendar Model_Binning.
Local Open Scope Z_scope.
Local Open Scope string_scope.

Lemma leap_iff y : is_leap y = true <-> leap y.
Proof.
  unfold is_leap, leap. rewrite orb_true_iff, andb_true_iff, negb_true_iff, !Z.eqb_eq, Z.eqb_neq. tauto.
Qed.
Lemma year_len y n : (leap y -> n = 366) -> (~ leap y -> n = 365) -> n = if is_leap y then 366 else 365.
Proof. intros A B. destruct (is_leap y) eqn:E; [apply A, leap_iff, E|apply B; rewrite <- leap_iff; congruence]. Qed.
Lemma jan1_start y D : jan1 y D -> D = year_start y.
Proof.
  induction 1 as [|y D n _ IH A B|y D n _ IH A B]; [reflexivity| |]; pose proof (year_len _ _ A B) as E; pose proof (year_start_next y) as N; lia.
Qed.
Lemma len_leap y : (leap y -> (if is_leap y then 366 else 365) = 366) /\ (~ leap y -> (if is_leap y then 366 else 365) = 365).
Proof. rewrite <- leap_iff. destruct (is_leap y); split; intros; congruence. Qed.
Lemma start_jan1 y : jan1 y (year_start y).
Proof.
  assert (forall k, 0 <= k -> jan1 (1970 + k) (year_start (1970 + k))) as U.
  { intros k Hk. pattern k. apply natlike_ind; auto; [apply jan1_epoch|]. intros x Hx IH.
    replace (1970 + Z.succ x) with (1970 + x + 1) by lia. rewrite year_start_next. apply jan1_next; auto; apply len_leap. }
  assert (forall k, 0 <= k -> jan1 (1970 - k) (year_start (1970 - k))) as V.
  { intros k Hk. pattern k. apply natlike_ind; auto; [apply jan1_epoch|]. intros x Hx IH.
    pose proof (year_start_next (1970 - Z.succ x)) as N. replace (1970 - Z.succ x + 1) with (1970 - x) in N by lia.
    replace (year_start (1970 - Z.succ x)) with (year_start (1970 - x) - (if is_leap (1970 - Z.succ x) then 366 else 365)) by lia.
    apply jan1_prev; try apply len_leap. replace (1970 - Z.succ x + 1) with (1970 - x) by lia. auto. }
  destruct (Z_le_gt_dec 1970 y); [replace y with (1970 + (y - 1970)) by lia; apply U; lia|replace y with (1970 - (1970 - y)) by lia; apply V; lia].
Qed.

Lemma triple (a b c a' b' c' : Z) : (a, b, c) = (a', b', c') -> a' = a /\ b' = b /\ c' = c.
Proof. intros [= ? ? ?]. auto. Qed.
Definition table (y : Z) : list (Z * Z * Z) :=
  let f := feb y in
  [(1, 0, 31); (2, 31, f); (3, 31 + f, 31); (4, 62 + f, 30); (5, 92 + f, 31); (6, 123 + f, 30); (7, 153 + f, 31);
   (8, 184 + f, 31); (9, 215 + f, 30); (10, 245 + f, 31); (11, 276 + f, 30); (12, 306 + f, 31)].

Lemma month_table y mo n len : month y mo n len -> In (mo, n, len) (table y).
Proof.
  intros H. assert (forall mo n len mo' n' len', In (mo', n', len') (table y) -> mo = mo' -> n = n' -> len = len' -> In (mo, n, len) (table y)) as K.
  { intros; subst; auto. }
  induction H as [|mo n len len' _ IH A B C D E].
  - left. reflexivity.
  - assert (mo + 1 = 2 -> len' = feb y) as F.
    { intros Hm. unfold feb. destruct (is_leap y) eqn:L; [apply C; [exact Hm|apply leap_iff, L]|apply D; [exact Hm|rewrite <- leap_iff; congruence]]. }
    clear C D. unfold table in IH. cbn zeta in IH. set (f := feb y) in *.
    destruct IH as [IH|[IH|[IH|[IH|[IH|[IH|[IH|[IH|[IH|[IH|[IH|[IH|[]]]]]]]]]]]]]; apply triple in IH as (-> & -> & ->); try lia.
    + apply (K _ _ _ 2 31 f); [unfold table; cbn zeta; cbn [In]; fold f; auto 20|lia|lia|apply F; lia].
    + apply (K _ _ _ 3 (31 + f) 31); [unfold table; cbn zeta; cbn [In]; fold f; auto 20|lia|lia|apply B; cbn; tauto].
    + apply (K _ _ _ 4 (62 + f) 30); [unfold table; cbn zeta; cbn [In]; fold f; auto 20|lia|lia|apply A; cbn; tauto].
    + apply (K _ _ _ 5 (92 + f) 31); [unfold table; cbn zeta; cbn [In]; fold f; auto 20|lia|lia|apply B; cbn; tauto].
    + apply (K _ _ _ 6 (123 + f) 30); [unfold table; cbn zeta; cbn [In]; fold f; auto 20|lia|lia|apply A; cbn; tauto].
    + apply (K _ _ _ 7 (153 + f) 31); [unfold table; cbn zeta; cbn [In]; fold f; auto 20|lia|lia|apply B; cbn; tauto].
    + apply (K _ _ _ 8 (184 + f) 31); [unfold table; cbn zeta; cbn [In]; fold f; auto 20|lia|lia|apply B; cbn; tauto].
    + apply (K _ _ _ 9 (215 + f) 30); [unfold table; cbn zeta; cbn [In]; fold f; auto 20|lia|lia|apply A; cbn; tauto].
    + apply (K _ _ _ 10 (245 + f) 31); [unfold table; cbn zeta; cbn [In]; fold f; auto 20|lia|lia|apply B; cbn; tauto].
    + apply (K _ _ _ 11 (276 + f) 30); [unfold table; cbn zeta; cbn [In]; fold f; auto 20|lia|lia|apply A; cbn; tauto].
    + apply (K _ _ _ 12 (306 + f) 31); [unfold table; cbn zeta; cbn [In]; fold f; auto 20|lia|lia|apply B; cbn; tauto].
Qed.
Lemma table_month y mo n len : In (mo, n, len) (table y) -> month y mo n len.
Proof.
  unfold table. cbn zeta.
  assert (feb y = 29 /\ leap y \/ feb y = 28 /\ ~ leap y) as F.
  { unfold feb. destruct (is_leap y) eqn:L; [left; split; auto; apply leap_iff, L|right; split; auto; rewrite <- leap_iff; congruence]. }
  assert (month y 2 31 (feb y)) as M2.
  { apply (month_next y 1 0 31 (feb y)); [apply month_jan| | | | |]; cbn; intros; try lia; destruct F as [[-> ?]|[-> ?]]; auto; contradiction. }
  set (f := feb y) in *. clearbody f. clear F.
  assert (forall mo n len mo' n' len', month y mo n len -> 2 <= mo < 12 -> mo' = mo + 1 -> n' = n + len ->
      len' = (if memb mo' [4; 6; 9; 11] then 30 else 31) -> month y mo' n' len') as ST.
  { intros mo1 n1 l mo' n' l' M R -> -> E. apply month_next; auto; try lia; intros I.
    - rewrite E. replace (memb (mo1 + 1) [4; 6; 9; 11]) with true; auto. symmetry. apply memb_In. exact I.
    - rewrite E. replace (memb (mo1 + 1) [4; 6; 9; 11]) with false; auto. symmetry. apply memb_false. cbn in *. lia. }
  assert (month y 3 (31 + f) 31) as M3 by (apply (ST 2 31 f 3 (31 + f) 31 M2); [lia|lia|lia|reflexivity]).
  assert (month y 4 (62 + f) 30) as M4 by (apply (ST 3 (31 + f) 31 4 (62 + f) 30 M3); [lia|lia|lia|reflexivity]).
  assert (month y 5 (92 + f) 31) as M5 by (apply (ST 4 (62 + f) 30 5 (92 + f) 31 M4); [lia|lia|lia|reflexivity]).
  assert (month y 6 (123 + f) 30) as M6 by (apply (ST 5 (92 + f) 31 6 (123 + f) 30 M5); [lia|lia|lia|reflexivity]).
  assert (month y 7 (153 + f) 31) as M7 by (apply (ST 6 (123 + f) 30 7 (153 + f) 31 M6); [lia|lia|lia|reflexivity]).
  assert (month y 8 (184 + f) 31) as M8 by (apply (ST 7 (153 + f) 31 8 (184 + f) 31 M7); [lia|lia|lia|reflexivity]).
  assert (month y 9 (215 + f) 30) as M9 by (apply (ST 8 (184 + f) 31 9 (215 + f) 30 M8); [lia|lia|lia|reflexivity]).
  assert (month y 10 (245 + f) 31) as M10 by (apply (ST 9 (215 + f) 30 10 (245 + f) 31 M9); [lia|lia|lia|reflexivity]).
  assert (month y 11 (276 + f) 30) as M11 by (apply (ST 10 (245 + f) 31 11 (276 + f) 30 M10); [lia|lia|lia|reflexivity]).
  assert (month y 12 (306 + f) 31) as M12 by (apply (ST 11 (276 + f) 30 12 (306 + f) 31 M11); [lia|lia|lia|reflexivity]).
  clear ST. intros I.
  destruct I as [I|[I|[I|[I|[I|[I|[I|[I|[I|[I|[I|[I|[]]]]]]]]]]]]]; apply triple in I as (-> & -> & ->); auto. apply month_jan.
Qed.

Lemma feb_range y : 28 <= feb y <= 29.
Proof. unfold feb. destruct (is_leap y); lia. Qed.
Lemma table_day y mo n len d : In (mo, n, len) (table y) -> 1 <= d <= len -> month_day (month_lengths y) 1 (n + d - 1) = (mo, d).
Proof.
  pose proof (feb_range y) as F. unfold table, month_lengths. cbn zeta. set (f := feb y) in *. clearbody f. intros I Hd.
  destruct I as [I|[I|[I|[I|[I|[I|[I|[I|[I|[I|[I|[I|[]]]]]]]]]]]]]; apply triple in I as (-> & -> & ->); cbn [month_day];
    repeat match goal with |- context [if Z.ltb ?a ?b then _ else _] => destruct (Z.ltb_spec a b); try lia end; apply f_equal2; lia.
Qed.
Lemma table_end y mo n len : In (mo, n, len) (table y) -> 0 <= n /\ 0 < len /\ n + len <= (if is_leap y then 366 else 365).
Proof.
  unfold table. cbn zeta. unfold feb. destruct (is_leap y); intros I;
  destruct I as [I|[I|[I|[I|[I|[I|[I|[I|[I|[I|[I|[I|[]]]]]]]]]]]]]; apply triple in I as (-> & -> & ->); lia.
Qed.

Section Civil.
  Variables t y mo d doy day h mi s : Z.
  Hypothesis C : civil t y mo d doy day h mi s.
  Let r := t - (((day * 24 + h) * 60 + mi) * 60 + s) * 1000000000.
  Lemma civil_r : 0 <= r < 1000000000 /\ t = (((day * 24 + h) * 60 + mi) * 60 + s) * 1000000000 + r.
  Proof. unfold r. destruct (cv_t _ _ _ _ _ _ _ _ _ C) as (r0 & H & ->). lia. Qed.
  Lemma civil_day : day_of t = day.
  Proof.
    destruct civil_r as [A E]. pose proof (cv_h _ _ _ _ _ _ _ _ _ C). pose proof (cv_mi _ _ _ _ _ _ _ _ _ C). pose proof (cv_s _ _ _ _ _ _ _ _ _ C).
    unfold day_of, ns_day, ns_hour. zdiv.
  Qed.
  Lemma civil_hour : hour_of t = h.
  Proof.
    destruct civil_r as [A E]. pose proof (cv_h _ _ _ _ _ _ _ _ _ C). pose proof (cv_mi _ _ _ _ _ _ _ _ _ C). pose proof (cv_s _ _ _ _ _ _ _ _ _ C).
    unfold hour_of, ns_day, ns_hour. zdiv.
  Qed.
  Lemma civil_minute : t / ns_minute mod 60 = mi.
  Proof.
    destruct civil_r as [A E]. pose proof (cv_h _ _ _ _ _ _ _ _ _ C). pose proof (cv_mi _ _ _ _ _ _ _ _ _ C). pose proof (cv_s _ _ _ _ _ _ _ _ _ C).
    unfold ns_minute, ns_second. zdiv.
  Qed.
  Lemma civil_second : t / ns_second mod 60 = s.
  Proof.
    destruct civil_r as [A E]. pose proof (cv_h _ _ _ _ _ _ _ _ _ C). pose proof (cv_mi _ _ _ _ _ _ _ _ _ C). pose proof (cv_s _ _ _ _ _ _ _ _ _ C).
    unfold ns_second. zdiv.
  Qed.
  Lemma civil_date : year_of t = y /\ dayofyear t = doy /\ month_of t = mo /\ dom_of t = d.
  Proof.
    destruct (cv_day _ _ _ _ _ _ _ _ _ C) as (D & n & len & HD & HM & Hd & Hdoy & Hday).
    apply jan1_start in HD. apply month_table in HM. pose proof (table_end _ _ _ _ HM) as TE.
    assert (year_of t = y) as Y. { unfold year_of. apply year_unique. rewrite civil_day, year_start_next. lia. }
    assert (dayofyear t = doy) as Z. { unfold dayofyear. rewrite Y, civil_day. lia. }
    assert (month_day (month_lengths (year_of t)) 1 (dayofyear t - 1) = (mo, d)) as M. { rewrite Y, Z, Hdoy. apply (table_day y mo n len); auto. }
    unfold month_of, dom_of. rewrite M. auto.
  Qed.
End Civil.

Lemma civil_exists t : exists y mo d doy day h mi s, civil t y mo d doy day h mi s.
Proof.
  pose proof (dayofyear_range t) as R. set (y := year_of t) in *. set (doy := dayofyear t) in *.
  assert (exists mo n len d, In (mo, n, len) (table y) /\ 1 <= d <= len /\ doy = n + d) as (mo & n & len & d & I & Hd & E).
  { pose proof (feb_range y) as F. assert (doy <= 337 + feb y) as Hf by (unfold feb; destruct (is_leap y); lia). clearbody doy. unfold table. cbn zeta. set (f := feb y) in *. clearbody f.
    destruct (Z_le_gt_dec doy 31). { exists 1, 0, 31, doy. split; [cbn [In]; auto 20|lia]. }
    destruct (Z_le_gt_dec doy (31 + f)). { exists 2, 31, f, (doy - 31). split; [cbn [In]; auto 20|lia]. }
    destruct (Z_le_gt_dec doy (62 + f)). { exists 3, (31 + f), 31, (doy - (31 + f)). split; [cbn [In]; auto 20|lia]. }
    destruct (Z_le_gt_dec doy (92 + f)). { exists 4, (62 + f), 30, (doy - (62 + f)). split; [cbn [In]; auto 20|lia]. }
    destruct (Z_le_gt_dec doy (123 + f)). { exists 5, (92 + f), 31, (doy - (92 + f)). split; [cbn [In]; auto 20|lia]. }
    destruct (Z_le_gt_dec doy (153 + f)). { exists 6, (123 + f), 30, (doy - (123 + f)). split; [cbn [In]; auto 20|lia]. }
    destruct (Z_le_gt_dec doy (184 + f)). { exists 7, (153 + f), 31, (doy - (153 + f)). split; [cbn [In]; auto 20|lia]. }
    destruct (Z_le_gt_dec doy (215 + f)). { exists 8, (184 + f), 31, (doy - (184 + f)). split; [cbn [In]; auto 20|lia]. }
    destruct (Z_le_gt_dec doy (245 + f)). { exists 9, (215 + f), 30, (doy - (215 + f)). split; [cbn [In]; auto 20|lia]. }
    destruct (Z_le_gt_dec doy (276 + f)). { exists 10, (245 + f), 31, (doy - (245 + f)). split; [cbn [In]; auto 20|lia]. }
    destruct (Z_le_gt_dec doy (306 + f)). { exists 11, (276 + f), 30, (doy - (276 + f)). split; [cbn [In]; auto 20|lia]. }
    exists 12, (306 + f), 31, (doy - (306 + f)). split; [cbn [In]; auto 20|lia]. }
  exists y, mo, d, doy, (day_of t), (hour_of t), (t / ns_minute mod 60), (t / ns_second mod 60). split.
  - exists (year_start y), n, len. split; [apply start_jan1|]. split; [apply table_month, I|]. split; auto. split; auto.
    unfold doy, dayofyear. fold y. lia.
  - pose proof (hour_range t). lia.
  - apply Z.mod_pos_bound. reflexivity.
  - apply Z.mod_pos_bound. reflexivity.
  - exists (t mod 1000000000). split; [apply Z.mod_pos_bound; reflexivity|]. unfold day_of, hour_of, ns_minute, ns_second, ns_day, ns_hour. zdiv.
Qed.
