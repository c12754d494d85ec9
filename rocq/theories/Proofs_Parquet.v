From Coq Require Import Ascii String ZArith List Bool Lia.
Import ListNotations.
From Verif Require Import Prelude Values Model_XArray Model_Calendar Proofs_Calendar Spec_Calendar Proofs_Calendar2 Model_Spatial Model_Parquet Spec_Parquet Proofs_Strings.
Local Open Scope string_scope.
Local Open Scope list_scope.
Local Open Scope Z_scope.

(** ** Units of time *)
Lemma month_day_ge ls m d : m <= fst (month_day ls m d).
Proof. revert m d. induction ls as [|l ls IH]; intros m d; cbn [month_day]; [cbn; lia|]. destruct (d <? l); [cbn; lia|]. specialize (IH (m + 1) (d - l)). lia. Qed.
Lemma month_day_mono ls m d d' : d <= d' -> fst (month_day ls m d) <= fst (month_day ls m d').
Proof.
  revert m d d'. induction ls as [|l ls IH]; intros m d d' H; cbn [month_day]; [cbn; lia|]. destruct (d <? l) eqn:E; destruct (d' <? l) eqn:E'; rewrite ?Z.ltb_lt, ?Z.ltb_ge in *; cbn [fst].
  - lia.
  - pose proof (month_day_ge ls (m + 1) (d' - l)). lia.
  - lia.
  - apply IH. lia.
Qed.
Lemma day_of_mono t t' : t <= t' -> day_of t <= day_of t'.
Proof. intros H. unfold day_of. apply Z.div_le_mono; [reflexivity|exact H]. Qed.
Lemma year_of_mono t t' : t <= t' -> year_of t <= year_of t'.
Proof.
  intros H. apply day_of_mono in H. unfold year_of. pose proof (year_of_day_spec (day_of t)) as S. pose proof (year_of_day_spec (day_of t')) as S'.
  destruct (Z_le_gt_dec (year_of_day (day_of t)) (year_of_day (day_of t'))) as [L|L]; [exact L|]. exfalso.
  destruct (Z.eq_dec (year_of_day (day_of t)) (year_of_day (day_of t') + 1)) as [E|E]; [rewrite E in S; lia|].
  pose proof (year_start_mono (year_of_day (day_of t') + 1) (year_of_day (day_of t))). lia.
Qed.
Lemma to_unit_mono u t t' : t <= t' -> to_unit u t <= to_unit u t'.
Proof.
  intros H. destruct u; cbn [to_unit].
  - pose proof (year_of_mono _ _ H). pose proof (month_range t). pose proof (month_range t'). destruct (Z.eq_dec (year_of t) (year_of t')) as [E|E]; [|lia].
    assert (month_of t <= month_of t'); [|lia]. unfold month_of. rewrite E. apply month_day_mono. unfold dayofyear. rewrite E. pose proof (day_of_mono _ _ H). lia.
  - now apply day_of_mono.
  - apply Z.div_le_mono; [reflexivity|exact H].
Qed.
Lemma table_mono y mo n len mo' n' len' : In (mo, n, len) (table y) -> In (mo', n', len') (table y) -> mo <= mo' -> n <= n'.
Proof.
  pose proof (feb_range y) as F. unfold table. cbn zeta. set (f := feb y) in *. clearbody f. intros I I' L.
  destruct I as [I|[I|[I|[I|[I|[I|[I|[I|[I|[I|[I|[I|[]]]]]]]]]]]]]; apply triple in I as (-> & -> & ->);
  destruct I' as [I|[I|[I|[I|[I|[I|[I|[I|[I|[I|[I|[I|[]]]]]]]]]]]]]; apply triple in I as (-> & -> & ->); lia.
Qed.
Lemma table_has y mo : 1 <= mo <= 12 -> exists n len, In (mo, n, len) (table y).
Proof.
  intros H. assert (mo = 1 \/ mo = 2 \/ mo = 3 \/ mo = 4 \/ mo = 5 \/ mo = 6 \/ mo = 7 \/ mo = 8 \/ mo = 9 \/ mo = 10 \/ mo = 11 \/ mo = 12) as C by lia.
  unfold table. cbn zeta. decompose [or] C; subst mo; eexists; eexists; cbn [In]; eauto 20.
Qed.
(** The first instant of a unit. *)
Lemma first_instant u n : exists t0, to_unit u t0 = n /\ forall t, n <= to_unit u t -> t0 <= t.
Proof.
  destruct u; cbn [to_unit].
  - set (y := 1970 + n / 12). set (mo := n mod 12 + 1). assert (1 <= mo <= 12) as Hmo by (unfold mo; pose proof (Z.mod_pos_bound n 12); lia).
    destruct (table_has y mo Hmo) as (k & len & I). pose proof (table_end _ _ _ _ I) as TE. exists ((year_start y + k) * ns_day).
    assert (day_of ((year_start y + k) * ns_day) = year_start y + k) as Dy by (unfold day_of; apply Z.div_mul; discriminate).
    assert (year_of ((year_start y + k) * ns_day) = y) as Y. { unfold year_of. rewrite Dy. apply year_unique. rewrite year_start_next. lia. }
    assert (month_of ((year_start y + k) * ns_day) = mo) as M. { unfold month_of, dayofyear. rewrite Y, Dy. replace (year_start y + k - year_start y + 1 - 1) with (k + 1 - 1) by lia. rewrite (table_day y mo k len 1 I) by lia. reflexivity. }
    split.
    + rewrite Y, M. unfold y, mo. pose proof (Z.div_mod n 12). lia.
    + intros t H. destruct (civil_exists t) as (y' & mo' & d' & doy' & day' & h' & mi' & s' & C). pose proof (civil_date _ _ _ _ _ _ _ _ _ C) as (Y' & DY' & M' & D'). pose proof (civil_day _ _ _ _ _ _ _ _ _ C) as Da.
      destruct (cv_day _ _ _ _ _ _ _ _ _ C) as (D & k' & len' & HD & HM & Hd & Hdoy & Hday). apply jan1_start in HD. apply month_table in HM. pose proof (table_end _ _ _ _ HM) as TE'.
      assert (1 <= mo' <= 12) as Hmo' by (pose proof (month_range t); lia). rewrite Y', M' in H. assert (n = (y - 1970) * 12 + (mo - 1)) as En by (unfold y, mo; pose proof (Z.div_mod n 12); lia).
      assert (year_start y + k <= day') as K.
      { destruct (Z.eq_dec y y') as [E|E].
        - rewrite <- E in HM, HD, H. pose proof (table_mono _ _ _ _ _ _ _ I HM). clearbody y mo. lia.
        - assert (y < y') as L by lia. assert (year_start (y + 1) <= year_start y') as L'. { destruct (Z.eq_dec (y + 1) y') as [->|]; [lia|]. pose proof (year_start_mono (y + 1) y'). lia. } rewrite year_start_next in L'. lia. }
      rewrite <- Da in K. unfold day_of in K. pose proof (Z.mul_div_le t ns_day ltac:(reflexivity)). assert (0 < ns_day) by reflexivity. nia.
  - exists (n * ns_day). split; [unfold day_of; apply Z.div_mul; discriminate|]. intros t H. unfold day_of in H. pose proof (Z.mul_div_le t ns_day ltac:(reflexivity)). assert (0 < ns_day) by reflexivity. nia.
  - exists (n * ns_hour). split; [apply Z.div_mul; discriminate|]. intros t H. pose proof (Z.mul_div_le t ns_hour ltac:(reflexivity)). assert (0 < ns_hour) by reflexivity. nia.
Qed.
Lemma In_arange a b n : In n (arange a b) <-> a <= n <= b.
Proof.
  unfold arange. rewrite in_map_iff. split.
  - intros (k & <- & Hk). apply in_seq in Hk. lia.
  - intros H. exists (Z.to_nat (n - a)). split; [lia|]. apply in_seq. lia.
Qed.
Lemma NoDup_arange a b : NoDup (arange a b).
Proof. unfold arange. apply FinFun.Injective_map_NoDup; [intros x y E; lia|apply seq_NoDup]. Qed.
Lemma units_between u a b n : a <= b -> (to_unit u a <= n <= to_unit u b <-> exists t, a <= t <= b /\ to_unit u t = n).
Proof.
  intros L. split.
  - intros [H1 H2]. destruct (Z.eq_dec n (to_unit u a)) as [E|E]; [exists a; lia|]. destruct (first_instant u n) as (t0 & E0 & M). exists t0. split; [|exact E0]. split; [|now apply M].
    destruct (Z_le_gt_dec a t0) as [|G]; [assumption|]. exfalso. assert (t0 <= a) as G' by lia. apply (to_unit_mono u) in G'. lia.
  - intros (t & H & <-). split; apply to_unit_mono; lia.
Qed.

(** ** File names *)
Lemma one_digit n : 0 <= n < 10 -> String.length (str_int n) = 1%nat.
Proof. intros H. assert (n = 0 \/ n = 1 \/ n = 2 \/ n = 3 \/ n = 4 \/ n = 5 \/ n = 6 \/ n = 7 \/ n = 8 \/ n = 9) as C by lia. decompose [or] C; subst n; reflexivity. Qed.
Lemma two_digit n : 10 <= n < 32 -> String.length (str_int n) = 2%nat.
Proof.
  intros H. assert (exists k, n = 10 + Z.of_nat k /\ (k < 22)%nat) as (k & -> & Hk) by (exists (Z.to_nat (n - 10)); lia). do 22 (destruct k as [|k]; [reflexivity|]). lia.
Qed.
Lemma zfill2_two n : 0 <= n < 32 -> zfill2 (str_int n) = two_digits n.
Proof. intros H. unfold zfill2, two_digits. destruct (n <? 10) eqn:E; rewrite ?Z.ltb_lt, ?Z.ltb_ge in E; [rewrite one_digit by lia|rewrite two_digit by lia]; reflexivity. Qed.
Lemma civil_ranges t y mo d doy day h mi s : civil t y mo d doy day h mi s -> 1 <= mo <= 12 /\ 1 <= d <= 31 /\ 0 <= h < 24.
Proof. intros C. pose proof (civil_date _ _ _ _ _ _ _ _ _ C) as (_ & _ & <- & <-). pose proof (month_range t). pose proof (cv_h _ _ _ _ _ _ _ _ _ C). lia. Qed.
Lemma hour_index x : x / ns_hour = day_of x * 24 + hour_of x.
Proof. unfold day_of, hour_of, ns_day, ns_hour. zdiv. Qed.
(** The date read back from the unit. *)
Lemma name_of_unit path u t : parquet_filename_for_time path (to_unit u t) u = path_join path (partition_name u (year_of t) (month_of t) (dom_of t) (hour_of t)).
Proof.
  unfold parquet_filename_for_time. f_equal. destruct u; cbn [to_unit].
  - pose proof (month_range t). unfold partition_name. replace (1970 + ((year_of t - 1970) * 12 + (month_of t - 1)) / 12) with (year_of t) by (rewrite Z.div_add_l by lia; rewrite (Z.div_small (month_of t - 1)) by lia; lia).
    replace (((year_of t - 1970) * 12 + (month_of t - 1)) mod 12 + 1) with (month_of t) by (rewrite (Z.add_comm (_ * 12)), Z_mod_plus_full, Z.mod_small by lia; lia). reflexivity.
  - cbv zeta. assert (day_of (day_of t * ns_day) = day_of t) as E by (generalize (day_of t); intros k; unfold day_of; apply Z.div_mul; discriminate).
    assert (year_of (day_of t * ns_day) = year_of t) as Y by (unfold year_of; now rewrite E). unfold partition_name, month_of, dom_of, dayofyear. rewrite Y, E. reflexivity.
  - cbv zeta. set (t' := t / ns_hour * ns_hour).
    assert (t' / ns_hour = t / ns_hour) as Q by (unfold t'; apply Z.div_mul; discriminate). rewrite !hour_index in Q. pose proof (hour_range t). pose proof (hour_range t').
    assert (day_of t' = day_of t /\ hour_of t' = hour_of t) as [E Hh] by lia.
    assert (year_of t' = year_of t) as Y by (unfold year_of; now rewrite E). unfold month_of, dom_of, dayofyear. rewrite Y, E, Hh. reflexivity.
Qed.
Lemma path_join_inj path a b : path_join path a = path_join path b -> a = b.
Proof. unfold path_join. destruct (eqb path ""); [auto|]. destruct (ends_with_slash path); intros H; apply sapp_inj_l in H; [exact H|]. now apply sapp_inj_l in H. Qed.
Lemma partition_name_inj u y mo d h y' mo' d' h' : partition_name u y mo d h = partition_name u y' mo' d' h' ->
  y = y' /\ mo = mo' /\ match u with Month => True | Day => d = d' | Hour => d = d' /\ h = h' end.
Proof.
  destruct u; unfold partition_name; cbv zeta; intros H; apply sapp_inj_l in H; apply split_int in H; try reflexivity; try discriminate; destruct H as [-> H]; apply (sapp_inj_l "month=") in H; apply split_int in H; try reflexivity; try discriminate; destruct H as [-> H]; auto;
    apply (sapp_inj_l "day=") in H; apply split_int in H; try reflexivity; try discriminate; destruct H as [-> H]; auto.
  apply (sapp_inj_l "hour=") in H; apply split_int in H; try reflexivity; try discriminate; destruct H as [-> H]; auto.
Qed.
Lemma partition_name_spec path u t fn : file_of path u t fn <-> fn = path_join path (partition_name u (year_of t) (month_of t) (dom_of t) (hour_of t)).
Proof.
  assert (forall y mo d doy day h mi s, civil t y mo d doy day h mi s -> y = year_of t /\ mo = month_of t /\ d = dom_of t /\ h = hour_of t) as K.
  { intros y mo d doy day h mi s C. pose proof (civil_date _ _ _ _ _ _ _ _ _ C) as (<- & _ & <- & <-). pose proof (civil_hour _ _ _ _ _ _ _ _ _ C) as <-. auto. }
  assert (forall y mo d doy day h mi s, civil t y mo d doy day h mi s -> zfill2 (str_int mo) = two_digits mo /\ zfill2 (str_int d) = two_digits d /\ zfill2 (str_int h) = two_digits h) as Z2.
  { intros y mo d doy day h mi s C. apply civil_ranges in C. repeat split; apply zfill2_two; lia. }
  split.
  - intros (y & mo & d & doy & day & h & mi & s & C & ->). destruct (K _ _ _ _ _ _ _ _ C) as (<- & <- & <- & <-). destruct (Z2 _ _ _ _ _ _ _ _ C) as (E1 & E2 & E3). cbv zeta. unfold partition_name. cbv zeta. rewrite E1, E2, E3. reflexivity.
  - intros ->. destruct (civil_exists t) as (y & mo & d & doy & day & h & mi & s & C). exists y, mo, d, doy, day, h, mi, s. split; [exact C|]. destruct (K _ _ _ _ _ _ _ _ C) as (<- & <- & <- & <-). destruct (Z2 _ _ _ _ _ _ _ _ C) as (E1 & E2 & E3). cbv zeta. unfold partition_name. cbv zeta. rewrite E1, E2, E3. reflexivity.
Qed.
Lemma file_name path u t : file_of path u t (parquet_filename_for_time path (to_unit u t) u).
Proof. apply partition_name_spec. apply name_of_unit. Qed.
Lemma date_day t t' : year_of t = year_of t' -> month_of t = month_of t' -> dom_of t = dom_of t' -> day_of t = day_of t'.
Proof.
  intros Y M D. unfold month_of, dom_of in *. rewrite <- Y in M, D.
  assert (forall x, year_of x = year_of t -> 0 <= dayofyear x - 1 < fold_right Z.add 0 (month_lengths (year_of t))) as R.
  { intros x E. pose proof (dayofyear_range x) as R. rewrite E in R. unfold month_lengths, feb. destruct (is_leap (year_of t)); cbn [fold_right]; lia. }
  assert (forall l, In l (month_lengths (year_of t)) -> 0 < l) as P by (unfold month_lengths, feb; destruct (is_leap _); simpl; intuition subst; lia).
  destruct (month_day_range _ 1 _ P (R t eq_refl)) as (_ & _ & E1). destruct (month_day_range _ 1 _ P (R t' (eq_sym Y))) as (_ & _ & E2). rewrite M, D in E1.
  assert (dayofyear t = dayofyear t') as E by lia. unfold dayofyear in E. rewrite Y in E. lia.
Qed.
Lemma same_unit u t t' : to_unit u t = to_unit u t' <-> same_partition u t t'.
Proof.
  assert (forall x, exists y mo d doy day h mi s, civil x y mo d doy day h mi s /\ y = year_of x /\ mo = month_of x /\ d = dom_of x /\ h = hour_of x) as K.
  { intros x. destruct (civil_exists x) as (y & mo & d & doy & day & h & mi & s & C). exists y, mo, d, doy, day, h, mi, s. split; [exact C|]. pose proof (civil_date _ _ _ _ _ _ _ _ _ C) as (<- & _ & <- & <-). pose proof (civil_hour _ _ _ _ _ _ _ _ _ C) as <-. auto. }
  split.
  - intros E. assert (parquet_filename_for_time "" (to_unit u t) u = parquet_filename_for_time "" (to_unit u t') u) as F by (now rewrite E). rewrite !name_of_unit in F. apply path_join_inj, partition_name_inj in F.
    destruct F as (Y & M & R). destruct (K t) as (y & mo & d & doy & day & h & mi & s & C & E1 & E2 & E3 & E4). destruct (K t') as (y' & mo' & d' & doy' & day' & h' & mi' & s' & C' & E1' & E2' & E3' & E4').
    assert (y' = y) by congruence. assert (mo' = mo) by congruence. subst y' mo'. exists y, mo, d, doy, day, h, mi, s, d', doy', day', h', mi', s'. split; [exact C|]. split; [congruence|]. destruct u; auto; [congruence|destruct R; split; congruence].
  - intros (y & mo & d & doy & day & h & mi & s & d' & doy' & day' & h' & mi' & s' & C & C' & R).
    pose proof (civil_date _ _ _ _ _ _ _ _ _ C) as (Y & _ & M & D). pose proof (civil_hour _ _ _ _ _ _ _ _ _ C) as H. pose proof (civil_date _ _ _ _ _ _ _ _ _ C') as (Y' & _ & M' & D'). pose proof (civil_hour _ _ _ _ _ _ _ _ _ C') as H'.
    destruct u; cbn [to_unit].
    + rewrite Y, M, Y', M'. reflexivity.
    + subst d'. apply date_day; congruence.
    + destruct R as [-> ->]. assert (day_of t = day_of t') as E by (apply date_day; congruence).
      rewrite !hour_index. congruence.
Qed.
Lemma unit_of_name path u n n' : parquet_filename_for_time path n u = parquet_filename_for_time path n' u -> n = n'.
Proof.
  destruct (first_instant u n) as (t & <- & _). destruct (first_instant u n') as (t' & <- & _). intros H. rewrite !name_of_unit in H. apply path_join_inj, partition_name_inj in H. destruct H as (Y & M & R).
  apply same_unit. destruct (civil_exists t) as (y & mo & d & doy & day & h & mi & s & C). destruct (civil_exists t') as (y' & mo' & d' & doy' & day' & h' & mi' & s' & C').
  pose proof (civil_date _ _ _ _ _ _ _ _ _ C) as (E1 & _ & E2 & E3). pose proof (civil_hour _ _ _ _ _ _ _ _ _ C) as E4. pose proof (civil_date _ _ _ _ _ _ _ _ _ C') as (E1' & _ & E2' & E3'). pose proof (civil_hour _ _ _ _ _ _ _ _ _ C') as E4'.
  assert (y' = y) by congruence. assert (mo' = mo) by congruence. subst y' mo'. exists y, mo, d, doy, day, h, mi, s, d', doy', day', h', mi', s'. split; [exact C|]. split; [congruence|]. destruct u; auto; [congruence|destruct R; split; congruence].
Qed.
