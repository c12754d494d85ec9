(** Lemmas for Select with a method. *)
From Coq Require Import String ZArith QArith Qabs Qcanon List Bool Sorted Lia Lqa.
Import ListNotations.
From Verif Require Import Prelude Values Model_XArray Spec_XArray Proofs_XArray Model_Wrappers Model_Prepare Spec_Prepare Spec_Binning Model_Select Spec_Select Model_SelectMethod Spec_SelectMethod.
Local Open Scope string_scope.
Local Open Scope list_scope.

(** ** Numbers *)
Lemma numeric_is l : numeric l = true -> is_number l (lnum l).
Proof. destruct l; try discriminate; intros _; constructor. Qed.
Lemma is_number_lnum l q : is_number l q -> numeric l = true /\ lnum l = q.
Proof. intros []; split; reflexivity. Qed.
Lemma numeric_iff l : numeric l = true <-> exists q, is_number l q.
Proof. split; [intros H; exists (lnum l); apply numeric_is, H|]. intros (q & H). apply (is_number_lnum _ _ H). Qed.
Lemma all_numeric ls : forallb numeric ls = true <-> all_numbers ls.
Proof. rewrite forallb_forall. split; intros H l I; apply numeric_iff, H, I. Qed.
Lemma Qltb_iff x y : Qltb x y = true <-> (x < y)%Q.
Proof. unfold Qltb. rewrite negb_true_iff. split; intros H. - apply Qnot_le_lt. intros C. apply Qle_bool_iff in C. congruence. - destruct (Qle_bool y x) eqn:E; auto. apply Qle_bool_iff in E. lra. Qed.
Lemma Qltb_false x y : Qltb x y = false <-> (y <= x)%Q.
Proof. unfold Qltb. rewrite negb_false_iff. apply Qle_bool_iff. Qed.
Lemma Qle_bool_false x y : Qle_bool x y = false <-> (y < x)%Q.
Proof. rewrite <- Qltb_iff. unfold Qltb. rewrite negb_true_iff. reflexivity. Qed.

(** ** Monotonic axes *)
Section Mono.
  Variable r : label -> label -> bool.
  Let R x y := r x y = true.
  Hypothesis tr : forall x y z, R x y -> R y z -> R x z.
  Lemma neighbours_strong ls : forallb (fun ab => r (fst ab) (snd ab)) (neighbours ls) = true -> StronglySorted R ls.
  Proof.
    intros H. apply Sorted_StronglySorted; [exact tr|]. induction ls as [|x [|y ls] IH]; [constructor|repeat constructor|]. cbn [neighbours forallb fst snd] in H. apply andb_true_iff in H. destruct H as [A B].
    constructor; [apply IH, B|]. constructor. exact A.
  Qed.
  Lemma neighbours_nth ls : (forall i x y, nth_error ls i = Some x -> nth_error ls (S i) = Some y -> R x y) -> forallb (fun ab => r (fst ab) (snd ab)) (neighbours ls) = true.
  Proof.
    induction ls as [|x [|y ls] IH]; [reflexivity|reflexivity|]. intros H. cbn [neighbours forallb fst snd]. apply andb_true_iff. split; [apply (H 0%nat); reflexivity|]. apply IH. intros i a b A B. apply (H (S i)); auto.
  Qed.
  Lemma strong_nth ls : StronglySorted R ls -> forall i j x y, (i < j)%nat -> nth_error ls i = Some x -> nth_error ls j = Some y -> R x y.
  Proof.
    induction 1 as [|a ls S IH F]; intros i j x y L A B; [destruct i; discriminate|]. destruct j as [|j]; [lia|]. destruct i as [|i].
    - injection A as <-. rewrite Forall_forall in F. apply F. cbn [nth_error] in B. apply (nth_error_In _ _ B).
    - apply (IH i j); auto. lia.
  Qed.
  Lemma strong_mid pre b post : StronglySorted R (pre ++ b :: post) -> (forall y, In y pre -> R y b) /\ (forall y, In y post -> R b y).
  Proof.
    induction pre as [|a pre IH]; cbn; intros S; inversion S as [|? ? S' F]; subst.
    - rewrite Forall_forall in F. split; [intros y []|exact F].
    - destruct (IH S') as [A B]. rewrite Forall_forall in F. split; [|exact B]. intros y [<-|I]; [apply F, in_app_iff; right; left; reflexivity|apply A, I].
  Qed.
End Mono.
Lemma rising_iff ls : all_numbers ls -> (rising ls = true <-> ascending ls).
Proof.
  intros N. unfold rising. split.
  - intros H i j a b p q L A B P Q. apply (neighbours_strong (fun a b => Qltb (lnum a) (lnum b))) in H; [|intros x y z; rewrite !Qltb_iff; lra]. pose proof (strong_nth _ _ H _ _ _ _ L A B) as K. apply Qltb_iff in K.
    apply is_number_lnum in P, Q. destruct P as [_ <-], Q as [_ <-]. exact K.
  - intros H. apply (neighbours_nth (fun a b => Qltb (lnum a) (lnum b))). intros i x y A B. apply Qltb_iff. apply (H i (S i) x y); auto; apply numeric_is, numeric_iff, N; eapply nth_error_In; eauto.
Qed.
Lemma falling_iff ls : all_numbers ls -> (falling ls = true <-> descending ls).
Proof.
  intros N. unfold falling. split.
  - intros H i j a b p q L A B P Q. apply (neighbours_strong (fun a b => Qltb (lnum b) (lnum a))) in H; [|intros x y z; rewrite !Qltb_iff; lra]. pose proof (strong_nth _ _ H _ _ _ _ L A B) as K. apply Qltb_iff in K.
    apply is_number_lnum in P, Q. destruct P as [_ <-], Q as [_ <-]. exact K.
  - intros H. apply (neighbours_nth (fun a b => Qltb (lnum b) (lnum a))). intros i x y A B. apply Qltb_iff. apply (H i (S i) x y); auto; apply numeric_is, numeric_iff, N; eapply nth_error_In; eauto.
Qed.
Definition mono (up : bool) (ls : list label) : Prop := StronglySorted (fun x y => if up then (lnum x < lnum y)%Q else (lnum y < lnum x)%Q) ls.
Lemma Strong_impl (R R' : label -> label -> Prop) ls : (forall x y, R x y -> R' x y) -> StronglySorted R ls -> StronglySorted R' ls.
Proof. intros I S. induction S as [|a ls S IH F]; constructor; auto. eapply Forall_impl; [|exact F]. auto. Qed.
Lemma monotone_mono ls : rising ls || falling ls = true -> mono (rising ls) ls.
Proof.
  unfold mono. destruct (rising ls) eqn:E; cbn [orb]; intros H.
  - apply (neighbours_strong (fun a b => Qltb (lnum a) (lnum b))) in E; [|intros x y z; rewrite !Qltb_iff; lra]. apply (Strong_impl _ _ _ (fun x y K => proj1 (Qltb_iff _ _) K) E).
  - apply (neighbours_strong (fun a b => Qltb (lnum b) (lnum a))) in H; [|intros x y z; rewrite !Qltb_iff; lra]. apply (Strong_impl _ _ _ (fun x y K => proj1 (Qltb_iff _ _) K) H).
Qed.
Lemma strong_mid' (R : label -> label -> Prop) pre b post : StronglySorted R (pre ++ b :: post) -> (forall y, In y pre -> R y b) /\ (forall y, In y post -> R b y).
Proof.
  induction pre as [|a pre IH]; cbn; intros S; inversion S as [|? ? S' F]; subst.
  - rewrite Forall_forall in F. split; [intros y []|exact F].
  - destruct (IH S') as [A B]. rewrite Forall_forall in F. split; [|exact B]. intros y [<-|I]; [apply F, in_app_iff; right; left; reflexivity|apply A, I].
Qed.
Lemma mono_inj up ls x y : mono up ls -> In x ls -> In y ls -> (lnum x == lnum y)%Q -> x = y.
Proof.
  intros S I J E. apply in_split in I. destruct I as (pre & post & ->). destruct (strong_mid' _ _ _ _ S) as [A B]. apply in_app_iff in J. destruct J as [J|[J|J]]; auto.
  - apply A in J. destruct up; lra.
  - apply B in J. destruct up; lra.
Qed.
Lemma find_split {A} (f : A -> bool) ls b : find f ls = Some b -> exists pre post, ls = pre ++ b :: post /\ f b = true /\ forall y, In y pre -> f y = false.
Proof.
  induction ls as [|x ls IH]; [discriminate|]. cbn [find]. destruct (f x) eqn:E.
  - intros [= <-]. exists [], ls. split; [reflexivity|]. split; [exact E|intros y []].
  - intros H. destruct (IH H) as (pre & post & -> & F & N). exists (x :: pre), post. split; [reflexivity|]. split; [exact F|]. intros y [<-|I]; auto.
Qed.

(** ** Before and after *)
Definition before (up : bool) (have : list label) (l : label) := find (fun x => not_after up x l) (rev have).
Definition after (up : bool) (have : list label) (l : label) := find (fun x => not_after up l x) have.
Definition lower (up : bool) have l := if up then before up have l else after up have l.
Definition upper (up : bool) have l := if up then after up have l else before up have l.
Definition low_spec have (q : Q) (o : option label) : Prop :=
  match o with
  | Some a => In a have /\ (lnum a <= q)%Q /\ forall y, In y have -> (lnum y <= q)%Q -> (lnum y <= lnum a)%Q
  | None => forall y, In y have -> (q < lnum y)%Q
  end.
Definition high_spec have (q : Q) (o : option label) : Prop :=
  match o with
  | Some a => In a have /\ (q <= lnum a)%Q /\ forall y, In y have -> (q <= lnum y)%Q -> (lnum a <= lnum y)%Q
  | None => forall y, In y have -> (lnum y < q)%Q
  end.
Lemma before_spec up have l : mono up have -> if up then low_spec have (lnum l) (before up have l) else high_spec have (lnum l) (before up have l).
Proof.
  intros S. unfold before. destruct (find _ (rev have)) as [a|] eqn:E.
  - apply find_split in E. destruct E as (pre & post & E & F & N). apply (f_equal (@rev label)) in E. rewrite rev_involutive, rev_app_distr in E. cbn [rev] in E. rewrite <- app_assoc in E. cbn [app] in E. subst have.
    destruct (strong_mid' _ _ _ _ S) as [A B]. assert (In a (rev post ++ a :: rev pre)) as Ia by (apply in_app_iff; right; left; reflexivity).
    destruct up; cbn [not_after low_spec high_spec] in *; apply Qle_bool_iff in F; (split; [exact Ia|]); (split; [exact F|]); intros y J L; apply in_app_iff in J; destruct J as [J|[<-|J]]; try lra; try (specialize (A y J); lra);
      apply in_rev in J; specialize (N y J); cbn beta in N; apply Qle_bool_false in N; lra.
  - destruct up; cbn [low_spec high_spec]; intros y J; pose proof (find_none _ _ E y (proj1 (in_rev _ _) J)) as K; cbn [not_after] in K; apply Qle_bool_false in K; exact K.
Qed.
Lemma after_spec up have l : mono up have -> if up then high_spec have (lnum l) (after up have l) else low_spec have (lnum l) (after up have l).
Proof.
  intros S. unfold after. destruct (find _ have) as [a|] eqn:E.
  - apply find_split in E. destruct E as (pre & post & -> & F & N).
    destruct (strong_mid' _ _ _ _ S) as [A B]. assert (In a (pre ++ a :: post)) as Ia by (apply in_app_iff; right; left; reflexivity).
    destruct up; cbn [not_after low_spec high_spec] in *; apply Qle_bool_iff in F; (split; [exact Ia|]); (split; [exact F|]); intros y J L; apply in_app_iff in J; destruct J as [J|[<-|J]]; try lra; try (specialize (B y J); lra);
      specialize (N y J); cbn beta in N; apply Qle_bool_false in N; lra.
  - destruct up; cbn [low_spec high_spec]; intros y J; pose proof (find_none _ _ E y J) as K; cbn [not_after] in K; apply Qle_bool_false in K; exact K.
Qed.
Lemma lower_spec up have l : mono up have -> low_spec have (lnum l) (lower up have l).
Proof. intros S. unfold lower. pose proof (before_spec up have l S). pose proof (after_spec up have l S). destruct up; auto. Qed.
Lemma upper_spec up have l : mono up have -> high_spec have (lnum l) (upper up have l).
Proof. intros S. unfold upper. pose proof (before_spec up have l S). pose proof (after_spec up have l S). destruct up; auto. Qed.

(** ** What fill_label finds *)
Definition nearer_of (lo hi : option label) (l : label) : option label :=
  match lo, hi with
  | Some a, Some b => Some (if Qle_bool (distance b l) (distance a l) then b else a)
  | Some a, None => Some a
  | None, r => r
  end.
Lemma fill_nearest have l : let up := rising have in fill_label MNearest have l = nearer_of (lower up have l) (upper up have l) l.
Proof.
  unfold fill_label, lower, upper, before, after, nearer_of. cbv zeta. destruct (rising have).
  - destruct (find _ (rev have)) as [a|], (find _ have) as [b|]; try reflexivity. unfold Qltb. destruct (Qle_bool (distance b l) (distance a l)); reflexivity.
  - destruct (find _ (rev have)) as [a|], (find _ have) as [b|]; try reflexivity.
Qed.
Lemma dist_low a q : (a <= q)%Q -> (Qabs (a - q) == q - a)%Q.
Proof. intros H. rewrite Qabs_neg; lra. Qed.
Lemma dist_high a q : (q <= a)%Q -> (Qabs (a - q) == a - q)%Q.
Proof. intros H. rewrite Qabs_pos; lra. Qed.
Definition best (have : list label) (q : Q) (x : label) : Prop :=
  forall y, In y have -> (Qabs (lnum x - q) < Qabs (lnum y - q))%Q \/ ((Qabs (lnum x - q) == Qabs (lnum y - q))%Q /\ (lnum y <= lnum x)%Q).
Lemma nearer_best have l lo hi : low_spec have (lnum l) lo -> high_spec have (lnum l) hi ->
  match nearer_of lo hi l with Some x => In x have /\ best have (lnum l) x | None => have = [] end.
Proof.
  intros L H. set (q := lnum l) in *. assert (forall y, (lnum y <= q)%Q \/ (q <= lnum y)%Q) as T by (intros y; destruct (Qlt_le_dec (lnum y) q); [left; lra|right; auto]).
  destruct lo as [a|], hi as [b|]; cbn [low_spec high_spec nearer_of] in *.
  - destruct L as (La & Ll & Lm), H as (Ha & Hl & Hm). unfold distance. fold q. pose proof (dist_low _ _ Ll) as Da. pose proof (dist_high _ _ Hl) as Db.
    destruct (Qle_bool _ _) eqn:E; [apply Qle_bool_iff in E|apply Qle_bool_false in E]; (split; [assumption|]); intros y I; destruct (T y) as [U|U].
    + specialize (Lm y I U). pose proof (dist_low _ _ U) as Dy. destruct (Qlt_le_dec (lnum b - q) (q - lnum y)); [left; lra|right; split; lra].
    + specialize (Hm y I U). pose proof (dist_high _ _ U) as Dy. destruct (Qlt_le_dec (lnum b) (lnum y)); [left; lra|right; split; lra].
    + specialize (Lm y I U). pose proof (dist_low _ _ U) as Dy. destruct (Qlt_le_dec (lnum y) (lnum a)); [left; lra|right; split; lra].
    + specialize (Hm y I U). pose proof (dist_high _ _ U) as Dy. left. lra.
  - destruct L as (La & Ll & Lm). split; [assumption|]. pose proof (dist_low _ _ Ll) as Da. intros y I. specialize (H y I). assert (lnum y <= q)%Q as U by lra. specialize (Lm y I U). pose proof (dist_low _ _ U) as Dy. destruct (Qlt_le_dec (lnum y) (lnum a)); [left; lra|right; split; lra].
  - destruct H as (Ha & Hl & Hm). split; [assumption|]. pose proof (dist_high _ _ Hl) as Db. intros y I. specialize (L y I). assert (q <= lnum y)%Q as U by lra. specialize (Hm y I U). pose proof (dist_high _ _ U) as Dy. destruct (Qlt_le_dec (lnum b) (lnum y)); [left; lra|right; split; lra].
  - destruct have as [|y have]; [reflexivity|]. specialize (L y (or_introl eq_refl)). specialize (H y (or_introl eq_refl)). lra.
Qed.
Lemma fill_picks m have l x : all_numbers have -> numeric l = true -> rising have || falling have = true -> (fill_label m have l = Some x <-> picks m have l x).
Proof.
  intros N Nl M. pose proof (monotone_mono _ M) as S. set (up := rising have) in *. pose proof (lower_spec up have l S) as L. pose proof (upper_spec up have l S) as H.
  assert (forall y, In y have -> is_number y (lnum y)) as Ny by (intros y I; apply numeric_is, numeric_iff, N, I).
  assert (up = true -> ascending have) as Ua by (intros E; apply rising_iff; auto).
  assert (up = false -> descending have /\ ~ ascending have) as Ud. { intros E. split; [apply falling_iff; auto; rewrite E in M; exact M|]. intros C. apply rising_iff in C; auto. unfold up in *. congruence. }
  assert (forall o y, low_spec have (lnum l) o -> (o = Some y <-> In y have /\ last_up_to have (lnum l) (lnum y))) as QL.
  { intros o y Lo. split.
    - intros ->. destruct Lo as (A & B & C). split; [exact A|]. split; [exact B|]. intros z r I R Hr. apply is_number_lnum in R. destruct R as [_ <-]. apply C; auto.
    - intros (I & A & B). destruct o as [a|]; cbn [low_spec] in Lo; [|specialize (Lo y I); lra]. destruct Lo as (Ia & C & D). f_equal. apply (mono_inj up have); auto. specialize (D y I A). specialize (B a _ Ia (Ny a Ia) C). lra. }
  assert (forall o y, high_spec have (lnum l) o -> (o = Some y <-> In y have /\ first_from have (lnum l) (lnum y))) as QH.
  { intros o y Lo. split.
    - intros ->. destruct Lo as (A & B & C). split; [exact A|]. split; [exact B|]. intros z r I R Hr. apply is_number_lnum in R. destruct R as [_ <-]. apply C; auto.
    - intros (I & A & B). destruct o as [a|]; cbn [high_spec] in Lo; [|specialize (Lo y I); lra]. destruct Lo as (Ia & C & D). f_equal. apply (mono_inj up have); auto. specialize (D y I A). specialize (B a _ Ia (Ny a Ia) C). lra. }
  unfold picks. assert (forall K : Q -> Q -> Prop, (In x have /\ (exists q p, is_number l q /\ is_number x p /\ K q p)) <-> (In x have /\ K (lnum l) (lnum x))) as Ex.
  { intros K. split; (intros (I & J); split; [exact I|]).
    - destruct J as (q & p & A & B & C). apply is_number_lnum in A, B. destruct A as [_ <-], B as [_ <-]. exact C.
    - exists (lnum l), (lnum x). split; [apply numeric_is, Nl|]. split; [apply Ny, I|exact J]. }
  destruct m.
  - rewrite (Ex (fun q p => (ascending have -> last_up_to have q p) /\ (descending have -> ~ ascending have -> first_from have q p))). change (fill_label MPad have l) with (before up have l). unfold lower, upper in L, H. destruct up eqn:E.
    + rewrite (QL _ _ L). specialize (Ua eq_refl). intuition.
    + rewrite (QH _ _ H). destruct (Ud eq_refl). intuition.
  - rewrite (Ex (fun q p => (ascending have -> first_from have q p) /\ (descending have -> ~ ascending have -> last_up_to have q p))). change (fill_label MBackfill have l) with (after up have l). unfold lower, upper in L, H. destruct up eqn:E.
    + rewrite (QH _ _ H). specialize (Ua eq_refl). intuition.
    + rewrite (QL _ _ L). destruct (Ud eq_refl). intuition.
  - rewrite (Ex (fun q p => nearest_to have q p)). rewrite fill_nearest. cbv zeta. fold up. pose proof (nearer_best have l _ _ L H) as B. destruct (nearer_of _ _ _) as [x'|] eqn:E.
    + destruct B as [I B]. split.
      * intros [= <-]. split; [exact I|]. intros y r J R. apply is_number_lnum in R. destruct R as [_ <-]. apply B, J.
      * intros [J B']. f_equal. apply (mono_inj up have); auto. pose proof (B x J) as P. pose proof (B' x' (lnum x') I (Ny x' I)) as P'. lra.
    + subst have. split; [discriminate|]. intros [[] _].
Qed.
Lemma near_label_iff m o have l x : all_numbers have -> numeric l = true -> rising have || falling have = true ->
  (near_label m (so_tolerance o) have l = Ok x <-> found o m have l x).
Proof.
  intros N Nl M. unfold near_label, found. pose proof (fun y => fill_picks m have l y N Nl M) as P. split.
  - destruct (fill_label m have l) as [y|] eqn:E; [|discriminate]. destruct (match so_tolerance o with Some t => _ | None => _ end) eqn:T; [|discriminate]. intros [= <-]. split; [apply P, eq_refl|].
    intros t q p Ht Q1 Q2. rewrite Ht in T. apply Qle_bool_iff in T. apply is_number_lnum in Q1, Q2. destruct Q1 as [_ <-], Q2 as [_ <-]. exact T.
  - intros [Q T]. pose proof Q as Q'. apply P in Q. rewrite Q. destruct (so_tolerance o) as [t|] eqn:E; [|reflexivity]. destruct Q' as (_ & q & p & A & B & _). unfold tolerated in T. try rewrite E in T. specialize (T t q p eq_refl A B). apply is_number_lnum in A, B. destruct A as [_ <-], B as [_ <-].
    assert (Qle_bool (distance x l) t = true) as ->; [|reflexivity]. apply Qle_bool_iff. exact T.
Qed.
Lemma near_label_err m t have l e : near_label m t have l = Err e -> e = KeyError.
Proof. unfold near_label. destruct (fill_label m have l); [|congruence]. destruct (match t with Some _ => _ | None => _ end); congruence. Qed.
