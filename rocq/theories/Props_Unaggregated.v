(** C66: the unaggregated pipeline. *)
From Coq Require Import String ZArith List Bool Permutation Lia.
Import ListNotations.
From Verif Require Import Prelude Values Model_XArray Spec_XArray Proofs_XArray Model_Tree Model_MetricsBase Model_TimeChunks Spec_TimeChunks Proofs_TimeChunks
  Model_Aggregation Spec_Aggregator Model_Beam Spec_Beam Proofs_Beam Proofs_Beam2 Proofs_Beam3 Model_Unaggregated Spec_Unaggregated Proofs_Unaggregated Proofs_Unaggregated2.
Local Open Scope Z_scope.
Local Open Scope string_scope.
Local Open Scope list_scope.

Lemma In_regions (os : list Proofs_Beam3.chunk) scs r : In r (concat (map (fun x => regions (fst (fst x)) (snd x)) (combine os scs))) ->
  exists oc sc k v a, In (oc, sc) (combine os scs) /\ In ((k, v), a) (flat sc) /\ r = format_statistic (fst oc) k v a.
Proof.
  intros I. apply in_concat in I. destruct I as (l & I & J). apply in_map_iff in I. destruct I as ([oc sc] & <- & I). cbn [fst snd] in J. unfold regions in J. apply in_map_iff in J. destruct J as ([[k v] a] & <- & J). cbn [fst snd]. eauto 8.
Qed.
Lemma combine_Forall2 {A B} (Q : A -> B -> Prop) l l' a b : Forall2 Q l l' -> In (a, b) (combine l l') -> In a l /\ Q a b.
Proof. induction 1 as [|x y l l' H F IH]; [intros []|]. intros [[= <- <-]|I]; [split; [now left|exact H]|]. destruct (IH I). split; [now right|auto]. Qed.
Lemma Forall2_combine {A B} (Q : A -> B -> Prop) l l' a : Forall2 Q l l' -> In a l -> exists b, In (a, b) (combine l l') /\ Q a b.
Proof. induction 1 as [|x y l l' H F IH]; [intros []|]. intros [<-|I]; [exists y; split; [now left|exact H]|]. destruct (IH I) as (b & J & K). exists b. split; [now right|exact K]. Qed.

Lemma ne_In {A} (l : list A) : l <> [] -> exists x, In x l.
Proof. destruct l as [|x l]; [congruence|]. intros _. exists x. now left. Qed.

Section Store.
  Variables (init lead : list Z) (isz lsz : option Z) (tc : time_chunks) (pl tl : loader) (metrics : dict string (metric da)) (full : dict string (vars da)).
  Hypothesis H : unaggregated_evaluation init lead isz lsz tc pl tl metrics full.
  Variables (os : list Proofs_Beam3.chunk) (scs : list (dict string (vars da))).
  Hypothesis G : grid init lead os.
  Hypothesis R : forall o ic lc, In (o, (ic, ChunkArr lc)) os -> ic = run_at init (off_init o) (length ic) /\ lc = run_at lead (off_lead o) (length lc) /\ 0 <= off_init o /\ 0 <= off_lead o.
  Hypothesis F : Forall2 (fun oc sc => stats_slice (c_init oc) (c_lead oc) full sc) os scs.
  Let cs := concat (map (fun x => regions (fst (fst x)) (snd x)) (combine os scs)).
  (** A region of the output belongs to a chunk and a variable. *)
  Lemma region_of r : In r cs -> exists oc k v st a, In oc os /\ stat full k v = Some st /\ wf a /\ time_slice (map LZ (c_init oc)) (map LZ (c_lead oc)) st a /\ r = format_statistic (fst oc) k v a.
  Proof.
    intros I. apply In_regions in I. destruct I as (oc & sc & k & v & a & I & J & ->). destruct (combine_Forall2 _ _ _ _ _ F I) as [Io S]. destruct (flat_stats full sc _ _ (ue_dicts _ _ _ _ _ _ _ _ _ H) S) as (_ & A & _). destruct (A k v a J) as (st & E & W & T). exists oc, k, v, st, a. auto.
  Qed.
  Lemma region_covers oc k v st a p : In oc os -> stat full k v = Some st -> wf a -> time_slice (map LZ (c_init oc)) (map LZ (c_lead oc)) st a ->
    (covers (format_statistic (fst oc) k v a) p = true <-> in_array st p /\
      (In "init_time" (dnames st) -> In (nth (Z.to_nat (p "init_time")) init 0) (c_init oc)) /\ (In "lead_time" (dnames st) -> In (nth (Z.to_nat (p "lead_time")) lead 0) (c_lead oc))) /\
    (covers (format_statistic (fst oc) k v a) p = true -> value_at (format_statistic (fst oc) k v a) p = value_by_position st p).
  Proof.
    intros Io E W T. pose proof (gr_arr _ _ _ G _ Io) as A. destruct oc as [o [ic c]]. unfold c_lead, c_init in *. cbn [fst snd] in *. destruct c as [lc|]; [|discriminate]. destruct (R o ic lc Io) as (R1 & R2 & O1 & O2).
    destruct (ue_vars _ _ _ _ _ _ _ _ _ H k v st E) as (Ws & L1 & L2 & _). destruct H as [_ Ni Nl _ _ _ _].
    split; [exact (part_covers init lead st a o ic lc k v Ni Nl R1 R2 O1 O2 W L1 L2 T p)|exact (part_value init lead st a o ic lc k v Ni Nl R1 R2 O1 O2 Ws W L1 L2 T p)].
  Qed.
  Lemma position_chunk st p : in_array st p -> (forall ls, dget (dims st) "init_time" = Some ls -> ls = map LZ init) -> (forall ls, dget (dims st) "lead_time" = Some ls -> ls = map LZ lead) -> os <> [] ->
    exists oc, In oc os /\ (In "init_time" (dnames st) -> In (nth (Z.to_nat (p "init_time")) init 0) (c_init oc)) /\ (In "lead_time" (dnames st) -> In (nth (Z.to_nat (p "lead_time")) lead 0) (c_lead oc)).
  Proof.
    intros P L1 L2 N. assert (exists o1, In o1 os) as [o1 I1] by (now apply ne_In).
    destruct (gr_ne _ _ _ G _ I1) as [N1 N2]. destruct (gr_incl _ _ _ G _ I1) as [C1 C2].
    assert (exists t, In t init /\ (In "init_time" (dnames st) -> t = nth (Z.to_nat (p "init_time")) init 0)) as (t & It & Et).
    { destruct (in_dec string_dec "init_time" (dnames st)) as [D|D]; [|destruct (c_init o1) as [|t q] eqn:Eq; [congruence|exists t; split; [apply C1; now left|tauto]]].
      exists (nth (Z.to_nat (p "init_time")) init 0). split; [|auto]. destruct (keys_dget _ _ D) as [ls E]. specialize (P _ _ E). rewrite (L1 _ E), map_length in P. apply nth_In. lia. }
    assert (exists l, In l lead /\ (In "lead_time" (dnames st) -> l = nth (Z.to_nat (p "lead_time")) lead 0)) as (l & Il & El).
    { destruct (in_dec string_dec "lead_time" (dnames st)) as [D|D]; [|destruct (c_lead o1) as [|t' q] eqn:Eq; [congruence|exists t'; split; [apply C2; now left|tauto]]].
      exists (nth (Z.to_nat (p "lead_time")) lead 0). split; [|auto]. destruct (keys_dget _ _ D) as [ls E]. specialize (P _ _ E). rewrite (L2 _ E), map_length in P. apply nth_In. lia. }
    destruct (gr_one _ _ _ G t l It Il) as (l1 & oc & l2 & E & Q & _). apply andb_true_iff in Q. destruct Q as [Q1 Q2]. apply memb_In in Q1, Q2. exists oc. split; [rewrite E; apply in_app_iff; right; now left|]. split; intros D; [rewrite <- (Et D)|rewrite <- (El D)]; auto.
  Qed.
End Store.
(** Counting. *)
Lemma count_concat {A} (q : A -> bool) ls : length (filter q (concat ls)) = list_sum (map (fun l => length (filter q l)) ls).
Proof. induction ls as [|l ls IH]; [reflexivity|]. cbn [concat map list_sum fold_right]. rewrite filter_app, app_length, IH. reflexivity. Qed.
Lemma count_key {K A} `{EqDec K} (q : K * A -> bool) l k a : NoDup (map fst l) -> In (k, a) l -> (forall x, q x = true -> fst x = k) -> length (filter q l) = if q (k, a) then 1%nat else 0%nat.
Proof.
  intros N I Q. induction l as [|[k' b] l IH]; [destruct I|]. cbn [map fst] in N. apply NoDup_cons_iff in N. destruct N as [N1 N2]. cbn [filter].
  assert (~ In k (map fst l) -> filter q l = []) as Z.
  { intros Nk. clear -Nk Q. induction l as [|x l IH]; [reflexivity|]. cbn [filter]. destruct (q x) eqn:E; [apply Q in E; exfalso; apply Nk; left; exact E|]. apply IH. intros J. apply Nk. now right. }
  destruct I as [[= -> ->]|I].
  - rewrite (Z N1). now destruct (q (k, a)).
  - destruct (q (k', b)) eqn:E; [apply Q in E; cbn [fst] in E; subst k'; exfalso; apply N1; apply in_map_iff; exists (k, a); auto|]. now apply IH.
Qed.

(** ** The store *)
(** Whatever the order of the writes: every position of every variable of every statistic holds the value of the
    statistic of all times at that position, and nothing else is written. *)
Theorem C66_store : forall init lead isz lsz tc pl tl metrics full t s,
  unaggregated_evaluation init lead isz lsz tc pl tl metrics full ->
  unaggregated_pipeline metrics pl tl tc t s ->
  (forall k v st p, stat full k v = Some st -> in_array st p -> s (k ++ "." ++ v)%string p = Some (value_by_position st p)) /\
  (forall name p, s name p <> None -> exists k v st, stat full k v = Some st /\ name = (k ++ "." ++ v)%string /\ in_array st p).
Proof.
  intros init lead isz lsz tc pl tl metrics full t s U (HT & cs & order & HE & HP & ->).
  destruct (run_offsets _ _ _ _ _ _ _ _ _ U) as (os & E & M & G & R). destruct (run_emitted _ _ _ _ _ _ _ _ _ U os E M G) as (scs & E' & F). assert (cs = concat (map (fun x => regions (fst (fst x)) (snd x)) (combine os scs))) as -> by congruence.
  set (cs := concat _) in *. split.
  - intros k v st p Es P. destruct (ue_vars _ _ _ _ _ _ _ _ _ U k v st Es) as (Ws & L1 & L2 & _).
    apply write_all_some.
    + intros r I Nr C. apply (Permutation_in _ HP) in I. apply (region_of init lead isz lsz tc pl tl metrics full U os scs F) in I. destruct I as (oc & k' & v' & st' & a & Io & Es' & W & T & ->).
      cbn [format_statistic rg_name] in Nr. destruct (ue_names _ _ _ _ _ _ _ _ _ U k' v' st' k v st Es' Es Nr) as [-> ->]. assert (st' = st) as -> by congruence.
      now apply (region_covers _ _ _ _ _ _ _ _ _ U os G R oc k v st a p Io Es W T).
    + assert (os <> []) as No.
      { intros ->. unfold get_template in HT. destruct (tc_getitem tc 0) as [c|] eqn:Eg; [|discriminate]. unfold tc_getitem in Eg. rewrite tc_len_iter, <- M in Eg. cbn in Eg. discriminate. }
      destruct (position_chunk init lead os G st p P L1 L2 No) as (oc & Io & Q1 & Q2). destruct (Forall2_combine _ _ _ _ F Io) as (sc & Ic & S). destruct (flat_stats full sc _ _ (ue_dicts _ _ _ _ _ _ _ _ _ U) S) as (_ & _ & B). destruct (B k v st Es) as (a & Ia & W & T).
      exists (format_statistic (fst oc) k v a). split; [|split; [reflexivity|]].
      * apply (Permutation_in _ (Permutation_sym HP)). unfold cs. apply in_concat. exists (regions (fst oc) sc). split; [apply in_map_iff; exists (oc, sc); auto|]. unfold regions. apply in_map_iff. exists ((k, v), a). auto.
      * apply (region_covers _ _ _ _ _ _ _ _ _ U os G R oc k v st a p Io Es W T). auto.
  - intros name p N. destruct (existsb (fun r => eqb (rg_name r) name && covers r p) order) eqn:B.
    + apply existsb_exists in B. destruct B as (r & I & Q). apply andb_true_iff in Q. destruct Q as [Q1 Q2]. apply eqb_true_iff in Q1. apply (Permutation_in _ HP) in I. apply (region_of init lead isz lsz tc pl tl metrics full U os scs F) in I. destruct I as (oc & k & v & st & a & Io & Es & W & T & ->).
      exists k, v, st. split; [exact Es|]. split; [now symmetry|]. exact (proj1 (proj1 (proj1 (region_covers _ _ _ _ _ _ _ _ _ U os G R oc k v st a p Io Es W T)) Q2)).
    + exfalso. apply N. apply write_all_none. intros r I Nr. assert (In r order -> eqb (rg_name r) name && covers r p = false) as K.
      { intros I'. destruct (eqb (rg_name r) name && covers r p) eqn:Q; [|reflexivity]. exfalso. assert (existsb (fun r => eqb (rg_name r) name && covers r p) order = true) by (apply existsb_exists; exists r; auto). congruence. }
      specialize (K I). subst name. rewrite eqb_refl in K. exact K.
Qed.
Print Assumptions C66_store.

(** A position of a variable with both time dimensions is written by exactly one region: workers never write the
    same place. *)
Theorem C66_written_once : forall init lead isz lsz tc pl tl metrics full cs k v st p,
  unaggregated_evaluation init lead isz lsz tc pl tl metrics full ->
  emitted metrics pl tl tc = Ok cs -> stat full k v = Some st -> In "init_time" (dnames st) -> In "lead_time" (dnames st) -> in_array st p ->
  length (filter (fun r => eqb (rg_name r) (k ++ "." ++ v)%string && covers r p) cs) = 1%nat.
Proof.
  intros init lead isz lsz tc pl tl metrics full cs k v st p U HE Es D1 D2 P.
  destruct (run_offsets _ _ _ _ _ _ _ _ _ U) as (os & E & M & G & R). destruct (run_emitted _ _ _ _ _ _ _ _ _ U os E M G) as (scs & E' & F). assert (cs = concat (map (fun x => regions (fst (fst x)) (snd x)) (combine os scs))) as -> by congruence.
  destruct (ue_vars _ _ _ _ _ _ _ _ _ U k v st Es) as (Ws & L1 & L2 & _).
  set (ti := nth (Z.to_nat (p "init_time")) init 0). set (tl' := nth (Z.to_nat (p "lead_time")) lead 0).
  rewrite count_concat, map_map.
  assert (forall oc sc, In (oc, sc) (combine os scs) -> length (filter (fun r => eqb (rg_name r) (k ++ "." ++ v)%string && covers r p) (regions (fst oc) sc)) = if memb ti (c_init oc) && memb tl' (c_lead oc) then 1%nat else 0%nat) as K.
  { intros oc sc I. destruct (combine_Forall2 _ _ _ _ _ F I) as [Io S]. destruct (flat_stats full sc _ _ (ue_dicts _ _ _ _ _ _ _ _ _ U) S) as (N & A & B). destruct (B k v st Es) as (a & Ia & W & T).
    unfold regions. rewrite filter_map_length. cbv beta. set (q := fun x : string * string * da => _).
    assert (length (filter q (flat sc)) = length (filter (fun x => if eq_dec (fst x) (k, v) then q x else false) (flat sc))) as ->.
    { f_equal. apply filter_ext_in. intros [[k' v'] a'] J. cbn [fst]. destruct (eq_dec (k', v') (k, v)) as [E0|E0]; [reflexivity|]. unfold q. cbn [fst snd format_statistic rg_name].
      destruct (A k' v' a' J) as (st' & Es' & _). destruct (eqb (output_name k' v') (k ++ "." ++ v)%string) eqn:Q; [|reflexivity]. exfalso. apply eqb_true_iff in Q. unfold output_name in Q. destruct (ue_names _ _ _ _ _ _ _ _ _ U k' v' st' k v st Es' Es Q). congruence. }
    rewrite (count_key _ (flat sc) (k, v) a N Ia); [|intros x; destruct (eq_dec (fst x) (k, v)); [auto|discriminate]]. cbn [fst]. destruct (eq_dec (k, v) (k, v)) as [_|X]; [|congruence]. unfold q. cbn [fst snd].
    assert (covers (format_statistic (fst oc) k v a) p = memb ti (c_init oc) && memb tl' (c_lead oc)) as ->.
    { destruct (memb ti (c_init oc) && memb tl' (c_lead oc)) eqn:Q.
      - apply andb_true_iff in Q. destruct Q as [Q1 Q2]. apply memb_In in Q1, Q2. apply (region_covers _ _ _ _ _ _ _ _ _ U os G R oc k v st a p Io Es W T). auto.
      - destruct (covers (format_statistic (fst oc) k v a) p) eqn:C; [|reflexivity]. destruct (proj1 (proj1 (region_covers _ _ _ _ _ _ _ _ _ U os G R oc k v st a p Io Es W T)) C) as (_ & C1 & C2). rewrite <- Q. symmetry. apply andb_true_iff. split; apply memb_In; auto. }
    cbn [format_statistic rg_name]. unfold output_name. rewrite eqb_refl. reflexivity. }
  assert (map (fun x => length (filter (fun r => eqb (rg_name r) (k ++ "." ++ v)%string && covers r p) (regions (fst (fst x)) (snd x)))) (combine os scs) = map (fun oc => if memb ti (c_init oc) && memb tl' (c_lead oc) then 1%nat else 0%nat) os) as ->.
  { assert (length os = length scs) as LL by (clear -F; induction F; cbn; auto). transitivity (map (fun x : Proofs_Beam3.chunk * dict string (vars da) => if memb ti (c_init (fst x)) && memb tl' (c_lead (fst x)) then 1%nat else 0%nat) (combine os scs)).
    - apply map_ext_in. intros [oc sc] I. now apply K.
    - clear -LL. revert scs LL. induction os as [|o os IH]; intros [|c scs] LL; try discriminate; [reflexivity|]. cbn [combine map fst]. f_equal. apply IH. cbn in LL. lia. }
  destruct (gr_one _ _ _ G ti tl') as (l1 & oc & l2 & -> & Q & N).
  { apply nth_In. destruct (keys_dget _ _ D1) as [ls El]. specialize (P _ _ El). rewrite (L1 _ El), map_length in P. lia. }
  { apply nth_In. destruct (keys_dget _ _ D2) as [ls El]. specialize (P _ _ El). rewrite (L2 _ El), map_length in P. lia. }
  rewrite map_app. cbn [map]. rewrite list_sum_app. cbn [list_sum fold_right]. fold (list_sum (map (fun oc => if memb ti (c_init oc) && memb tl' (c_lead oc) then 1%nat else 0%nat) l2)). rewrite Q.
  assert (forall l, incl l (l1 ++ l2) -> list_sum (map (fun oc => if memb ti (c_init oc) && memb tl' (c_lead oc) then 1%nat else 0%nat) l) = 0%nat) as Z.
  { induction l as [|x l IH]; intros Hi; [reflexivity|]. cbn [map list_sum fold_right]. rewrite (N x) by (apply Hi; now left). apply IH. intros y J. apply Hi. now right. }
  rewrite (Z l1), (Z l2); [reflexivity|intros x J; apply in_app_iff; auto|intros x J; apply in_app_iff; auto].
Qed.
Print Assumptions C66_written_once.
