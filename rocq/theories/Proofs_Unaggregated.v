(** Chunks as regions of the store. *)
From Coq Require Import String ZArith List Bool Permutation Lia.
Import ListNotations.
From Verif Require Import Prelude Values Model_XArray Spec_XArray Proofs_XArray Model_Tree Model_MetricsBase Model_TimeChunks Spec_TimeChunks Proofs_TimeChunks
  Model_Aggregation Spec_Aggregator Model_Beam Spec_Beam Proofs_Beam Proofs_Beam2 Proofs_Beam3 Model_Unaggregated Spec_Unaggregated.
Local Open Scope Z_scope.
Local Open Scope string_scope.
Local Open Scope list_scope.

(** ** Runs of a list without repetitions *)
Lemma run_split (l p : list Z) off : p = run_at l off (length p) -> exists l1 l2, l = l1 ++ p ++ l2 /\ (p <> [] -> length l1 = Z.to_nat off).
Proof.
  intros H. exists (firstn (Z.to_nat off) l), (skipn (length p) (skipn (Z.to_nat off) l)). split.
  - rewrite <- (firstn_skipn (Z.to_nat off) l) at 1. f_equal. rewrite H at 1. unfold run_at. now rewrite firstn_skipn.
  - intros N. rewrite firstn_length. apply Nat.min_l. destruct (Nat.le_gt_cases (Z.to_nat off) (length l)); [auto|]. exfalso. apply N. rewrite H. unfold run_at. rewrite skipn_all2 by lia. apply firstn_nil.
Qed.
Lemma filter_run (l p : list Z) off : NoDup l -> p = run_at l off (length p) -> filter (fun x => memb x (map LZ p)) (map LZ l) = map LZ p.
Proof.
  intros N H. destruct (run_split _ _ _ H) as (l1 & l2 & -> & _). clear H.
  assert (forall q, (forall x, In x q -> ~ In x p) -> filter (fun x => memb x (map LZ p)) (map LZ q) = []) as E.
  { induction q as [|x q IH]; intros Hq; [reflexivity|]. cbn [map filter]. assert (memb (LZ x) (map LZ p) = false) as ->.
    { apply memb_false. intros I. apply in_map_iff in I. destruct I as (y & [= ->] & I). apply (Hq x); [now left|exact I]. }
    apply IH. intros y I. apply Hq. now right. }
  rewrite !map_app, !filter_app. rewrite (E l1), (E l2).
  - rewrite app_nil_r. cbn [app]. assert (forall q, incl q p -> filter (fun x => memb x (map LZ p)) (map LZ q) = map LZ q) as G.
    { induction q as [|x q IH]; intros Hq; [reflexivity|]. cbn [map filter]. assert (memb (LZ x) (map LZ p) = true) as -> by (apply memb_In, in_map, Hq; now left). f_equal. apply IH. intros y I. apply Hq. now right. }
    apply G, incl_refl.
  - intros x I J. assert (NoDup (p ++ l2)) as N' by (clear -N; induction l1 as [|y l1 IH]; [exact N|]; cbn [app] in N; apply NoDup_cons_iff in N; tauto). clear N. rename N' into N. clear -N I J. induction p as [|y p IH]; [destruct J|]. cbn [app] in N. apply NoDup_cons_iff in N. destruct N as [N1 N2]. destruct J as [->|J]; [apply N1, in_app_iff; auto|auto].
  - intros x I J. clear -N I J. induction l1 as [|y l1 IH]; [destruct I|]. cbn [app] in N. apply NoDup_cons_iff in N. destruct N as [N1 N2]. destruct I as [->|I]; [apply N1, in_app_iff; right; apply in_app_iff; auto|auto].
Qed.
Lemma run_nth (l p : list Z) off i : p = run_at l off (length p) -> 0 <= off -> off <= i < off + Z.of_nat (length p) -> nth (Z.to_nat (i - off)) p 0 = nth (Z.to_nat i) l 0 /\ i < Z.of_nat (length l).
Proof.
  intros H H0 Hi. destruct (run_split _ _ _ H) as (l1 & l2 & -> & L). assert (p <> []) as N by (intros ->; cbn in Hi; lia). specialize (L N). rewrite !app_length.
  rewrite (app_nth2 l1) by lia. rewrite app_nth1 by lia. split; [f_equal; lia|lia].
Qed.
Lemma run_index (l p : list Z) off i : NoDup l -> p = run_at l off (length p) -> 0 <= off -> 0 <= i < Z.of_nat (length l) ->
  off <= i < off + Z.of_nat (length p) <-> In (nth (Z.to_nat i) l 0) p.
Proof.
  intros N H H0 Hi. split.
  - intros Hr. destruct (run_nth _ _ _ i H H0 Hr) as [<- _]. apply nth_In. lia.
  - intros I. apply (In_nth _ _ 0) in I. destruct I as (j & Lj & Ej). destruct (run_nth l p off (off + Z.of_nat j) H H0) as [E E']; [lia|].
    replace (Z.to_nat (off + Z.of_nat j - off)) with j in E by lia. rewrite Ej in E. assert (Z.to_nat i = Z.to_nat (off + Z.of_nat j)) as Q; [|lia].
    apply (NoDup_nth l 0); auto; lia.
Qed.

(** ** The parts of an array *)
Lemma dget_chunk_dims I L ds d : dget (chunk_dims I L ds) d = option_map (filter (in_chunkb I L d)) (dget ds d).
Proof. unfold chunk_dims. induction ds as [|[k ls] ds IH]; [reflexivity|]. cbn [map dget fst snd]. destruct (eq_dec d k) as [->|]; [reflexivity|exact IH]. Qed.
Lemma dget_filter_name (ds : dimlist) (f : string -> bool) d : dget (filter (fun p => f (fst p)) ds) d = if f d then dget ds d else None.
Proof.
  induction ds as [|[k ls] ds IH]; [now destruct (f d)|]. cbn [filter fst dget]. destruct (f k) eqn:E; cbn [dget].
  - destruct (eq_dec d k) as [->|]; [now rewrite E|exact IH].
  - destruct (eq_dec d k) as [->|]; [rewrite IH, E; reflexivity|exact IH].
Qed.
Lemma dget_app_any {A} (l1 l2 : dict string A) d : dget (l1 ++ l2) d = match dget l1 d with Some x => Some x | None => dget l2 d end.
Proof. induction l1 as [|[k x] l1 IH]; [reflexivity|]. cbn [app dget]. destruct (eq_dec d k); [reflexivity|exact IH]. Qed.
Lemma dget_time_first a d : dget (dims (time_first a)) d = dget (dims a) d.
Proof.
  unfold time_first. cbn [dims]. rewrite !dget_app_any.
  rewrite (dget_filter_name (dims a) (fun k => eqb k "init_time")), (dget_filter_name (dims a) (fun k => eqb k "lead_time")), (dget_filter_name (dims a) (fun k => negb (eqb k "init_time") && negb (eqb k "lead_time"))).
  destruct (eqb d "init_time"), (eqb d "lead_time"); cbn [negb andb]; destruct (dget (dims a) d); reflexivity.
Qed.
Lemma names_time_first a d : In d (map fst (dims (time_first a))) <-> In d (dnames a).
Proof.
  unfold dnames. change (In d (keys (dims (time_first a))) <-> In d (keys (dims a))).
  split; intros I; apply keys_dget in I; destruct I as [x E]; [rewrite dget_time_first in E|rewrite <- dget_time_first in E]; now apply dget_Some_keys in E.
Qed.
Lemma NoDup_time_first a : NoDup (dnames a) -> NoDup (map fst (dims (time_first a))).
Proof.
  intros N. unfold time_first. cbn [dims]. rewrite !map_app.
  assert (forall f : string * list label -> bool, NoDup (map fst (filter f (dims a)))) as F.
  { intros f. unfold dnames in N. clear -N. induction (dims a) as [|x l IH]; [constructor|]. cbn [map filter] in *. apply NoDup_cons_iff in N. destruct N as [N1 N2]. destruct (f x); [|auto]. cbn [map]. constructor; [|auto]. intros I. apply N1. apply in_map_iff in I. destruct I as (y & E & I). apply filter_In in I. apply in_map_iff. exists y. tauto. }
  assert (forall f d, In d (map fst (filter (fun p : string * list label => f (fst p)) (dims a))) -> f d = true) as K.
  { intros f d I. apply in_map_iff in I. destruct I as (y & <- & I). now apply filter_In in I. }
  apply NoDup_app_intro; [apply F| |].
  - apply NoDup_app_intro; [apply F|apply F|]. intros d I J. apply (K (fun k => eqb k "lead_time")) in I. apply (K (fun k => negb (eqb k "init_time") && negb (eqb k "lead_time"))) in J. rewrite I in J. now rewrite andb_false_r in J.
  - intros d I J. apply (K (fun k => eqb k "init_time")) in I. apply in_app_iff in J. destruct J as [J|J].
    + apply (K (fun k => eqb k "lead_time")) in J. apply eqb_true_iff in I, J. congruence.
    + apply (K (fun k => negb (eqb k "init_time") && negb (eqb k "lead_time"))) in J. rewrite I in J. discriminate.
Qed.
Lemma offset_format o k v a d : offset_of (format_statistic o k v a) d =
  if memb d (dnames a) then (if eqb d "init_time" then off_init o else if eqb d "lead_time" then off_lead o else 0) else 0.
Proof.
  unfold offset_of, format_statistic, time_order. cbn [rg_offsets filter].
  destruct (eqb d "init_time") eqn:E1; [apply eqb_true_iff in E1; subst d|apply eqb_false_iff in E1].
  - destruct (memb "init_time" (dnames a)), (memb "lead_time" (dnames a)); reflexivity.
  - destruct (eqb d "lead_time") eqn:E2; [apply eqb_true_iff in E2; subst d|apply eqb_false_iff in E2].
    + destruct (memb "init_time" (dnames a)), (memb "lead_time" (dnames a)); reflexivity.
    + assert (forall l, incl l ["init_time"; "lead_time"] -> dget (map (fun d0 => (d0, if eqb d0 "init_time" then off_init o else off_lead o)) l) d = None) as K.
      { induction l as [|x l IH]; intros Hl; [reflexivity|]. cbn [map dget]. destruct (eq_dec d x) as [<-|]; [destruct (Hl d (or_introl eq_refl)) as [<-|[<-|[]]]; congruence|]. apply IH. intros y I. apply Hl. now right. }
      rewrite K; [now destruct (memb d (dnames a))|]. destruct (memb "init_time" (dnames a)), (memb "lead_time" (dnames a)); intros x I; cbn in *; tauto.
Qed.
Lemma covers_spec r p : NoDup (map fst (dims (rg_data r))) -> covers r p = true <-> forall d ls, dget (dims (rg_data r)) d = Some ls -> offset_of r d <= p d < offset_of r d + zlen ls.
Proof.
  intros N. unfold covers. rewrite forallb_forall. split.
  - intros H d ls E. apply dget_In in E. specialize (H _ E). cbn [fst snd] in H. apply andb_true_iff in H. destruct H as [H1 H2]. apply Z.leb_le in H1. apply Z.ltb_lt in H2. lia.
  - intros H [d ls] I. specialize (H d ls (In_dget _ _ _ N I)). cbn [fst snd]. apply andb_true_iff. split; [apply Z.leb_le|apply Z.ltb_lt]; lia.
Qed.

Section Part.
  Variables (init lead : list Z) (st a : da) (o : offsets) (ic lc : list Z) (k v : string).
  Hypothesis Ni : NoDup init. Hypothesis Nl : NoDup lead.
  Hypothesis Ri : ic = run_at init (off_init o) (length ic). Hypothesis Rl : lc = run_at lead (off_lead o) (length lc).
  Hypothesis Oi : 0 <= off_init o. Hypothesis Ol : 0 <= off_lead o.
  Hypothesis W : wf st. Hypothesis Wa : wf a.
  Hypothesis Hi : forall ls, dget (dims st) "init_time" = Some ls -> ls = map LZ init.
  Hypothesis Hl : forall ls, dget (dims st) "lead_time" = Some ls -> ls = map LZ lead.
  Hypothesis TS : time_slice (map LZ ic) (map LZ lc) st a.
  Let r := format_statistic o k v a.
  Lemma part_names d : In d (dnames a) <-> In d (dnames st).
  Proof. destruct TS as [E _]. unfold dnames. rewrite E. unfold chunk_dims. rewrite map_map. reflexivity. Qed.
  Lemma part_dget d : dget (dims a) d = match dget (dims st) d with None => None | Some ls => Some (if eqb d "init_time" then map LZ ic else if eqb d "lead_time" then map LZ lc else ls) end.
  Proof.
    destruct TS as [E _]. rewrite E, dget_chunk_dims. destruct (dget (dims st) d) as [ls|] eqn:Ed; [|reflexivity]. cbn [option_map]. f_equal. unfold in_chunkb.
    destruct (eqb d "init_time") eqn:E1; [apply eqb_true_iff in E1; subst d; cbn [String.eqb Ascii.eqb Bool.eqb]; rewrite (Hi _ Ed); now apply filter_run with (off := off_init o)|].
    destruct (eqb d "lead_time") eqn:E2; [apply eqb_true_iff in E2; subst d; cbn [String.eqb Ascii.eqb Bool.eqb]; rewrite (Hl _ Ed); now apply filter_run with (off := off_lead o)|].
    apply eqb_false_iff in E1, E2. apply String.eqb_neq in E1, E2. rewrite E1, E2. clear Ed. induction ls as [|x ls IH]; [reflexivity|]. cbn [filter]. now f_equal.
  Qed.
  Lemma part_covers p : covers r p = true <-> in_array st p /\
    (In "init_time" (dnames st) -> In (nth (Z.to_nat (p "init_time")) init 0) ic) /\ (In "lead_time" (dnames st) -> In (nth (Z.to_nat (p "lead_time")) lead 0) lc).
  Proof.
    rewrite covers_spec by (apply NoDup_time_first, Wa).
    assert (forall d ls, dget (dims (rg_data r)) d = Some ls <-> dget (dims a) d = Some ls) as DG by (intros d ls; unfold r, format_statistic; cbn [rg_data]; now rewrite dget_time_first).
    assert (forall d, In d (dnames st) -> offset_of r d = if eqb d "init_time" then off_init o else if eqb d "lead_time" then off_lead o else 0) as OF.
    { intros d I. unfold r. rewrite offset_format. apply part_names in I. apply memb_In in I. now rewrite I. }
    split.
    - intros H. split; [|split].
      + intros d ls E. pose proof (dget_Some_keys _ _ E) as Id. pose proof (part_dget d) as P. rewrite E in P. apply DG in P. apply H in P. rewrite (OF d Id) in P.
        destruct (eqb d "init_time") eqn:E1; [apply eqb_true_iff in E1; subst d|destruct (eqb d "lead_time") eqn:E2; [apply eqb_true_iff in E2; subst d|exact P]].
        * unfold zlen in P. rewrite map_length in P. destruct (run_nth _ _ _ _ Ri Oi P) as [_ Q]. rewrite (Hi _ E), map_length. lia.
        * unfold zlen in P. rewrite map_length in P. destruct (run_nth _ _ _ _ Rl Ol P) as [_ Q]. rewrite (Hl _ E), map_length. lia.
      + intros Id. pose proof (keys_dget _ _ Id) as [ls E]. pose proof (part_dget "init_time") as P. rewrite E in P. apply DG in P. apply H in P. rewrite (OF _ Id) in P. cbn in P. unfold zlen in P. rewrite map_length in P.
        destruct (run_nth _ _ _ _ Ri Oi P) as [_ Q]. apply (run_index init ic (off_init o)); auto. lia.
      + intros Id. pose proof (keys_dget _ _ Id) as [ls E]. pose proof (part_dget "lead_time") as P. rewrite E in P. apply DG in P. apply H in P. rewrite (OF _ Id) in P. cbn in P. unfold zlen in P. rewrite map_length in P.
        destruct (run_nth _ _ _ _ Rl Ol P) as [_ Q]. apply (run_index lead lc (off_lead o)); auto. lia.
    - intros (IA & HI & HL) d ls E. apply DG in E. rewrite part_dget in E. destruct (dget (dims st) d) as [ls0|] eqn:Ed; [|discriminate]. injection E as <-. pose proof (dget_Some_keys _ _ Ed) as Id. specialize (IA d ls0 Ed). rewrite (OF d Id).
      destruct (eqb d "init_time") eqn:E1; [apply eqb_true_iff in E1; subst d|destruct (eqb d "lead_time") eqn:E2; [apply eqb_true_iff in E2; subst d|unfold zlen; lia]].
      + rewrite (Hi _ Ed), map_length in IA. unfold zlen. rewrite map_length. apply (run_index init ic (off_init o)); auto.
      + rewrite (Hl _ Ed), map_length in IA. unfold zlen. rewrite map_length. apply (run_index lead lc (off_lead o)); auto.
  Qed.
  Lemma part_value p : covers r p = true -> value_at r p = value_by_position st p.
  Proof.
    intros C. pose proof C as C'. rewrite covers_spec in C' by (apply NoDup_time_first, Wa). unfold value_at, value_by_position. cbn [rg_data format_statistic r time_first get].
    set (e := fun d => nth (Z.to_nat (p d - offset_of (format_statistic o k v a) d)) (labels_of (dims (time_first a)) d) (LZ 0)).
    assert (forall d, In d (dnames st) -> e d = nth (Z.to_nat (p d)) (labels_of (dims st) d) (LZ 0) /\ In (e d) (labels_of (dims a) d)) as Q.
    { intros d Id. destruct (keys_dget _ _ Id) as [ls E]. pose proof (part_dget d) as P. rewrite E in P. assert (dget (dims (rg_data r)) d = Some (if eqb d "init_time" then map LZ ic else if eqb d "lead_time" then map LZ lc else ls)) as P' by (unfold r, format_statistic; cbn [rg_data]; rewrite dget_time_first; exact P).
      apply C' in P'. unfold e, labels_of. rewrite dget_time_first, P, E. fold r. unfold r in P' |- *. rewrite offset_format in P' |- *. assert (memb d (dnames a) = true) as M by (now apply memb_In, part_names). rewrite M in P' |- *.
      destruct (eqb d "init_time") eqn:E1; [apply eqb_true_iff in E1; subst d|destruct (eqb d "lead_time") eqn:E2; [apply eqb_true_iff in E2; subst d|]]; unfold zlen in P'; rewrite ?map_length in P'.
      - destruct (run_nth _ _ _ _ Ri Oi P') as [Q1 Q2]. rewrite (Hi _ E). split; [|apply nth_In; rewrite map_length; lia]. rewrite !(map_nth LZ). now f_equal.
      - destruct (run_nth _ _ _ _ Rl Ol P') as [Q1 Q2]. rewrite (Hl _ E). split; [|apply nth_In; rewrite map_length; lia]. rewrite !(map_nth LZ). now f_equal.
      - rewrite Z.sub_0_r. split; [reflexivity|apply nth_In; lia]. }
    destruct TS as (_ & _ & G). rewrite G.
    - apply W. intros d Id. apply Q. exact Id.
    - intros d ls I. assert (In d (dnames a)) as Id by (apply in_map_iff; exists (d, ls); auto). destruct (Q d (proj1 (part_names d) Id)) as [_ Q']. unfold labels_of in Q'. rewrite (In_dget _ _ _ (proj1 Wa) I) in Q'. exact Q'.
  Qed.
End Part.

(** ** Writing *)
Lemma write_all_none cs name p : (forall c, In c cs -> rg_name c = name -> covers c p = false) -> write_all cs name p = None.
Proof.
  intros H. unfold write_all. assert (forall s, s name p = None -> fold_left write cs s name p = None) as K; [|now apply K].
  induction cs as [|c cs IH]; intros s Hs; [exact Hs|]. cbn [fold_left]. apply IH; [intros c' I; apply H; now right|]. unfold write. destruct (eqb name (rg_name c)) eqn:E; [|exact Hs]. apply eqb_true_iff in E. rewrite (H c (or_introl eq_refl) (eq_sym E)). exact Hs.
Qed.
Lemma write_all_some cs name p w : (forall c, In c cs -> rg_name c = name -> covers c p = true -> value_at c p = w) -> (exists c, In c cs /\ rg_name c = name /\ covers c p = true) -> write_all cs name p = Some w.
Proof.
  intros H (c & I & N & C). unfold write_all. assert (forall s, (s name p = Some w \/ In c cs) -> fold_left write cs s name p = Some w) as K; [|apply K; auto].
  clear I. induction cs as [|c' cs IH]; intros s Hs; [destruct Hs as [Hs|[]]; exact Hs|]. cbn [fold_left]. apply IH; [intros x I; apply H; now right|].
  unfold write. destruct (eqb name (rg_name c') && covers c' p) eqn:E.
  - apply andb_true_iff in E. destruct E as [E1 E2]. apply eqb_true_iff in E1. left. f_equal. apply H; [now left|auto|exact E2].
  - destruct Hs as [Hs|[->|I]]; [now left| |now right]. subst name. rewrite C, eqb_refl in E. discriminate.
Qed.
