(** The viewer of the combined results (C73): what is plotted. *)
From Coq Require Import String Ascii ZArith List Bool Reals Lia Lra.
Import ListNotations.
From Verif Require Import Prelude Values Model_XArray Spec_XArray Proofs_XArray Model_MetricsBase Model_Aggregation Model_Loaders
  Proofs_AggState Model_Combine Spec_Combine Proofs_Combine Proofs_Combine2 Proofs_Combine3 Proofs_Combine4 Proofs_Combine5 Model_Viewer Spec_Viewer Proofs_Viewer.
Local Open Scope string_scope.
Local Open Scope list_scope.

Definition pos (l : label) : bool := match l with LZ t => Z.ltb 0 t | _ => false end.
Definition formula (metric : string) (s b : val) : val :=
  if String.eqb metric "ACC" then vmul (vdiv (vsub s b) (vsub (Fin 1%R) b)) (Fin 100%R) else vmul (vdiv (vsub s b) b) (Fin (-100)%R).
Definition masked (c : choice) (l : label) (v : val) : val :=
  if String.eqb (c_metric c) "Spread/Skill Ratio" then (if pos l then v else NaN) else v.
Definition pval (c : choice) (s b : val) (l : label) : val :=
  masked c l (if c_relative c then (if pos l then formula (c_metric c) s b else NaN) else s).

(** An array over models and lead times. *)
Record curves (s : da) : Prop := {
  cu_wf : wf s;
  cu_names : forall n, In n (dnames s) <-> n = "model" \/ n = "lead_time" }.
Lemma keep_single (ds : dimlist) (p : string -> bool) d : NoDup (map fst ds) -> (forall n, In n (map fst ds) -> (p n = true <-> n = d)) -> In d (map fst ds) -> keep p ds = [(d, labels_of ds d)].
Proof.
  induction ds as [|[k ls] ds IH]; intros N H I; [contradiction|]. cbn [map fst] in N, I. inversion N as [|? ? N1 N2]; subst. cbn [keep filter fst].
  pose proof (H k (or_introl eq_refl)) as Hk. destruct (p k) eqn:Ek.
  - assert (k = d) as -> by now apply Hk. unfold labels_of. cbn [dget]. destruct (eq_dec d d); [|congruence]. f_equal.
    assert (forall ds', (forall n, In n (map fst ds') -> p n = false) -> filter (fun q : string * list label => p (fst q)) ds' = []) as K.
    { induction ds' as [|[k' l'] ds' IH']; intros H'; [reflexivity|]. cbn [filter fst]. rewrite (H' k' (or_introl eq_refl)). apply IH'. intros n In'. apply H'. right. exact In'. }
    apply K. intros n In'. destruct (p n) eqn:En; [|reflexivity]. apply (H n (or_intror In')) in En. subst n. contradiction.
  - destruct I as [->|I]; [assert (false = true) by (apply Hk; reflexivity); discriminate|]. unfold labels_of. cbn [dget]. destruct (eq_dec d k) as [->|Nk]; [contradiction|]. apply IH; auto. intros n In'. apply H. right. exact In'.
Qed.
Lemma curves_keep s : curves s -> keep (other "model") (dims s) = [("lead_time", labels_of (dims s) "lead_time")].
Proof.
  intros [W N]. apply keep_single; [apply W| |].
  - intros n I. apply N in I. rewrite other_true. destruct I as [->| ->]; split; intros H; congruence.
  - apply N. auto.
Qed.
Lemma merge_keep p (ds : dimlist) : NoDup (map fst ds) -> merge_dims inter_labels ds (keep p ds) = ds.
Proof.
  intros N. unfold merge_dims. replace (filter _ (keep p ds)) with (@nil (string * list label)).
  - rewrite app_nil_r. erewrite map_ext_in; [apply map_id|]. intros [k ls] I. cbn [fst snd]. rewrite dget_keep. destruct (p k); [|reflexivity]. rewrite (In_dget _ _ _ N I), inter_self. reflexivity.
  - symmetry. assert (forall ds', (forall q, In q ds' -> In (fst q) (map fst ds)) -> filter (fun q : string * list label => negb (memb (fst q) (map fst ds))) ds' = []) as K.
    { induction ds' as [|q ds' IH]; intros H; [reflexivity|]. cbn [filter]. assert (memb (fst q) (map fst ds) = true) as -> by (apply memb_In, H; left; reflexivity). cbn [negb]. apply IH. intros q' I. apply H. right. exact I. }
    apply K. intros q I. unfold keep in I. apply filter_In in I. apply in_map, I.
Qed.
Lemma relative_dims metric s base p : NoDup (dnames s) -> dims base = keep p (dims s) -> dims (relative_score metric s base) = dims s.
Proof.
  intros N E. unfold relative_score. destruct (String.eqb metric "ACC"); cbn [da_map binop dims]; rewrite E, !merge_keep; auto; rewrite merge_keep; auto.
Qed.
Lemma where_ok a : In "lead_time" (dnames a) -> where_positive_lead a = Ok (da_where (fun e => pos (e "lead_time")) NaN a).
Proof. intros I. unfold where_positive_lead. apply memb_In in I. rewrite I. reflexivity. Qed.
Definition one (M l : label) : env := upd (upd env0 "lead_time" l) "model" M.
Lemma elements_line ls f x : elements (mkDa [("lead_time", ls)] f x) = map (fun l => f (upd env0 "lead_time" l)) ls.
Proof. unfold elements. cbn [dims get envs]. induction ls as [|l ls IH]; [reflexivity|]. cbn [flat_map map app]. rewrite IH. reflexivity. Qed.

Lemma plotted_Ok c s p al : curves s -> plotted c s = Ok (p, al) ->
  dims p = dims s /\ (forall e, get p e = pval c (get s e) (get s (upd e "model" (LS (c_relative_to c)))) (e "lead_time"))
  /\ if c_relative c then In (LS (c_relative_to c)) (labels_of (dims s) "model") /\
       al = match labels_of (dims s) "lead_time" with [] => false | L => forallb (fun l => isnan (get s (one (LS (c_relative_to c)) l))) L end
     else al = false.
Proof.
  intros Cu E. pose proof Cu as [W N]. unfold plotted in E.
  assert (exists q, (if c_relative c then In (LS (c_relative_to c)) (labels_of (dims s) "model") /\
       al = match labels_of (dims s) "lead_time" with [] => false | L => forallb (fun l => isnan (get s (one (LS (c_relative_to c)) l))) L end else al = false)
     /\ dims q = dims s /\ (forall e, get q e = if c_relative c then (if pos (e "lead_time") then formula (c_metric c) (get s e) (get s (upd e "model" (LS (c_relative_to c)))) else NaN) else get s e)
     /\ (if String.eqb (c_metric c) "Spread/Skill Ratio" then do r <- where_positive_lead q; Ok (r, al) else Ok (q, al)) = Ok (p, al)) as (q & Hal & Dq & Gq & E').
  { destruct (c_relative c) eqn:Er.
    - destruct (sel_label "model" (LS (c_relative_to c)) s) as [base|] eqn:Eb; [|discriminate]. cbn [bind] in E.
      destruct (sel_label_Ok _ _ _ _ W Eb) as (Im & Sb & Db).
      assert (In "lead_time" (dnames (relative_score (c_metric c) s base))) as Il by (unfold dnames; rewrite (relative_dims _ _ _ _ (proj1 W) Db); apply N; auto).
      rewrite (where_ok _ Il) in E. cbn [bind fst snd] in E.
      exists (da_where (fun e => pos (e "lead_time")) NaN (relative_score (c_metric c) s base)).
      assert (al = all_missing base) as Eal by (destruct (String.eqb (c_metric c) "Spread/Skill Ratio"); [destruct (where_positive_lead _) in E; [|discriminate]|]; injection E as _ <-; reflexivity).
      split; [|split; [|split]].
      + split; [apply (se_label _ _ _ _ Sb), Im|]. rewrite Eal. unfold all_missing.
        assert (elements base = map (fun l => get s (one (LS (c_relative_to c)) l)) (labels_of (dims s) "lead_time")) as ->.
        { destruct base as [bd bg bx]. cbn [dims] in Db. subst bd. rewrite (curves_keep s Cu), elements_line. apply map_ext. intros l. exact (se_get _ _ _ _ Sb (upd env0 "lead_time" l)). }
        destruct (labels_of (dims s) "lead_time") as [|l0 L]; [reflexivity|]. cbn [map forallb]. f_equal. clear. induction L as [|l1 L IH]; [reflexivity|]. cbn [map forallb]. rewrite IH. reflexivity.
      + exact (relative_dims _ _ _ _ (proj1 W) Db).
      + intros e. cbn [da_where get]. destruct (pos (e "lead_time")); [|reflexivity]. unfold relative_score, formula. destruct (String.eqb (c_metric c) "ACC"); cbn [da_map binop get]; rewrite (se_get _ _ _ _ Sb e); reflexivity.
      + rewrite Eal. destruct (String.eqb (c_metric c) "Spread/Skill Ratio"); [destruct (where_positive_lead _); [|discriminate]; cbn [bind] in *|]; injection E as <- _; reflexivity.
    - cbn [bind fst snd] in E. exists s.
      assert (al = false) as -> by (destruct (String.eqb (c_metric c) "Spread/Skill Ratio"); [destruct (where_positive_lead _) in E; [|discriminate]|]; injection E as _ <-; reflexivity).
      split; [reflexivity|]. split; [reflexivity|]. split; [reflexivity|]. exact E. }
  assert (In "lead_time" (dnames q)) as Il by (unfold dnames; rewrite Dq; apply N; auto).
  rewrite (where_ok _ Il) in E'. unfold pval, masked. destruct (String.eqb (c_metric c) "Spread/Skill Ratio"); cbn [bind] in E'; injection E' as <-; cbn [da_where dims get].
  - split; [exact Dq|]. split; [|exact Hal]. intros e. rewrite Gq. reflexivity.
  - split; [exact Dq|]. split; [|exact Hal]. intros e. rewrite Gq. reflexivity.
Qed.
Lemma plotted_ok c s : curves s -> (c_relative c = true -> In (LS (c_relative_to c)) (labels_of (dims s) "model")) -> exists r, plotted c s = Ok r.
Proof.
  intros Cu Hr. pose proof Cu as [W N]. unfold plotted.
  assert (exists q al, (if c_relative c then do baseline <- sel_label "model" (LS (c_relative_to c)) s; do s0 <- where_positive_lead (relative_score (c_metric c) s baseline); Ok (s0, all_missing baseline) else Ok (s, false)) = Ok (q, al) /\ dims q = dims s) as (q & al & -> & Dq).
  { destruct (c_relative c); [|exists s, false; auto]. destruct (sel_label_ok "model" (LS (c_relative_to c)) s W) as (base & -> & _ & Db); [apply N; auto|apply Hr; reflexivity|]. cbn [bind].
    assert (In "lead_time" (dnames (relative_score (c_metric c) s base))) as Il by (unfold dnames; rewrite (relative_dims _ _ _ _ (proj1 W) Db); apply N; auto).
    rewrite (where_ok _ Il). cbn [bind]. eexists _, _. split; [reflexivity|]. exact (relative_dims _ _ _ _ (proj1 W) Db). }
  cbn [bind fst snd]. destruct (String.eqb _ _); [|eexists; reflexivity]. rewrite where_ok; [eexists; reflexivity|]. unfold dnames. rewrite Dq. apply N. auto.
Qed.

(** ** The traces *)
Definition line (c : choice) (p : da) (M : label) : list val := map (fun l => get p (one M l)) (labels_of (dims p) "lead_time").
Lemma trace_line m hours c p l : NoDup (dnames p) -> (forall n, In n (dnames p) <-> n = "model" \/ n = "lead_time") -> In l (labels_of (dims p) "model") ->
  trace_of m hours c p l = if existsb isfin (line c p l) then
    match l with LS M => do col <- dgetE COLORS M; do sym <- dgetE SYMBOLS M; Ok [mkTrace M hours (line c p l) (c_markers c) col sym (first_visible m (c_variable c) M)] | _ => Err KeyError end else Ok [].
Proof.
  intros Nd N Il. unfold trace_of, sel_label. unfold labels_of in Il. destruct (dget (dims p) "model") as [have|] eqn:G; [|contradiction]. apply memb_In in Il. rewrite Il. cbn [bind].
  assert (keep (other "model") (dims p) = [("lead_time", labels_of (dims p) "lead_time")]) as Ek.
  { apply keep_single; [exact Nd| |apply N; auto]. intros n I. apply N in I. rewrite other_true. destruct I as [->| ->]; split; intros H; congruence. }
  change (keep (fun n : string => negb (eqb n "model")) (dims p)) with (keep (other "model") (dims p)). rewrite Ek, elements_line. fold (one l). reflexivity.
Qed.
Lemma concat_traces m hours c p ls ts : (forall l, In l ls -> trace_of m hours c p l = if existsb isfin (line c p l) then
    match l with LS M => do col <- dgetE COLORS M; do sym <- dgetE SYMBOLS M; Ok [mkTrace M hours (line c p l) (c_markers c) col sym (first_visible m (c_variable c) M)] | _ => Err KeyError end else Ok []) ->
  mapM (trace_of m hours c p) ls = Ok ts ->
  map (fun t => LS (t_name t)) (concat ts) = filter (fun l => existsb isfin (line c p l)) ls /\
  (forall t, In t (concat ts) -> t_x t = hours /\ t_y t = line c p (LS (t_name t)) /\ t_markers t = c_markers c /\ dget COLORS (t_name t) = Some (t_colour t) /\ dget SYMBOLS (t_name t) = Some (t_symbol t)
     /\ t_visible t = first_visible m (c_variable c) (t_name t)).
Proof.
  revert ts. induction ls as [|l ls IH]; intros ts H E; cbn [mapM] in E; [injection E as <-; split; [reflexivity|intros t []]|].
  match type of E with bind ?x _ = _ => destruct x as [r|] eqn:El; [|discriminate] end. cbn [bind] in E.
  match type of E with bind ?x _ = _ => destruct x as [rs|] eqn:Es; [|discriminate] end. injection E as <-.
  destruct (IH rs (fun l' I => H l' (or_intror I)) eq_refl) as [I1 I2]. rewrite (H l (or_introl eq_refl)) in El. cbn [concat filter]. destruct (existsb isfin (line c p l)).
  - destruct l as [| |M|]; try discriminate. unfold dgetE in El. destruct (dget COLORS M) as [col|] eqn:Ec; [|discriminate]. destruct (dget SYMBOLS M) as [sym|] eqn:Ey; [|discriminate]. cbn [bind] in El. injection El as <-.
    cbn [app map t_name]. rewrite I1. split; [reflexivity|]. intros t [<-|It]; [|apply I2, It]. cbn. auto 8.
  - injection El as <-. cbn [app]. auto.
Qed.
Lemma traces_ok m hours c p ls : (forall l, In l ls -> trace_of m hours c p l = if existsb isfin (line c p l) then
    match l with LS M => do col <- dgetE COLORS M; do sym <- dgetE SYMBOLS M; Ok [mkTrace M hours (line c p l) (c_markers c) col sym (first_visible m (c_variable c) M)] | _ => Err KeyError end else Ok []) ->
  (forall l, In l ls -> existsb isfin (line c p l) = true -> exists M, l = LS M /\ In M (keys COLORS) /\ In M (keys SYMBOLS)) ->
  exists ts, mapM (trace_of m hours c p) ls = Ok ts.
Proof.
  induction ls as [|l ls IH]; intros H K; [eexists; reflexivity|]. cbn [mapM]. rewrite (H l (or_introl eq_refl)).
  destruct IH as (rs & ->); [intros l' I; apply H; right; exact I|intros l' I; apply K; right; exact I|].
  destruct (existsb isfin (line c p l)) eqn:Ef; [|eexists; reflexivity]. destruct (K l (or_introl eq_refl) Ef) as (M & -> & Kc & Ks). apply keys_dget in Kc, Ks. destruct Kc as (col & Ec). destruct Ks as (sym & Ey).
  unfold dgetE. rewrite Ec, Ey. eexists. reflexivity.
Qed.
