(** C73: the viewer of the combined benchmark results. *)
From Coq Require Import String Ascii ZArith List Bool Reals Lia Lra.
Import ListNotations.
From Verif Require Import Prelude Values Model_XArray Spec_XArray Proofs_XArray Model_MetricsBase Model_Aggregation Model_Loaders
  Model_Combine Spec_Combine Proofs_Combine2 Proofs_Combine3 Model_Viewer Spec_Viewer Proofs_Viewer Proofs_Viewer2 Proofs_Viewer3 Proofs_Viewer4 Props_Combine.
Local Open Scope string_scope.
Local Open Scope list_scope.

Lemma Forall2_map_r {A B} (R : A -> B -> Prop) (f : A -> B) l : (forall x, In x l -> R x (f x)) -> Forall2 R l (map f l).
Proof. induction l as [|x l IH]; intros H; constructor; [apply H; left; reflexivity|apply IH; intros y I; apply H; right; exact I]. Qed.

(** ** Absolute scores *)
(** One curve for every model that has a finite score under the choices made, and no other; at every
    lead time the curve has the score of the model's result file, or nothing where there is none. *)
Theorem C73_curves m files out c previous p :
  result_files m files -> plain_files m files -> main m files = Ok out ->
  update_graph m (o_data out) (o_lead_time_h out) c previous = Ok p -> p_seeps_alert p = false -> c_relative c = false ->
  NoDup (map t_name (f_traces (p_figure p))) /\
  (forall M, In M (map t_name (f_traces (p_figure p))) <-> exists l x, file_score m files c M l (Fin x)) /\
  forall t, In t (f_traces (p_figure p)) -> exists leads, NoDup leads /\ hours_of leads (t_x t)
    /\ (forall l x, file_score m files c (t_name t) l x -> In l leads)
    /\ Forall2 (fun l y => drawn (file_score m files c (t_name t) l) y) leads (t_y t).
Proof.
  intros Hf Hp Em Ep Hs Hr. destruct (page_traces m files out Hf Hp Em c previous p Ep Hs) as (s & Es & _ & _ & N & HM & HT).
  assert (forall M l, In (LS M) (models_of s) -> In l (leads s) -> drawn (file_score m files c M l) (get s (one (LS M) l))) as D by (intros M l IM Il; apply (score_drawn m files out Hf Hp Em c s Es); auto).
  assert (forall M l, In (LS M) (models_of s) -> In l (leads s) -> point_value c s M l = get s (one (LS M) l)) as PV.
  { intros M l IM Il. unfold point_value, pval, masked. rewrite Hr. destruct (String.eqb (c_metric c) "Spread/Skill Ratio") eqn:Em'; [|reflexivity].
    destruct (D M l IM Il) as [[E|E] _]; [rewrite E; destruct (pos l); reflexivity|]. apply file_score_metric in E. congruence. }
  split; [exact N|]. split.
  - intros M. rewrite HM. split.
    + intros (IM & l & Il & F). rewrite (PV M l IM Il) in F. destruct (D M l IM Il) as [[E|E] _]; [rewrite E in F; discriminate|]. destruct (get s (one (LS M) l)) as [x| | |]; try discriminate. eauto.
    + intros (l & x & H). destruct (score_in m files out Hf Hp Em c s Es M l _ H) as (IM & Il & G). split; [exact IM|]. exists l. split; [exact Il|]. rewrite (PV M l IM Il), (G (one (LS M) l)); reflexivity.
  - intros t It. destruct (HT t It) as (IM & X & Y & _). exists (leads s). split; [apply (leads_NoDup m files out Hf Hp Em c s Es)|]. split; [rewrite X; apply (leads_hours m files out Hf Hp Em c s Es)|]. split.
    + intros l x H. apply (score_in m files out Hf Hp Em c s Es) in H. apply H.
    + rewrite Y. apply Forall2_map_r. intros l Il. rewrite (PV _ l IM Il). apply D; assumption.
Qed.

(** ** Scores relative to a model *)
(** Where both models have a score, after the start of the forecast, the curve is the percentage by
    which the model is better than the chosen one; elsewhere it is empty. *)
Theorem C73_relative m files out c previous p :
  result_files m files -> plain_files m files -> main m files = Ok out ->
  update_graph m (o_data out) (o_lead_time_h out) c previous = Ok p -> p_seeps_alert p = false -> c_relative c = true ->
  NoDup (map t_name (f_traces (p_figure p))) /\
  (forall M, In M (map t_name (f_traces (p_figure p))) <-> exists t s b, (0 < t)%Z /\
     file_score m files c M (LZ t) (Fin s) /\ file_score m files c (c_relative_to c) (LZ t) (Fin b) /\ comparable (c_metric c) b) /\
  forall t, In t (f_traces (p_figure p)) -> exists leads, NoDup leads /\ hours_of leads (t_x t)
    /\ (forall l x, file_score m files c (t_name t) l x -> In l leads)
    /\ Forall2 (fun l y =>
         (forall ns s b, l = LZ ns -> (0 < ns)%Z -> file_score m files c (t_name t) l (Fin s) -> file_score m files c (c_relative_to c) l (Fin b) ->
            comparable (c_metric c) b -> exists q, y = Fin q /\ percent_better (c_metric c) s b q)
         /\ (forall ns, l = LZ ns -> (ns <= 0)%Z -> y = NaN)
         /\ ((forall x, file_score m files c (t_name t) l x -> x = NaN) \/ (forall x, file_score m files c (c_relative_to c) l x -> x = NaN) -> y = NaN)) leads (t_y t).
Proof.
  intros Hf Hp Em Ep Hs Hr. destruct (page_traces m files out Hf Hp Em c previous p Ep Hs) as (s & Es & Irel & _ & N & HM & HT). specialize (Irel Hr).
  assert (forall M l, In (LS M) (models_of s) -> In l (leads s) -> drawn (file_score m files c M l) (get s (one (LS M) l))) as D by (intros M l IM Il; apply (score_drawn m files out Hf Hp Em c s Es); auto).
  assert (forall M l x, file_score m files c M l x -> In (LS M) (models_of s) /\ In l (leads s) /\ get s (one (LS M) l) = x) as SI.
  { intros M l x H. destruct (score_in m files out Hf Hp Em c s Es M l x H) as (IM & Il & G). split; [exact IM|]. split; [exact Il|]. apply G; reflexivity. }
  assert (forall M l, In (LS M) (models_of s) -> In l (leads s) -> (exists M' l' x, file_score m files c M' l' x) ->
            point_value c s M l = if pos l then formula (c_metric c) (get s (one (LS M) l)) (get s (one (LS (c_relative_to c)) l)) else NaN) as PV.
  { intros M l IM Il (M' & l' & x & H). unfold point_value, pval, masked. rewrite Hr, (file_score_metric _ _ _ _ _ _ H). reflexivity. }
  assert (forall M l, In (LS M) (models_of s) -> In l (leads s) -> isfin (point_value c s M l) = true -> 
            exists t x b, l = LZ t /\ (0 < t)%Z /\ file_score m files c M l (Fin x) /\ file_score m files c (c_relative_to c) l (Fin b) /\ comparable (c_metric c) b) as PF.
  { intros M l IM Il F. unfold point_value, pval in F. rewrite Hr in F. apply masked_isfin in F. destruct (pos l) eqn:Epos; [|discriminate]. destruct l as [t| | |]; try discriminate. apply Z.ltb_lt in Epos.
    apply formula_isfin in F. destruct F as (x & b & Ex & Eb & Hc). exists t, x, b. split; [reflexivity|]. split; [exact Epos|].
    destruct (D M _ IM Il) as [[E|E] _]; [congruence|]. destruct (D _ _ Irel Il) as [[E'|E'] _]; [congruence|]. rewrite Ex in E. rewrite Eb in E'. auto. }
  split; [exact N|]. split.
  - intros M. rewrite HM. split.
    + intros (IM & l & Il & F). destruct (PF M l IM Il F) as (t & x & b & -> & Ht & Hx & Hb & Hc). eauto 8.
    + intros (t & x & b & Ht & Hx & Hb & Hc). destruct (SI _ _ _ Hx) as (IM & Il & Gx). destruct (SI _ _ _ Hb) as (_ & _ & Gb). split; [exact IM|]. exists (LZ t). split; [exact Il|].
      rewrite (PV M _ IM Il) by eauto. cbn [pos]. apply Z.ltb_lt in Ht. rewrite Ht, Gx, Gb. destruct (formula_fin (c_metric c) x b Hc) as (q & -> & _). reflexivity.
  - intros t It. destruct (HT t It) as (IM & X & Y & _). exists (leads s). split; [apply (leads_NoDup m files out Hf Hp Em c s Es)|]. split; [rewrite X; apply (leads_hours m files out Hf Hp Em c s Es)|]. split.
    + intros l x H. apply SI in H. apply H.
    + rewrite Y. apply Forall2_map_r. intros l Il.
      assert (forall l', pos l' = false -> point_value c s (t_name t) l' = NaN) as PN by (intros l' E; unfold point_value, pval, masked; rewrite Hr, E; destruct (String.eqb _ _); reflexivity).
      split; [|split].
      * intros ns x b -> Hns Hx Hb Hc. destruct (SI _ _ _ Hx) as (_ & _ & Gx). destruct (SI _ _ _ Hb) as (_ & _ & Gb). rewrite (PV _ _ IM Il) by eauto. cbn [pos]. apply Z.ltb_lt in Hns. rewrite Hns, Gx, Gb. apply formula_fin, Hc.
      * intros ns -> Hns. apply PN. cbn [pos]. apply Z.ltb_ge. exact Hns.
      * intros Hn. unfold point_value, pval. rewrite Hr.
        assert (formula (c_metric c) (get s (one (LS (t_name t)) l)) (get s (one (LS (c_relative_to c)) l)) = NaN) as ->.
        { destruct Hn as [Hn|Hn].
          - assert (get s (one (LS (t_name t)) l) = NaN) as -> by (destruct (D _ _ IM Il) as [[E|E] _]; [exact E|apply Hn, E]). apply formula_nan_l.
          - assert (get s (one (LS (c_relative_to c)) l) = NaN) as -> by (destruct (D _ _ Irel Il) as [[E|E] _]; [exact E|apply Hn, E]). apply formula_nan_r. }
        unfold masked. destruct (pos l), (String.eqb _ _); reflexivity.
Qed.
(** For a score of which less is better and that is positive for the chosen model, a positive
    percentage means less error, 100 means none, 0 the same; for a correlation below 1 of the chosen
    model, a positive percentage means a greater one, and 100 a perfect one. *)
Theorem C73_better metric s b q : percent_better metric s b q ->
  (metric <> "ACC" -> (0 < b)%R -> ((0 < q <-> s < b) /\ (q = 0 <-> s = b) /\ (q = 100 <-> s = 0))%R) /\
  (metric = "ACC" -> (b < 1)%R -> ((0 < q <-> b < s) /\ (q = 0 <-> s = b) /\ (q = 100 <-> s = 1))%R).
Proof.
  unfold percent_better. intros H. split.
  - intros Hm Hb. apply String.eqb_neq in Hm. rewrite Hm in H. subst s.
    assert (b - b * (1 - q / 100) = b * (q / 100))%R as K by field. split; [split; intros H|split; split; intros H].
    + assert (0 < b * (q / 100))%R by (apply Rmult_lt_0_compat; lra). lra.
    + assert (0 < b * (q / 100))%R as P by lra. destruct (Rle_or_lt q 0) as [L|L]; [|exact L]. assert (b * (- (q / 100)) >= 0)%R by (apply Rle_ge, Rmult_le_pos; lra). lra.
    + subst q. field.
    + assert (b * (q / 100) = 0)%R as P by lra. apply Rmult_integral in P. lra.
    + subst q. field.
    + apply Rmult_integral in H. lra.
  - intros -> Hb. cbn in H. subst s.
    assert (0 < 1 - b)%R as P by lra. split; [split; intros H|split; split; intros H].
    + assert (0 < (1 - b) * (q / 100))%R by (apply Rmult_lt_0_compat; lra). lra.
    + destruct (Rle_or_lt q 0) as [L|L]; [|exact L]. assert ((1 - b) * (- (q / 100)) >= 0)%R by (apply Rle_ge, Rmult_le_pos; lra). lra.
    + subst q. field.
    + assert ((1 - b) * (q / 100) = 0)%R as Q by lra. apply Rmult_integral in Q. lra.
    + subst q. field.
    + assert ((1 - b) * (1 - q / 100) = 0)%R as Q by lra. apply Rmult_integral in Q. lra.
Qed.
(** For a bias and for a spread-skill ratio the percentage can mean the opposite: a bias of -3 counts
    as 400 percent better than a bias of 1, and a ratio of 1/2 as 50 percent better than the ideal 1. *)
Theorem C73_relative_bias_refuted :
  comparable "Bias" 1 /\ (forall q, percent_better "Bias" (-3) 1 q <-> q = 400%R) /\
  comparable "Spread/Skill" 1 /\ (forall q, percent_better "Spread/Skill" (1 / 2) 1 q <-> q = 50%R).
Proof. unfold comparable, percent_better. cbn. split; [lra|]. split; [intros q; split; lra|]. split; [lra|]. intros q; split; lra. Qed.

(** ** Alerts *)
(** The alert of the relative mode opens if the chosen model has no score; nothing is drawn then. *)
Theorem C73_alert m files out c previous p :
  result_files m files -> plain_files m files -> main m files = Ok out ->
  update_graph m (o_data out) (o_lead_time_h out) c previous = Ok p -> p_seeps_alert p = false ->
  (p_relative_alert p = true -> c_relative c = true /\ (forall l x, file_score m files c (c_relative_to c) l x -> x = NaN) /\ f_traces (p_figure p) = []) /\
  (c_relative c = true -> (exists M l x, file_score m files c M l x) -> (forall l x, file_score m files c (c_relative_to c) l x -> x = NaN) -> p_relative_alert p = true).
Proof.
  intros Hf Hp Em Ep Hs. destruct (page_traces m files out Hf Hp Em c previous p Ep Hs) as (s & Es & Irel & Ea & N & HM & HT).
  assert (forall M l, In (LS M) (models_of s) -> In l (leads s) -> drawn (file_score m files c M l) (get s (one (LS M) l))) as D by (intros M l IM Il; apply (score_drawn m files out Hf Hp Em c s Es); auto).
  split.
  - intros Ha. rewrite Ea in Ha. destruct (c_relative c) eqn:Hr; [|discriminate]. specialize (Irel eq_refl). split; [reflexivity|].
    assert (forall l, In l (leads s) -> get s (one (LS (c_relative_to c)) l) = NaN) as An.
    { intros l Il. destruct (leads s) as [|l0 L] eqn:EL; [contradiction|]. rewrite forallb_forall in Ha. apply Ha in Il. destruct (get s _); try discriminate. reflexivity. }
    split.
    + intros l x H. destruct (score_in m files out Hf Hp Em c s Es _ _ _ H) as (_ & Il & G). rewrite <- (G (one (LS (c_relative_to c)) l)) by reflexivity. apply An, Il.
    + destruct (f_traces (p_figure p)) as [|t ts] eqn:Et; [reflexivity|exfalso]. destruct (proj1 (HM (t_name t)) (or_introl eq_refl)) as (IM & l & Il & F).
      unfold point_value, pval in F. rewrite Hr in F. apply masked_isfin in F. destruct (pos l); [|discriminate]. rewrite (An l Il), formula_nan_r in F. discriminate.
  - intros Hr (M & l & x & H) Hn. rewrite Ea, Hr. specialize (Irel Hr). destruct (score_in m files out Hf Hp Em c s Es _ _ _ H) as (_ & Il & _).
    assert (forallb (fun l => isnan (get s (one (LS (c_relative_to c)) l))) (leads s) = true) as K.
    { apply forallb_forall. intros l' Il'. destruct (D _ l' Irel Il') as [[E|E] _]; [rewrite E; reflexivity|]. rewrite (Hn _ _ E). reflexivity. }
    destruct (leads s); [contradiction|exact K].
Qed.
(** SEEPS is refused for variables other than precipitation and for comparisons with a model that is
    evaluated against the IFS analysis; nothing is drawn then. *)
Theorem C73_seeps m ds hours c previous p : update_graph m ds hours c previous = Ok p ->
  (p_seeps_alert p = true <-> c_metric c = "SEEPS" /\ (~ is_precipitation (c_variable c) \/ (c_relative c = true /\ contains "vs Analysis" (c_relative_to c) = true)))
  /\ (p_seeps_alert p = true -> f_traces (p_figure p) = [] /\ p_relative_alert p = false).
Proof.
  assert (seeps_alert c = true <-> c_metric c = "SEEPS" /\ (~ is_precipitation (c_variable c) \/ (c_relative c = true /\ contains "vs Analysis" (c_relative_to c) = true))) as K.
  { unfold seeps_alert, is_precipitation. rewrite andb_true_iff, String.eqb_eq, orb_true_iff, negb_true_iff, memb_false, andb_true_iff. cbn [In].
    split; intros [H1 H2]; (split; [exact H1|]); (destruct H2 as [H2|H2]; [left|right; exact H2]); intros K; apply H2; destruct K as [K|K]; auto; destruct K as [K|[]]; auto. }
  intros E. rewrite <- K. unfold update_graph in E. destruct (seeps_alert c) eqn:Es.
  - injection E as <-. cbn. tauto.
  - repeat match type of E with bind ?x _ = _ => destruct x; [|discriminate]; cbn [bind] in E end. injection E as <-. cbn. split; [split; intros; congruence|discriminate].
Qed.
Theorem C73_vs_analysis m sys M : shown_model m sys M -> (contains "vs Analysis" M = true <-> endswith "_vs_hres_t0" sys = true).
Proof.
  intros H. assert (forallb (fun x => Bool.eqb (contains "vs Analysis" (snd x)) (endswith "_vs_hres_t0" (fst x))) (displayed_systems m) = true) as C by (destruct m; vm_compute; reflexivity).
  rewrite forallb_forall in C. apply (C (sys, M)) in H. apply Bool.eqb_prop in H. cbn [fst snd] in H. rewrite H. reflexivity.
Qed.

(** ** No choice the menus offer fails *)
Theorem C73_succeeds m files out c previous : result_files m files -> plain_files m files -> main m files = Ok out -> offered_choice (o_data out) c ->
  exists p, update_graph m (o_data out) (o_lead_time_h out) c previous = Ok p.
Proof. intros Hf Hp Em Ho. exact (update_ok m files out Hf Hp Em c previous Ho). Qed.

(** ** What is switched on *)
Lemma precipitation_variables_shown v V : shown_variable v V -> (contains "Precipitation" V = true <-> is_precipitation V).
Proof.
  intros H. assert (forallb (fun x => Bool.eqb (contains "Precipitation" (snd x)) (memb (snd x) ["6h Precipitation"; "24h Precipitation"])) displayed_variables = true) as C by (vm_compute; reflexivity).
  rewrite forallb_forall in C. apply (C (v, V)) in H. apply Bool.eqb_prop in H. cbn [fst snd] in H. rewrite H, memb_In. unfold is_precipitation. cbn [In]. split; [intros [K|[K|[]]]; auto|intros [K|K]; auto].
Qed.
Lemma trace_visible m ds hours c previous p : update_graph m ds hours c previous = Ok p -> forall t, In t (f_traces (p_figure p)) ->
  exists t0, t = retain previous t0 /\ t_visible t0 = first_visible m (c_variable c) (t_name t0).
Proof.
  intros E t It. unfold update_graph in E. destruct (seeps_alert c); [injection E as <-; contradiction|].
  destruct (selection_of ds c) as [s|]; [|discriminate]. cbn [bind] in E. destruct (plotted c s) as [[q al]|]; [|discriminate]. cbn [bind fst snd] in E. destruct (dget (dims q) "model") as [ms|]; [|discriminate]. cbn [bind] in E.
  destruct (mapM (trace_of m hours c q) ms) as [ts|] eqn:Et; [|discriminate]. cbn [bind] in E. destruct (ylabel c); [|discriminate]. cbn [bind] in E. injection E as <-. cbn [p_figure f_traces] in It. apply in_map_iff in It. destruct It as (t0 & <- & I0). exists t0. split; [reflexivity|].
  clear -Et I0. revert ts Et I0. induction ms as [|l ms IH]; intros ts E I; cbn [mapM] in E; [injection E as <-; contradiction|].
  match type of E with bind ?x _ = _ => destruct x as [r|] eqn:El; [|discriminate] end. cbn [bind] in E. match type of E with bind ?x _ = _ => destruct x as [rs|] eqn:Er; [|discriminate] end. injection E as <-. cbn [concat] in I. apply in_app_iff in I. destruct I as [I|I]; [|exact (IH rs eq_refl I)].
  clear -El I. unfold trace_of in El. destruct (sel_label "model" l q) as [y|]; [|discriminate]. cbn [bind] in El. destruct (existsb isfin (elements y)); [|injection El as <-; contradiction]. destruct l as [| |M|]; try discriminate.
  destruct (dgetE COLORS M); [|discriminate]. cbn [bind] in El. destruct (dgetE SYMBOLS M); [|discriminate]. cbn [bind] in El. injection El as <-. destruct I as [<-|[]]. reflexivity.
Qed.
(** On a page opened afresh the curves of the default models are drawn, the others only listed. *)
Theorem C73_first_view m ds hours c p v : shown_variable v (c_variable c) -> update_graph m ds hours c None = Ok p ->
  forall t, In t (f_traces (p_figure p)) -> exists precipitation : bool, (precipitation = true <-> is_precipitation (c_variable c)) /\
    (In (t_name t) (shown_at_first m precipitation) -> t_visible t = None) /\ (~ In (t_name t) (shown_at_first m precipitation) -> t_visible t = Some VLegendonly).
Proof.
  intros HV E t It. destruct (trace_visible m ds hours c None p E t It) as (t0 & -> & Ev). cbn [retain]. exists (contains "Precipitation" (c_variable c)). split; [eapply precipitation_variables_shown, HV|].
  rewrite Ev. unfold first_visible. destruct (contains "Precipitation" (c_variable c)); [|destruct m]; cbn [shown_at_first];
  match goal with |- context [memb ?x ?l] => destruct (memb x l) eqn:Mb end; (apply memb_In in Mb || apply memb_false in Mb); split; intros H; auto; contradiction.
Qed.
(** Afterwards a curve that was on the page stays as the user left it; a new one is drawn if it is
    among the four deterministic defaults. *)
Lemma visible_state_get data : forall acc, NoDup (map fst data) -> (forall n, In n (map fst data) -> ~ In n (keys acc)) -> forall n,
  dget (fold_left (fun acc (i : string * option visible) => dset acc (fst i) (match snd i with Some v => v | None => VTrue end)) data acc) n =
  match dget data n with Some v => Some (match v with Some v => v | None => VTrue end) | None => dget acc n end.
Proof.
  induction data as [|[k v] data IH]; intros acc N H n; [reflexivity|]. cbn [fold_left fst snd]. cbn [map fst] in N. inversion N as [|? ? N1 N2]; subst. rewrite IH.
  - cbn [dget]. rewrite dget_dset. destruct (eq_dec n k) as [->|Nk].
    + destruct (dget data k) as [x|] eqn:G; [exfalso; apply N1; change (In k (keys data)); eapply dget_Some_keys, G|]. destruct (eq_dec k k); [reflexivity|congruence].
    + destruct (dget data n); [reflexivity|]. destruct (eq_dec k n); [congruence|reflexivity].
  - exact N2.
  - intros n' I. rewrite keys_dset. destruct (memb k (keys acc)); [apply H; right; exact I|]. intros K. apply in_app_iff in K. destruct K as [K|[K|[]]]; [apply (H n'); [right; exact I|exact K]|]. subst n'. contradiction.
Qed.
Theorem C73_keeps_visibility m ds hours c data p : NoDup (map fst data) -> update_graph m ds hours c (Some data) = Ok p ->
  forall t, In t (f_traces (p_figure p)) ->
    (forall v, In (t_name t, v) data -> t_visible t = Some (match v with Some v => v | None => VTrue end)) /\
    (~ In (t_name t) (map fst data) -> t_visible t = Some (if memb (t_name t) (shown_at_first Deterministic false) then VTrue else VLegendonly)).
Proof.
  intros N E t It. destruct (trace_visible m ds hours c (Some data) p E t It) as (t0 & -> & _). cbn [retain t_name t_visible]. unfold visible_state. rewrite visible_state_get; [|exact N|intros n _ []]. split.
  - intros v I. rewrite (In_dget _ _ _ N I). reflexivity.
  - intros Hn. assert (dget data (t_name t0) = None) as -> by (apply dget_None; exact Hn). reflexivity.
Qed.
(** *** The defaults of the probabilistic page last only until the first change: a default model whose
    curve is new on a page that had been drawn before is only listed. *)
Definition refuted_ds : vars da :=
  [("Temperature", mkDa [("model", [LS "IFS ENS vs Analysis"]); ("resolution", [LS "240x121"]); ("year", [LS "2020"]); ("metric", [LS "CRPS"]); ("region", [LS "Global"]); ("level", [LZ 850]); ("lead_time", [LZ 0])] (fun _ => Fin 1) [])].
Theorem C73_defaults_after_change_refuted : In "IFS ENS vs Analysis" (shown_at_first Probabilistic false) /\
  exists p, update_graph Probabilistic refuted_ds [0%Z] (initial_choice Probabilistic) (Some []) = Ok p /\
    map (fun t => (t_name t, t_visible t)) (f_traces (p_figure p)) = [("IFS ENS vs Analysis", Some VLegendonly)].
Proof. split; [cbn; auto|]. eexists. split; reflexivity. Qed.
(** The default models of a page are models it can show, except that the probabilistic page has none
    for precipitation: nothing is drawn there until the user switches a curve on. *)
Theorem C73_defaults m precipitation M : In M (shown_at_first m precipitation) -> ~ (m = Probabilistic /\ precipitation = true) -> exists sys, shown_model m sys M.
Proof.
  intros I H. assert (In M (map snd (displayed_systems m))) as K; [|apply in_map_iff in K; destruct K as ([sys M'] & E & K); cbn in E; subst M'; exists sys; exact K].
  destruct m, precipitation; try (exfalso; apply H; auto; fail); cbn in I; repeat (destruct I as [<-|I]; [apply memb_In; vm_compute; reflexivity|]); contradiction.
Qed.
Theorem C73_probabilistic_precipitation_refuted M : In M (shown_at_first Probabilistic true) -> forall sys, ~ shown_model Probabilistic sys M.
Proof.
  intros I sys H. assert (forallb (fun x => negb (memb (snd x) (shown_at_first Probabilistic true))) (displayed_systems Probabilistic) = true) as C by (vm_compute; reflexivity).
  rewrite forallb_forall in C. apply (C (sys, M)) in H. apply negb_true_iff, memb_false in H. contradiction.
Qed.

(** ** How the curves look *)
(** Curves drawn with markers differ in colour or symbol, except those of two models. *)
Definition same_look (M N : string) : Prop := dget COLORS M = dget COLORS N /\ dget SYMBOLS M = dget SYMBOLS N.
Definition colour_eqb (x y : colour) : bool :=
  match x, y with Tab10 a, Tab10 b => Nat.eqb a b | Husl a, Husl b => Nat.eqb a b | Css a, Css b => String.eqb a b | _, _ => false end.
Theorem C73_looks m sys sys' M N : shown_model m sys M -> shown_model m sys' N -> same_look M N -> M = N \/
  (M = "Keisler (2022) vs ERA5" /\ N = "Baguan vs ERA5") \/ (M = "Baguan vs ERA5" /\ N = "Keisler (2022) vs ERA5").
Proof.
  intros HM HN [E1 E2].
  set (test := fun x y : string * string => negb (match dget COLORS (snd x), dget COLORS (snd y) with Some a, Some b => colour_eqb a b | _, _ => true end
      && match dget SYMBOLS (snd x), dget SYMBOLS (snd y) with Some a, Some b => String.eqb a b | _, _ => true end)
      || String.eqb (snd x) (snd y) || (String.eqb (snd x) "Keisler (2022) vs ERA5" && String.eqb (snd y) "Baguan vs ERA5") || (String.eqb (snd x) "Baguan vs ERA5" && String.eqb (snd y) "Keisler (2022) vs ERA5")).
  assert (forallb (fun x => forallb (test x) (displayed_systems m)) (displayed_systems m) = true) as C by (destruct m; vm_compute; reflexivity).
  rewrite forallb_forall in C. apply (C (sys, M)) in HM. rewrite forallb_forall in HM. apply HM in HN. clear HM C. unfold test in HN. cbn [snd] in HN. rewrite E1, E2 in HN.
  assert (match dget COLORS N, dget COLORS N with Some a, Some b => colour_eqb a b | _, _ => true end = true) as K1 by (destruct (dget COLORS N) as [[a|a|a]|]; cbn; auto using Nat.eqb_refl, String.eqb_refl).
  assert (match dget SYMBOLS N, dget SYMBOLS N with Some a, Some b => String.eqb a b | _, _ => true end = true) as K2 by (destruct (dget SYMBOLS N) as [a|]; cbn; auto using String.eqb_refl).
  rewrite K1, K2 in HN. cbn [andb negb orb] in HN. apply orb_true_iff in HN. destruct HN as [HN|HN]; [apply orb_true_iff in HN; destruct HN as [HN|HN]|].
  - left. now apply String.eqb_eq.
  - right. left. apply andb_true_iff in HN. rewrite !String.eqb_eq in HN. exact HN.
  - right. right. apply andb_true_iff in HN. rewrite !String.eqb_eq in HN. exact HN.
Qed.
Theorem C73_looks_refuted : shown_model Deterministic "keisler_vs_era5" "Keisler (2022) vs ERA5" /\ shown_model Deterministic "baguan_vs_era5" "Baguan vs ERA5" /\
  same_look "Keisler (2022) vs ERA5" "Baguan vs ERA5".
Proof. split; [apply -> (memb_In ("keisler_vs_era5", "Keisler (2022) vs ERA5")); vm_compute; reflexivity|]. split; [apply -> (memb_In ("baguan_vs_era5", "Baguan vs ERA5")); vm_compute; reflexivity|]. split; reflexivity. Qed.
(** Every curve has the colour and the symbol of its model, hence the same on every page. *)
Theorem C73_look_of_model m ds hours c previous p : update_graph m ds hours c previous = Ok p -> forall t, In t (f_traces (p_figure p)) ->
  dget COLORS (t_name t) = Some (t_colour t) /\ dget SYMBOLS (t_name t) = Some (t_symbol t).
Proof.
  intros E t It. unfold update_graph in E. destruct (seeps_alert c); [injection E as <-; contradiction|].
  destruct (selection_of ds c) as [s|]; [|discriminate]. cbn [bind] in E. destruct (plotted c s) as [[q al]|]; [|discriminate]. cbn [bind fst snd] in E. destruct (dget (dims q) "model") as [ms|]; [|discriminate]. cbn [bind] in E.
  destruct (mapM (trace_of m hours c q) ms) as [ts|] eqn:Et; [|discriminate]. cbn [bind] in E. destruct (ylabel c); [|discriminate]. cbn [bind] in E. injection E as <-. cbn [p_figure f_traces] in It. apply in_map_iff in It. destruct It as (t0 & <- & I0).
  assert (t_name (retain previous t0) = t_name t0 /\ t_colour (retain previous t0) = t_colour t0 /\ t_symbol (retain previous t0) = t_symbol t0) as (-> & -> & ->) by (unfold retain; destruct previous; auto).
  clear -Et I0. revert ts Et I0. induction ms as [|l ms IH]; intros ts E I; cbn [mapM] in E; [injection E as <-; contradiction|].
  match type of E with bind ?x _ = _ => destruct x as [r|] eqn:El; [|discriminate] end. cbn [bind] in E. match type of E with bind ?x _ = _ => destruct x as [rs|] eqn:Er; [|discriminate] end. injection E as <-. cbn [concat] in I. apply in_app_iff in I. destruct I as [I|I]; [|exact (IH rs eq_refl I)].
  clear -El I. unfold trace_of in El. destruct (sel_label "model" l q) as [y|]; [|discriminate]. cbn [bind] in El. destruct (existsb isfin (elements y)); [|injection El as <-; contradiction]. destruct l as [| |M|]; try discriminate.
  unfold dgetE in El. destruct (dget COLORS M) eqn:EC; [|discriminate]. cbn [bind] in El. destruct (dget SYMBOLS M) eqn:ES; [|discriminate]. cbn [bind] in El. injection El as <-. destruct I as [<-|[]]. auto.
Qed.

(** ** The axis and the menus *)
(** The vertical axis names the metric and the unit of the variable, or the comparison. *)
Theorem C73_axis m ds hours c previous p : update_graph m ds hours c previous = Ok p -> p_seeps_alert p = false ->
  f_ylabel (p_figure p) = (if c_relative c then "% improvement relative to " ++ c_relative_to c
    else if String.eqb (c_metric c) "ACC" then "ACC"
    else match dget UNITS (c_variable c) with Some u => (if String.eqb (c_metric c) "rms_bias" then "RMS Bias" else c_metric c) ++ " [" ++ u ++ "]" | None => "" end)%string
  /\ f_range (p_figure p) = (0%Z, match m with Deterministic => 240%Z | Probabilistic => 360%Z end).
Proof.
  intros E Hs. unfold update_graph in E. destruct (seeps_alert c); [injection E as <-; discriminate|].
  repeat match type of E with bind ?x _ = _ => destruct x eqn:?; [|discriminate]; cbn [bind] in E end. injection E as <-. cbn [p_figure f_ylabel f_range]. split; [|reflexivity].
  match goal with H : ylabel c = Ok _ |- _ => revert H end. unfold ylabel, dgetE. destruct (c_relative c); [intros [= <-]; reflexivity|]. destruct (String.eqb (c_metric c) "ACC"); [intros [= <-]; reflexivity|]. destruct (dget UNITS (c_variable c)); [|discriminate]. intros [= <-]. reflexivity.
Qed.
(** A mean squared error is labelled with the unit of the variable, not with its square. *)
Theorem C73_unit_of_mse_refuted : dget UNITS "Temperature" = Some "K" /\ forall r, ylabel (mkChoice "Temperature" "MSE" (LZ 850) "Global" "2020" "240x121" false r true) = Ok "MSE [K]".
Proof. split; reflexivity. Qed.
(** The level menu is switched off for variables without levels, except for two of them. *)
Theorem C73_level_menu v V : shown_variable v V -> (In V single_level <-> disable_level V = true \/ V = "10m U Component of Wind" \/ V = "10m V Component of Wind").
Proof.
  intros H. assert (forallb (fun x => Bool.eqb (memb (snd x) single_level) (disable_level (snd x) || String.eqb (snd x) "10m U Component of Wind" || String.eqb (snd x) "10m V Component of Wind")) displayed_variables = true) as C by (vm_compute; reflexivity).
  rewrite forallb_forall in C. apply (C (v, V)) in H. apply Bool.eqb_prop in H. cbn [snd] in H. rewrite <- memb_In, H, !orb_true_iff, !String.eqb_eq. tauto.
Qed.
Theorem C73_level_menu_refuted : disable_level "10m U Component of Wind" = false /\ disable_level "10m V Component of Wind" = false /\ disable_level "10m Wind Speed" = true.
Proof. repeat split. Qed.
(** Whatever score the files hold, the menus offer the choices that show it. *)
Theorem C73_offered m files out c M l x : result_files m files -> plain_files m files -> main m files = Ok out -> file_score m files c M l x ->
  In (c_variable c) (keys (o_data out)) /\
  forall d y, In (d, y) [("metric", LS (c_metric c)); ("region", LS (c_region c)); ("year", LS (c_year c)); ("resolution", LS (c_resolution c)); ("model", LS M)] ->
    exists ls, offered (o_data out) d = Ok ls /\ In y ls.
Proof.
  intros Hf Hp Em H. destruct (C70_values m files out Hf Em _ _ _ H) as (b & G & P & _). split; [eapply dget_Some_keys, G|]. intros d y I.
  destruct (data_var m files out Hf Hp Em _ _ G) as (Wb & _ & _ & D2).
  assert (In d (dnames b) /\ score_at c M l d = y) as [Id Ey] by (cbn [In] in I; repeat (destruct I as [I|I]; [injection I as <- <-; split; [apply D2; cbn; auto 8|reflexivity]|]); contradiction).
  assert (exists ls, offered (o_data out) d = Ok ls) as (ls & El).
  { unfold offered, ds_labels. destruct (find _ _) as [kv|] eqn:F; [eexists; reflexivity|]. exfalso. eapply find_none in F; [|apply dget_In; exact G]. cbn [snd] in F. apply memb_false in F. contradiction. }
  exists ls. split; [exact El|]. destruct (offered_labels m files out Hf Em d ls El) as [_ K]. rewrite <- (K _ _ G Id), <- Ey. exact (proj1 (point_of_labels (dims b) (score_at c M l) (proj1 Wb)) P d Id).
Qed.

(** ** A case that meets the hypotheses *)
Definition ex_v_files (fn : string) : option (vars da) :=
  if String.eqb fn "hres_vs_era5_240x121_2020.nc" then Some [("rmse.temperature", ex_array (fun _ => 2%R))]
  else if String.eqb fn "graphcast_vs_era5_240x121_2020.nc" then Some [("rmse.temperature", ex_array (fun _ => 1%R))] else None.
Definition ex_choice (relative : bool) : choice :=
  mkChoice "Temperature" "RMSE" (LZ 500) "Europe (Land)" "2020" "240x121" relative "IFS HRES vs ERA5" true.
Lemma ex_v_found ds : found Deterministic ex_v_files ds -> exists x, ds = [("rmse.temperature", ex_array (fun _ => x))].
Proof. intros (mo & M & ye & re & _ & E). unfold ex_v_files in E. destruct (String.eqb _ _); [injection E as <-; eauto|]. destruct (String.eqb _ _); [injection E as <-; eauto|discriminate]. Qed.
Lemma ex_v_arrays ds n a : found Deterministic ex_v_files ds -> dget ds n = Some a -> exists x, a = ex_array (fun _ => x).
Proof. intros H G. apply ex_v_found in H. destruct H as (x & ->). cbn [dget] in G. destruct (eq_dec n _); [injection G as <-; eauto|discriminate]. Qed.
Example C73_example_hypotheses : result_files Deterministic ex_v_files /\ plain_files Deterministic ex_v_files.
Proof.
  split; [split|].
  - intros ds H. pose proof (fun n a => ex_v_arrays ds n a H) as Ha. apply ex_v_found in H. destruct H as (x & ->). apply (ex_dataset ["temperature"]).
    + intros v [<-|[]]. apply memb_In. vm_compute. reflexivity.
    + discriminate.
    + repeat constructor. intros [].
    + intros n [<-|[]]. apply memb_In. vm_compute. reflexivity.
    + exact Ha.
  - intros ds ds' n n' k k' v a a' H H' _ _ G G'. destruct (ex_v_arrays _ _ _ H G) as (c & ->). destruct (ex_v_arrays _ _ _ H' G') as (c' & ->). intros d. reflexivity.
  - intros ds n a H G. destruct (ex_v_arrays _ _ _ H G) as (c & ->). cbn. split; [auto|]. intros d Id. tauto.
Qed.
Lemma ex_score r sys M x : is_cell Deterministic sys M "2020" "240x121" -> ex_v_files (file_of sys "2020" "240x121") = Some [("rmse.temperature", ex_array (fun _ => x))] ->
  file_score Deterministic ex_v_files (ex_choice r) M (LZ 21600000000000) (Fin x).
Proof.
  intros Hc E. exists sys, M, "2020", "240x121", [("rmse.temperature", ex_array (fun _ => x))]. split; [exact Hc|]. split; [exact E|]. split; [reflexivity|]. split; [reflexivity|]. split; [reflexivity|].
  exists "rmse.temperature", "rmse", "temperature", "RMSE", (ex_array (fun _ => x)), "europe_land", "Europe (Land)". split; [reflexivity|]. split.
  { change "rmse.temperature" with ("rmse" ++ "." ++ "temperature")%string. apply named_plain. intros [[=] _]. }
  split; [cbn; auto|]. split; [cbn; auto|]. split; [right; exists "europe", "Europe"; split; [cbn; auto 10|split; reflexivity]|]. split; [reflexivity|]. split; [reflexivity|]. split.
  - intros d ls I. cbn in I. destruct I as [[= <- <-]|[[= <- <-]|[[= <- <-]|[]]]]; cbn; auto.
  - reflexivity.
Qed.
Lemma Forall2_In_l {A B} (R : A -> B -> Prop) l1 l2 x : Forall2 R l1 l2 -> In x l1 -> exists y, In y l2 /\ R x y.
Proof. intros H. induction H as [|a b l1 l2 Hab _ IH]; [intros []|]. intros [E|I]; [subst; exists b; cbn; auto|]. destruct (IH I) as (y & Iy & Ry). exists y. cbn. auto. Qed.
(** The error 1 of GraphCast is shown as 50 percent better than the error 2 of IFS HRES. *)
Example C73_example : exists out p t, main Deterministic ex_v_files = Ok out /\ offered_choice (o_data out) (ex_choice true) /\
  update_graph Deterministic (o_data out) (o_lead_time_h out) (ex_choice true) None = Ok p /\
  In t (f_traces (p_figure p)) /\ t_name t = "GraphCast vs ERA5" /\ In (Fin 50) (t_y t) /\ t_visible t = None /\ t_colour t = Tab10 3.
Proof.
  destruct C73_example_hypotheses as [Hf Hp].
  assert (is_cell Deterministic "hres_vs_era5" "IFS HRES vs ERA5" "2020" "240x121") as Hc1 by (split; [cbn; auto|split; cbn; auto]).
  assert (is_cell Deterministic "graphcast_vs_era5" "GraphCast vs ERA5" "2020" "240x121") as Hc2 by (split; [apply (memb_In ("graphcast_vs_era5", "GraphCast vs ERA5")); vm_compute; reflexivity|split; cbn; auto]).
  pose proof (ex_score true _ _ 2%R Hc1 eq_refl) as S1. pose proof (ex_score true _ _ 1%R Hc2 eq_refl) as S2.
  assert (exists ds n a, found Deterministic ex_v_files ds /\ dget ds n = Some a /\ a = ex_array (fun _ => 2%R)) as (ds & n & a & Hfd & Ga & Ea).
  { exists [("rmse.temperature", ex_array (fun _ => 2%R))], "rmse.temperature", (ex_array (fun _ => 2%R)). split; [|split; reflexivity]. exists "hres_vs_era5", "IFS HRES vs ERA5", "2020", "240x121". split; [exact Hc1|reflexivity]. }
  destruct (C70_succeeds Deterministic ex_v_files Hf) as (out & E & _).
  - exists ds, n, a. rewrite Ea. rewrite Ea in Ga. cbn. auto 6.
  - exists ds, n, a. rewrite Ea. rewrite Ea in Ga. cbn. auto 6.
  - intros ds' n' a' l H G Il. destruct (ex_v_arrays _ _ _ H G) as (c & ->). cbn in Il. destruct Il as [<-|[<-|[]]]; eauto.
  - assert (offered_choice (o_data out) (ex_choice true)) as Ho.
    { destruct (C73_offered _ _ _ _ _ _ _ Hf Hp E S1) as [Iv Ho]. split; [exact Iv|]. intros d y I. cbn [In] in I. destruct I as [I|[I|I]].
      - apply Ho. rewrite <- I. cbn. auto.
      - injection I as <- <-. destruct (C70_values _ _ _ Hf E _ _ _ S1) as (b & G & P & _). destruct (data_ok _ _ _ Hf E) as (_ & Dm & _). destruct (data_var _ _ _ Hf Hp E _ _ G) as (Wb & _).
        assert (In "level" (dnames b)) as Il.
        { apply (Dm _ _ G). right. exists [("rmse.temperature", ex_array (fun _ => 2%R))], "rmse.temperature", "rmse", "temperature", (ex_array (fun _ => 2%R)).
          split; [exists "hres_vs_era5", "IFS HRES vs ERA5", "2020", "240x121"; split; [exact Hc1|reflexivity]|]. split; [change "rmse.temperature" with ("rmse" ++ "." ++ "temperature")%string; apply named_plain; intros [[=] _]|].
          split; [cbn; auto|]. split; [reflexivity|cbn; auto]. }
        assert (exists ls, offered (o_data out) "level" = Ok ls) as (ls & El).
        { unfold offered, ds_labels. destruct (find _ _) as [kv|] eqn:F; [eexists; reflexivity|]. exfalso. eapply find_none in F; [|apply dget_In; exact G]. cbn [snd] in F. apply memb_false in F. contradiction. }
        exists ls. split; [exact El|]. destruct (offered_labels _ _ _ Hf E _ ls El) as [_ K]. rewrite <- (K _ _ G Il). exact (proj1 (point_of_labels (dims b) _ (proj1 Wb)) P "level" Il).
      - apply Ho. cbn [In]. tauto. }
    destruct (C73_succeeds _ _ _ _ None Hf Hp E Ho) as (p & Ep).
    assert (p_seeps_alert p = false) as Hs.
    { destruct (p_seeps_alert p) eqn:Es; [|reflexivity]. apply (proj1 (C73_seeps _ _ _ _ _ _ Ep)) in Es. destruct Es as [Es _]. discriminate Es. }
    destruct (C73_relative _ _ _ _ _ _ Hf Hp E Ep Hs eq_refl) as (_ & HM & HT).
    assert (In "GraphCast vs ERA5" (map t_name (f_traces (p_figure p)))) as It.
    { apply HM. exists 21600000000000%Z, 1%R, 2%R. split; [reflexivity|]. split; [exact S2|]. split; [exact S1|]. unfold comparable. cbn. lra. }
    apply in_map_iff in It. destruct It as (t & Hn & It). exists out, p, t. split; [exact E|]. split; [exact Ho|]. split; [exact Ep|]. split; [exact It|]. split; [exact Hn|]. split; [|split].
    + destruct (HT t It) as (leads & _ & _ & HL & H2). rewrite Hn in *. destruct (Forall2_In_l _ _ _ (LZ 21600000000000) H2) as (y & Iy & Hy & _); [eapply HL, S2|].
      destruct (Hy 21600000000000%Z 1%R 2%R eq_refl) as (q & -> & Hq); [reflexivity|exact S2|exact S1|unfold comparable; cbn; lra|]. unfold percent_better in Hq. cbn in Hq. replace 50%R with q by lra. exact Iy.
    + assert (shown_variable "temperature" (c_variable (ex_choice true))) as HV by (right; left; reflexivity).
      destruct (C73_first_view _ _ _ _ _ "temperature" HV Ep t It) as (pr & Hpr & Hv & _). apply Hv. rewrite Hn. destruct pr; cbn; auto 6.
    + destruct (C73_look_of_model _ _ _ _ _ _ Ep t It) as [Hc _]. rewrite Hn in Hc. assert (Some (t_colour t) = Some (Tab10 3)) as K by (rewrite <- Hc; vm_compute; reflexivity). injection K as K. exact K.
Qed.

Print Assumptions C73_curves.
Print Assumptions C73_relative.
Print Assumptions C73_better.
Print Assumptions C73_relative_bias_refuted.
Print Assumptions C73_alert.
Print Assumptions C73_seeps.
Print Assumptions C73_vs_analysis.
Print Assumptions C73_succeeds.
Print Assumptions C73_first_view.
Print Assumptions C73_keeps_visibility.
Print Assumptions C73_defaults_after_change_refuted.
Print Assumptions C73_defaults.
Print Assumptions C73_probabilistic_precipitation_refuted.
Print Assumptions C73_looks.
Print Assumptions C73_looks_refuted.
Print Assumptions C73_look_of_model.
Print Assumptions C73_axis.
Print Assumptions C73_unit_of_mse_refuted.
Print Assumptions C73_level_menu.
Print Assumptions C73_level_menu_refuted.
Print Assumptions C73_offered.
