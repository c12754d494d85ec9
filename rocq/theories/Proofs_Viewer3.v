(** The viewer of the combined results (C73): scores of the files on the page. *)
From Coq Require Import String Ascii ZArith List Bool Reals Lia Lra.
Import ListNotations.
From Verif Require Import Prelude Values Model_XArray Spec_XArray Proofs_XArray Model_MetricsBase Model_Aggregation Model_Loaders
  Proofs_AggState Model_Combine Spec_Combine Proofs_Combine Proofs_Combine2 Proofs_Combine3 Proofs_Combine4 Proofs_Combine5 Model_Viewer Spec_Viewer
  Proofs_Viewer Proofs_Viewer2.
Local Open Scope string_scope.
Local Open Scope list_scope.

Definition seven : list string := ["model"; "resolution"; "year"; "metric"; "region"; "lead_time"; "level"].
Lemma chosen_NoDup c : NoDup (map fst (chosen c)).
Proof. apply nodups_NoDup. vm_compute. reflexivity. Qed.
Lemma upds_score c M l e : e "model" = LS M -> e "lead_time" = l -> forall d, In d seven -> upds e (chosen c) d = score_at c M l d.
Proof.
  intros E1 E2 d I. unfold upds, chosen. cbn [fold_right fst snd].
  repeat (destruct I as [<-|I]; [unfold upd, score_at; cbn; auto|]). destruct I.
Qed.

Section Page.
  Variables (m : mode) (files : string -> option (vars da)) (out : output).
  Hypothesis Hf : result_files m files.
  Hypothesis Hp : plain_files m files.
  Hypothesis Em : main m files = Ok out.
  Notation Z := (o_data out).

  Lemma data_ok : ok m files (cells m) Z.
  Proof. destruct (main_Ok m files Hf out Em) as (Z0 & Hok & E & _). rewrite E. exact Hok. Qed.
  Lemma data_var V b : dget Z V = Some b -> wf b /\ (exists v, shown_variable v V) /\ (forall d, In d (dnames b) -> In d seven) /\ forall d, In d ["model"; "resolution"; "year"; "metric"; "region"; "lead_time"] -> In d (dnames b).
  Proof.
    intros G. destruct data_ok as ((_ & W & _) & Dm & _). split; [apply (W V b G)|]. destruct (Dm V b G) as [Ir Hd].
    pose proof Ir as Ir'. apply Hd in Ir'. destruct Ir' as [Ir'|(ds & n & k & v & a & Hfd & Hn & HV & Ga & Ia)]; [destruct Ir' as [[=]|[[=]|[[=]|[[=]|[]]]]]|]. split; [eauto|]. split.
    - intros d I. apply Hd in I. destruct I as [I|(ds' & n' & k' & v' & a' & Hfd' & _ & _ & Ga' & Ia')]; [cbn in *; tauto|]. apply (Hp ds' n' a' Hfd' Ga') in Ia'. cbn in *. tauto.
    - intros d I. apply Hd. cbn [In] in I. destruct I as [I|[I|[I|[I|[I|[I|[]]]]]]]; try (left; cbn; auto 6; fail); right; exists ds, n, k, v, a; (split; [exact Hfd|split; [exact Hn|split; [exact HV|split; [exact Ga|]]]]); subst d; [exact Ia|]. apply (Hp ds n a Hfd Ga).
  Qed.
  Lemma data_hours V b : dget Z V = Some b -> hours_of (labels_of (dims b) "lead_time") (o_lead_time_h out).
  Proof.
    intros G. destruct (main_Ok m files Hf out Em) as (Z0 & _ & E0 & _ & H). rewrite <- E0 in H. specialize (H V b G). assert (In "lead_time" (dnames b)) as I by (apply (data_var V b G); cbn; auto 8). specialize (H I).
    apply mapM_Ok_Forall2 in H. unfold hours_of. induction H as [|l h ls hs Hh _ IH]; constructor; [|exact IH]. clear IH.
    destruct l as [t| | |]; try discriminate. injection Hh as <-. exists t. split; [reflexivity|]. change 3600000000000%Z with hour_ns. pose proof (Z.div_mod t hour_ns ltac:(discriminate)). pose proof (Z.mod_pos_bound t hour_ns ltac:(reflexivity)). split; nia.
  Qed.

  Section Chosen.
    Variables (c : choice) (s : da).
    Hypothesis Es : selection_of Z c = Ok s.
    Lemma selection_var : exists b, dget Z (c_variable c) = Some b /\ selected_many (chosen c) b s.
    Proof using Hf Hp Em Es.
      pose proof Es as E. rewrite selection_many in E. destruct (sel_many Z (chosen c)) as [ds'|] eqn:E1; [|discriminate]. cbn [bind] in E. unfold dgetE in E. destruct (dget ds' (c_variable c)) as [s'|] eqn:G; [|discriminate]. injection E as ->.
      pose proof (sel_many_Ok (chosen c) (chosen_NoDup c) Z ds' E1 (c_variable c)) as H. rewrite G in H. destruct (dget Z (c_variable c)) as [b|] eqn:Gb; [|contradiction]. exists b. split; [reflexivity|]. apply H. apply (data_var _ _ Gb).
    Qed.
    Definition leads : list label := labels_of (dims s) "lead_time".
    Definition models_of : list label := labels_of (dims s) "model".
    Lemma selection_curves : curves s.
    Proof using Hf Hp Em Es.
      destruct selection_var as (b & G & S). split; [apply S|]. intros n. rewrite (sm_names _ _ _ S n). destruct (data_var _ _ G) as (_ & _ & D1 & D2). split.
      - intros [I N]. apply D1 in I. cbn in I, N. repeat (destruct I as [<-|I]; [try (exfalso; tauto); tauto|]). destruct I.
      - intros [-> | ->]; (split; [apply D2; cbn; auto 8|cbn; intros K; repeat (destruct K as [K|K]; [discriminate|]); exact K]).
    Qed.
    Lemma leads_NoDup : NoDup leads.
    Proof using Hf Hp Em Es. apply wf_labels_NoDup, selection_curves. Qed.
    Lemma models_NoDup : NoDup models_of.
    Proof using Hf Hp Em Es. apply wf_labels_NoDup, selection_curves. Qed.
    Lemma leads_hours : hours_of leads (o_lead_time_h out).
    Proof using Hf Hp Em Es.
      destruct selection_var as (b & G & S). unfold leads. rewrite (sm_labels _ _ _ S "lead_time"); [apply (data_hours _ _ G)|]. cbn. intros K; repeat (destruct K as [K|K]; [discriminate|]); exact K.
    Qed.
    Lemma not_chosen d : d = "model" \/ d = "lead_time" -> ~ In d (map fst (chosen c)).
    Proof. intros [-> | ->]; cbn; intros K; repeat (destruct K as [K|K]; [discriminate|]); exact K. Qed.
    (** The selected array holds the files' scores. *)
    Lemma score_in M l x : file_score m files c M l x -> In (LS M) models_of /\ In l leads /\ forall e, e "model" = LS M -> e "lead_time" = l -> get s e = x.
    Proof using Hf Hp Em Es.
      intros H. destruct selection_var as (b & G & S). destruct data_ok as ((_ & W & A & _) & _). apply (done_cells m files) in H. destruct (A _ _ _ H) as (b' & G' & P & Ev). rewrite G in G'. injection G' as <-.
      destruct (W _ _ G) as [Wb _]. destruct (data_var _ _ G) as (_ & _ & D1 & D2). pose proof (point_of_labels (dims b) (score_at c M l) (proj1 Wb)) as PL. rewrite PL in P. clear PL.
      unfold models_of, leads. rewrite !(sm_labels _ _ _ S) by (apply not_chosen; auto). split; [apply (P "model"), D2; cbn; auto|]. split; [apply (P "lead_time"), D2; cbn; auto 8|].
      intros e E1 E2. rewrite (sm_get _ _ _ S e), <- Ev. apply Wb. intros d I. apply (upds_score c M l e E1 E2), D1, I.
    Qed.
    Lemma score_drawn M l e : In (LS M) models_of -> In l leads -> e "model" = LS M -> e "lead_time" = l -> drawn (file_score m files c M l) (get s e).
    Proof using Hf Hp Em Es.
      intros IM Il E1 E2. split.
      - destruct selection_var as (b & G & S). destruct data_ok as ((_ & W & _ & B) & _). destruct (W _ _ G) as [Wb _]. destruct (data_var _ _ G) as (_ & _ & D1 & D2).
        assert (get s e = get b (score_at c M l)) as Eg by (rewrite (sm_get _ _ _ S e); apply Wb; intros d I; apply (upds_score c M l e E1 E2), D1, I).
        destruct (B _ _ (score_at c M l) G) as [H|H]; [|left; congruence|right; rewrite Eg; apply (done_cells m files), H].
        apply (point_of_labels (dims b) (score_at c M l) (proj1 Wb)). intros d I. pose proof (D1 d I) as I7.
        unfold models_of, leads in IM, Il. rewrite (sm_labels _ _ _ S) in IM, Il by (apply not_chosen; auto).
        pose proof (fun k x Hin => sm_label _ _ _ S k x Hin) as L. 
        cbn [seven In] in I7. destruct I7 as [<-|[<-|[<-|[<-|[<-|[<-|[<-|[]]]]]]]]; cbn; auto; apply L; auto; cbn; auto 8.
      - intros x H. apply score_in in H. symmetry. apply H; assumption.
    Qed.
  End Chosen.
  (** Looking up an offered choice succeeds. *)
  Definition available (c : choice) : Prop :=
    In (c_variable c) (keys Z) /\ forall d x, In (d, x) (("model", LS (c_relative_to c)) :: chosen c) -> exists ls, offered Z d = Ok ls /\ In x ls.
  Lemma offered_labels d ls : offered Z d = Ok ls -> (exists w b, dget Z w = Some b /\ In d (dnames b)) /\ forall w b, dget Z w = Some b -> In d (dnames b) -> labels_of (dims b) d = ls.
  Proof.
    intros E. destruct data_ok as ((N & _) & _ & _ & Sh & _). apply (ds_labels_Ok Z d ls N) in E. destruct E as (w & b & G & I & ->). split; [eauto|]. intros w' b' G' I'. eapply Sh; eauto.
  Qed.
  Lemma selection_ok c : available c -> exists s, selection_of Z c = Ok s /\ In (LS (c_relative_to c)) (models_of s).
  Proof.
    intros [Iv Ho]. rewrite selection_many. destruct data_ok as ((N & W & _) & _).
    destruct (sel_many_ok (chosen c) (chosen_NoDup c) Z N) as (ds' & E).
    - intros w b G. apply (W w b G).
    - intros d l I. destruct (Ho d l (or_intror I)) as (ls & Eo & Il). destruct (offered_labels d ls Eo) as [Hx Hl]. split; [exact Hx|]. intros w b G Id. rewrite (Hl w b G Id). exact Il.
    - pose proof (sel_many_Ok (chosen c) (chosen_NoDup c) Z ds' E (c_variable c)) as H. apply keys_dget in Iv. destruct Iv as (b & G). rewrite G in H. destruct (dget ds' (c_variable c)) as [s|] eqn:Gs; [|contradiction].
      assert (selection_of Z c = Ok s) as Esel by (rewrite selection_many, E; cbn [bind]; unfold dgetE; rewrite Gs; reflexivity).
      exists s. rewrite E. cbn [bind]. unfold dgetE. rewrite Gs. split; [reflexivity|]. destruct (W _ _ G) as [Wb _]. pose proof (H Wb) as S. unfold models_of. rewrite (sm_labels _ _ _ S) by (apply not_chosen; auto).
      destruct (Ho "model" (LS (c_relative_to c)) (or_introl eq_refl)) as (ls & Eo & Il). destruct (offered_labels _ _ Eo) as [_ Hl]. rewrite (Hl _ _ G); [exact Il|]. apply (data_var _ _ G). cbn; auto.
  Qed.

  (** ** The page *)
  Section Shown.
    Variables (c : choice) (previous : option (list (string * option visible))) (p : page).
    Hypothesis Ep : update_graph m Z (o_lead_time_h out) c previous = Ok p.
    Hypothesis Hseeps : p_seeps_alert p = false.
    Lemma page_ok : exists s q ts, selection_of Z c = Ok s /\ plotted c s = Ok (q, p_relative_alert p) /\ mapM (trace_of m (o_lead_time_h out) c q) (models_of s) = Ok ts
      /\ f_traces (p_figure p) = map (retain previous) (concat ts).
    Proof using Hf Hp Em Ep Hseeps.
      pose proof Ep as E. unfold update_graph in E. destruct (seeps_alert c); [injection E as <-; discriminate|].
      destruct (selection_of Z c) as [s|] eqn:Es; [|discriminate]. cbn [bind] in E. destruct (plotted c s) as [[q al]|] eqn:Eq; [|discriminate]. cbn [bind fst snd] in E.
      destruct (plotted_Ok c s q al (selection_curves c s Es) Eq) as (Dq & _). rewrite Dq in E. exists s.
      pose proof (proj2 (cu_names s (selection_curves c s Es) "model") (or_introl eq_refl)) as Im. apply names_dget in Im. unfold models_of, labels_of. destruct (dget (dims s) "model") as [ms|]; [|congruence]. cbn [bind] in E.
      destruct (mapM _ ms) as [ts|] eqn:Et; [|discriminate]. cbn [bind] in E. destruct (ylabel c) as [y|]; [|discriminate]. cbn [bind] in E. injection E as <-. exists q, ts. cbn. auto.
    Qed.
    Definition point_value (s : da) (M : string) (l : label) : val :=
      pval c (get s (one (LS M) l)) (get s (one (LS (c_relative_to c)) l)) l.
    Lemma page_traces : exists s, selection_of Z c = Ok s /\
      (c_relative c = true -> In (LS (c_relative_to c)) (models_of s)) /\
      (p_relative_alert p = if c_relative c then match leads s with [] => false | L => forallb (fun l => isnan (get s (one (LS (c_relative_to c)) l))) L end else false) /\
      NoDup (map t_name (f_traces (p_figure p))) /\
      (forall M, In M (map t_name (f_traces (p_figure p))) <-> In (LS M) (models_of s) /\ exists l, In l (leads s) /\ isfin (point_value s M l) = true) /\
      forall t, In t (f_traces (p_figure p)) -> In (LS (t_name t)) (models_of s) /\ t_x t = o_lead_time_h out /\ t_y t = map (point_value s (t_name t)) (leads s)
        /\ t_markers t = c_markers c /\ dget COLORS (t_name t) = Some (t_colour t) /\ dget SYMBOLS (t_name t) = Some (t_symbol t)
        /\ t_visible t = t_visible (retain previous (mkTrace (t_name t) (t_x t) (t_y t) (t_markers t) (t_colour t) (t_symbol t) (first_visible m (c_variable c) (t_name t)))).
    Proof using Hf Hp Em Ep Hseeps.
      destruct page_ok as (s & q & ts & Es & Eq & Et & Ef). exists s. split; [exact Es|]. pose proof (selection_curves c s Es) as Cu.
      destruct (plotted_Ok c s q _ Cu Eq) as (Dq & Gq & Hal).
      split; [intros Hr; rewrite Hr in Hal; apply Hal|].
      split; [destruct (c_relative c); [apply Hal|exact Hal]|].
      assert (forall M, line c q (LS M) = map (point_value s M) (leads s)) as EL.
      { intros M. unfold line, leads. rewrite Dq. apply map_ext. intros l. rewrite Gq. unfold point_value, one. rewrite upd_upd. reflexivity. }
      destruct (concat_traces m (o_lead_time_h out) c q (models_of s) ts) as [C1 C2]; [|exact Et|].
      { intros l Il. apply trace_line; unfold dnames; rewrite ?Dq; [apply Cu|apply Cu|exact Il]. }
      assert (map t_name (f_traces (p_figure p)) = map t_name (concat ts)) as EN.
      { rewrite Ef, map_map. apply map_ext. intros t. unfold retain. destruct previous; reflexivity. }
      assert (forall t, In t (f_traces (p_figure p)) -> exists t0, In t0 (concat ts) /\ t = retain previous t0) as HT.
      { intros t I. rewrite Ef in I. apply in_map_iff in I. destruct I as (t0 & <- & I). eauto. }
      split; [|split].
      - rewrite EN. apply (NoDup_map_inv LS). rewrite map_map, C1. apply NoDup_filter, (models_NoDup c s Es).
      - intros M. rewrite EN.
        assert (In M (map t_name (concat ts)) <-> In (LS M) (map (fun t => LS (t_name t)) (concat ts))) as ->.
        { rewrite !in_map_iff. split; [intros (t & <- & I); eauto|intros (t & E & I); injection E as E; eauto]. }
        rewrite C1, filter_In, EL, existsb_exists. split.
        + intros [IM (v & Iv & Fv)]. split; [exact IM|]. apply in_map_iff in Iv. destruct Iv as (l & <- & Il). eauto.
        + intros [IM (l & Il & Fl)]. split; [exact IM|]. exists (point_value s M l). split; [apply in_map; exact Il|exact Fl].
      - intros t I. destruct (HT t I) as (t0 & I0 & ->). destruct (C2 t0 I0) as (X & Y & Mk & Co & Sy & Vi).
        assert (forall t1, t_name (retain previous t1) = t_name t1 /\ t_x (retain previous t1) = t_x t1 /\ t_y (retain previous t1) = t_y t1 /\ t_markers (retain previous t1) = t_markers t1 /\ t_colour (retain previous t1) = t_colour t1 /\ t_symbol (retain previous t1) = t_symbol t1) as R by (intros t1; unfold retain; destruct previous; cbn; auto 8).
        destruct (R t0) as (R1 & R2 & R3 & R4 & R5 & R6). rewrite R1, R2, R3, R4, R5, R6. split; [|split; [exact X|split; [rewrite Y; apply EL|split; [exact Mk|split; [exact Co|split; [exact Sy|]]]]]].
        + assert (In (LS (t_name t0)) (map (fun t => LS (t_name t)) (concat ts))) as K by (apply in_map_iff; eauto). rewrite C1 in K. apply filter_In in K. apply K.
        + rewrite <- Vi. destruct t0; reflexivity.
    Qed.
  End Shown.
End Page.
