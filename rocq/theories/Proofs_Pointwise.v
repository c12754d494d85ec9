(** Metrics that are computed point by point. *)
From Coq Require Import String ZArith List Bool Lia Reals Lra.
Import ListNotations.
From Verif Require Import Prelude Values Model_XArray Spec_XArray Proofs_XArray Model_Tree Model_MetricsBase Model_Ensemble Model_Categorical Model_Deterministic
  Proofs_Deterministic Proofs_Beam9 Model_Resample Spec_Resample Proofs_Resample Props_Resample Proofs_Baseline Spec_Stationary Proofs_Stationary3.
Local Open Scope R_scope.
Local Open Scope string_scope.
Local Open Scope list_scope.

(** Arithmetic on named arrays. *)
Inductive formula := Name (n : string) | Map (f : val -> val) (x : formula) | Bin (f : val -> val -> val) (x y : formula).
Fixpoint names_in (x : formula) : list string := match x with Name n => [n] | Map _ y => names_in y | Bin _ y z => names_in y ++ names_in z end.
Fixpoint array_of (s : dict string da) (x : formula) : da :=
  match x with
  | Name n => match dget s n with Some a => a | None => scalar NaN end
  | Map f y => da_map f (array_of s y)
  | Bin f y z => binop f (array_of s y) (array_of s z)
  end.
Fixpoint value_of (s : dict string val) (x : formula) : val :=
  match x with
  | Name n => match dget s n with Some v => v | None => NaN end
  | Map f y => f (value_of s y)
  | Bin f y z => f (value_of s y) (value_of s z)
  end.
Lemma array_spec (s : dict string da) lab x : (forall n, In n (names_in x) -> In n (keys s)) -> (forall n a, dget s n = Some a -> wf a /\ labelled lab a) ->
  wf (array_of s x) /\ labelled lab (array_of s x) /\
  (forall d, In d (dnames (array_of s x)) <-> exists n a, In n (names_in x) /\ dget s n = Some a /\ In d (dnames a)) /\
  forall e, get (array_of s x) e = value_of (map (fun na => (fst na, get (snd na) e)) s) x.
Proof.
  intros K H. induction x as [n|f x IH|f x IHx y IHy]; cbn [array_of value_of names_in] in *.
  - destruct (dget s n) as [a|] eqn:E; [|apply dget_None in E; exfalso; apply E, K; now left]. destruct (H n a E) as [W L]. split; [exact W|]. split; [exact L|]. split.
    + intros d. split; [intros I; exists n, a; split; [now left|auto]|]. intros (n' & a' & [<-|[]] & E' & I). congruence.
    + intros e. assert (dget (map (fun na : string * da => (fst na, get (snd na) e)) s) n = Some (get a e)) as ->; [|reflexivity]. clear -E. induction s as [|[k w] s IH]; [discriminate|]. cbn [map dget fst snd] in *. destruct (eq_dec n k); [congruence|auto].
  - destruct (IH K) as (W & L & N & G). split; [now apply wf_map|]. split; [exact L|]. split; [exact N|]. intros e. cbn [da_map get]. now rewrite G.
  - destruct IHx as (W1 & L1 & N1 & G1); [intros n I; apply K, in_app_iff; now left|]. destruct IHy as (W2 & L2 & N2 & G2); [intros n I; apply K, in_app_iff; now right|].
    split; [now apply wf_binop|]. split; [now apply labelled_binop|]. split.
    + intros d. rewrite names_binop, N1, N2. split.
      * intros [(n & a & I & J)|(n & a & I & J)]; exists n, a; (split; [apply in_app_iff; auto|auto]).
      * intros (n & a & I & J). apply in_app_iff in I. destruct I; [left|right]; eauto.
    + intros e. cbn [binop get]. now rewrite G1, G2.
Qed.
Lemma pointwise_formula stats f x : (forall n, In n (names_in x) <-> In n (keys stats)) ->
  NoDup (keys stats) ->
  (forall s, keys s = keys stats -> f s = Ok (array_of s x)) ->
  pointwise_metric (per_variable_metric stats f) (fun vs => value_of (combine (keys stats) vs) x).
Proof.
  intros HN ND HF means out var a H G. cbn [per_variable_metric values_from_mean_statistics statistics] in *.
  destruct (mapM (fun s => dgetE means s) (keys stats)) as [tables|] eqn:ET; [|discriminate]. cbn [bind] in H. destruct tables as [|t0 ts]; [discriminate|].
  set (common := filter _ _) in H. clearbody common.
  assert (exists per_var, mapM (fun s => do t <- dgetE means s; do x <- dgetE t var; Ok (s, x)) (keys stats) = Ok per_var /\ f per_var = Ok a) as (pv & EP & Ef).
  { clear -H G. revert out H G. induction common as [|v common IH]; intros out H G; cbn [mapM] in H; [injection H as <-; discriminate|].
    destruct (mapM _ (keys stats)) as [pv|] eqn:E in H; [|discriminate]. cbn [bind] in H. destruct (f pv) as [b|] eqn:Ef; [|discriminate]. cbn [bind] in H. destruct (mapM _ common) as [rest|] eqn:M in H; [|discriminate]. cbn [bind] in H. injection H as <-.
    cbn [dget] in G. destruct (eq_dec var v) as [->|]; [|now apply (IH rest)]. injection G as ->. eauto. }
  assert (keys pv = keys stats /\ Forall2 (fun s y => entry means s var y) (keys stats) (map snd pv)) as [KP FP].
  { clear -EP. revert pv EP. induction (keys stats) as [|n ns IH]; intros pv EP; cbn [mapM] in EP; [injection EP as <-; split; [reflexivity|constructor]|].
    destruct (dgetE means n) as [t|] eqn:E1; [|discriminate]. cbn [bind] in EP. destruct (dgetE t var) as [y|] eqn:E2; [|discriminate]. cbn [bind] in EP. destruct (mapM _ ns) as [r|] eqn:M in EP; [|discriminate]. cbn [bind] in EP. injection EP as <-.
    destruct (IH r M) as [K F]. unfold keys in *. cbn [map fst snd]. split; [now f_equal|]. constructor; [|exact F]. exists t. apply dgetE_Some in E1, E2. auto. }
  exists (map snd pv). split; [exact FP|]. intros lab HW. rewrite (HF pv KP) in Ef. injection Ef as <-.
  assert (forall n b, dget pv n = Some b -> wf b /\ labelled lab b) as HW'. { intros n b E. apply HW. apply dget_In in E. apply in_map_iff. exists (n, b). auto. }
  destruct (array_spec pv lab x) as (W & L & N & GV); [intros n I; rewrite KP; now apply HN|exact HW'|]. split; [exact W|]. split; [exact L|]. split.
  - intros d. rewrite N. split.
    + intros (n & b & _ & E & I). exists b. split; [|exact I]. apply dget_In in E. apply in_map_iff. exists (n, b). auto.
    + intros (b & I & J). apply in_map_iff in I. destruct I as ([n b'] & Eb & I). cbn [snd] in Eb. subst b'. exists n, b. split; [apply HN; rewrite <- KP; unfold keys; apply in_map_iff; exists (n, b); auto|]. split; [|exact J]. apply In_dget; [now rewrite KP|exact I].
  - intros e _. rewrite GV. f_equal. rewrite <- KP. unfold keys. rewrite map_map. clear. induction pv as [|[n b] pv IH]; [reflexivity|]. cbn [map combine fst snd]. now f_equal.
Qed.
Lemma pointwise_ext m F G : (forall vs, length vs = length (keys (statistics m)) -> F vs = G vs) -> pointwise_metric m F -> pointwise_metric m G.
Proof.
  intros H P means out var a E Ea. destruct (P _ _ _ _ E Ea) as (xs & FX & K). exists xs. split; [exact FX|]. intros lab HW. destruct (K lab HW) as (W & L & N & V). split; [exact W|]. split; [exact L|]. split; [exact N|].
  intros e Pe. rewrite (V e Pe). apply H. rewrite map_length. symmetry. clear -FX. induction FX; [reflexivity|]. cbn. now f_equal.
Qed.
(** Statistics as metrics, RMSE, CSI and the spread-skill ratio. *)
Lemma pointwise_statistic (s : statistic da) : pointwise_metric (metric_of_statistic s) (fun vs => hd NaN vs).
Proof.
  intros means out var a E Ea. cbn [metric_of_statistic values_from_mean_statistics statistics keys map fst] in *. apply dgetE_Some in E. exists [a]. split.
  - constructor; [exists out; auto|constructor].
  - intros lab HW. destruct (HW a (or_introl eq_refl)) as [W L]. split; [exact W|]. split; [exact L|]. split; [|reflexivity]. intros d. split; [intros I; exists a; split; [now left|exact I]|]. intros (x & [<-|[]] & I). exact I.
Qed.
Lemma pointwise_RMSE : pointwise_metric RMSE (fun vs => match vs with [x] => vsqrt x | _ => NaN end).
Proof.
  eapply pointwise_ext; [|apply (pointwise_formula _ _ (Map vsqrt (Name "SquaredError")))].
  - intros [|x [|y vs]] E; try discriminate. reflexivity.
  - intros n. cbn. tauto.
  - cbn. constructor; [intros []|constructor].
  - intros [|[k x] [|y s]] E; try discriminate. cbn in E. injection E as ->. reflexivity.
Qed.
Lemma pointwise_CSI : pointwise_metric CSI (fun vs => match vs with [tp; fp; fn] => vdiv tp (vadd (vadd tp fp) fn) | _ => NaN end).
Proof.
  eapply pointwise_ext; [|apply (pointwise_formula _ _ (Bin vdiv (Name "TruePositives") (Bin vadd (Bin vadd (Name "TruePositives") (Name "FalsePositives")) (Name "FalseNegatives"))))].
  - intros [|x [|y [|z [|w vs]]]] E; try discriminate. reflexivity.
  - intros n. cbn. tauto.
  - cbn. repeat constructor; cbn; intuition discriminate.
  - intros [|[k x] [|[k2 y] [|[k3 z] [|w s]]]] E; try discriminate. cbn in E. injection E as -> -> ->. reflexivity.
Qed.
Lemma pointwise_SpreadSkill d skipna : pointwise_metric (UnbiasedSpreadSkillRatio d skipna) (fun vs => match vs with [v; e] => vsqrt (vdiv v e) | _ => NaN end).
Proof.
  eapply pointwise_ext; [|apply (pointwise_formula _ _ (Map vsqrt (Bin vdiv (Name "EnsembleVariance") (Name "UnbiasedEnsembleMeanSquaredError"))))].
  - intros [|x [|y [|z vs]]] E; try discriminate. reflexivity.
  - intros n. cbn. tauto.
  - cbn. repeat constructor; cbn; intuition discriminate.
  - intros [|[k x] [|[k2 y] [|w s]]] E; try discriminate. cbn in E. injection E as -> ->. reflexivity.
Qed.
