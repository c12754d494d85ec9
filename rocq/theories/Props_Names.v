(** C19: what the unique names of the shipped statistics tell apart. *)
From Coq Require Import Ascii String ZArith List Bool Reals Lia.
Import ListNotations.
From Verif Require Import Prelude Values Model_XArray Model_MetricsBase Model_Aggregation Model_Deterministic Model_Categorical Model_Ensemble Model_Wrappers Model_Spatial Spec_Metrics Proofs_Strings Spec_Names Proofs_Names.
Local Open Scope string_scope.
Local Open Scope list_scope.

(** Two statistics get the same name exactly if they are of the same class and agree in the
    parameters listed by [told_together]. *)
Theorem C19_names : forall argsort a b sa sb, build argsort a = Ok sa -> build argsort b = Ok sb ->
  (unique_name sa = unique_name sb <-> told_together a b).
Proof.
  intros argsort a b sa sb Ha Hb.
  assert (forall us vs ns s, WindVectorSquaredError us vs ns = Ok s -> unique_name s = ("WindVectorSquaredError_" ++ join_underscore ns)%string) as W.
  { intros us vs ns s H. unfold WindVectorSquaredError in H. destruct (same_length3 us vs ns); [|discriminate]. now injection H as <-. }
  destruct a; cbn [build] in Ha; try (apply W in Ha); try (injection Ha as <-);
  destruct b; cbn [build] in Hb; try (apply W in Hb); try (injection Hb as <-); cbn [told_together]; rewrite ?Ha, ?Hb;
  try (split; [cbn; discriminate|contradiction]); try (split; [exact (fun _ => I)|reflexivity]).
  - split; [apply sapp_inj_l|congruence].
  - change (("CRPSSkill_" ++ d)%string = ("CRPSSkill_" ++ d0)%string <-> d = d0). split; [apply sapp_inj_l|congruence].
  - cbn [unique_name CRPSSpread per_variable_statistic]. rewrite <- spread_suffix. split; [apply sapp_inj_l|intros ->; reflexivity].
  - cbn [unique_name EnsembleVariance per_variable_statistic]. rewrite <- skipna_suffix. split; [apply sapp_inj_l|intros ->; reflexivity].
  - cbn [unique_name UnbiasedEnsembleMeanSquaredError per_variable_statistic]. rewrite <- skipna_suffix. split; [apply sapp_inj_l|intros ->; reflexivity].
  - change (("RankHistogram_" ++ d)%string = ("RankHistogram_" ++ d0)%string <-> d = d0). split; [apply sapp_inj_l|congruence].
  - change (("WassersteinDistance_" ++ d)%string = ("WassersteinDistance_" ++ d0)%string <-> d = d0). split; [apply sapp_inj_l|congruence].
  - cbn [unique_name SquaredFractionsError per_variable_statistic]. rewrite <- get_suffix_inj. split; [apply sapp_inj_l|intros ->; reflexivity].
  - cbn [unique_name SquaredPredictionFraction per_variable_statistic]. rewrite <- get_suffix_inj. split; [apply sapp_inj_l|intros ->; reflexivity].
  - cbn [unique_name SquaredTargetFraction per_variable_statistic]. rewrite <- get_suffix_inj. split; [apply sapp_inj_l|intros ->; reflexivity].
Qed.
Print Assumptions C19_names.
(** The faithfully named ones: equal names, equal statistics. *)
Theorem C19_faithful : forall argsort a b sa sb, named_faithfully a -> named_faithfully b -> build argsort a = Ok sa -> build argsort b = Ok sb ->
  unique_name sa = unique_name sb -> sa = sb.
Proof.
  intros argsort a b sa sb Fa Fb Ha Hb E. apply (C19_names argsort a b sa sb Ha Hb) in E. assert (a = b) as ->; [|congruence].
  destruct a, b; cbn [told_together named_faithfully] in *; try contradiction; try reflexivity; try congruence; try (destruct E; congruence);
  destruct E as [E ->]; destruct s, s0; try contradiction; cbn [same_sizes] in E; congruence.
Qed.
Print Assumptions C19_faithful.
(** A collection of metrics in which statistics of one name have the same parameters can be
    evaluated together (see C18): every metric gets the value it gets alone. *)
Theorem C19_together : forall argsort (metrics : dict string (metric da)) p t,
  (forall s, In s (registered metrics) -> exists a, build argsort a = Ok s) ->
  (forall a b sa sb, In sa (registered metrics) -> In sb (registered metrics) -> build argsort a = Ok sa -> build argsort b = Ok sb -> told_together a b -> sa = sb) ->
  names_identify metrics p t.
Proof.
  intros argsort metrics p t H K s s' Is Is' E. destruct (H s Is) as (a & Ha), (H s' Is') as (b & Hb). rewrite (K a b s s' Is Is' Ha Hb); [reflexivity|]. now apply (C19_names argsort a b s s' Ha Hb).
Qed.
Print Assumptions C19_together.
Theorem C19_faithful_together : forall argsort (metrics : dict string (metric da)) p t,
  (forall s, In s (registered metrics) -> exists a, named_faithfully a /\ build argsort a = Ok s) -> names_identify metrics p t.
Proof.
  intros argsort metrics p t H s s' Is Is' E. destruct (H s Is) as (a & Fa & Ha), (H s' Is') as (b & Fb & Hb). now rewrite (C19_faithful argsort a b s s' Fa Fb Ha Hb E).
Qed.
Print Assumptions C19_faithful_together.
Definition ex_argsort (l : list val) : list nat := seq 0 (length l).
Example C19_example : named_faithfully (SFractionsError (Many [3; 11]%Z) true) /\ (exists s, build ex_argsort (SFractionsError (Many [3; 11]%Z) true) = Ok s /\ unique_name s = "SquaredFractionsError_3,11_wrap_longitude") /\
  (exists s, build ex_argsort (SCRPSSpread "number" true false true false) = Ok s /\ unique_name s = "CRPSSpread_number_unfair_targets").
Proof. split; [exact I|]. split; eexists; split; reflexivity. Qed.

(** ** SEEPS *)
Definition number_tokens (str : R -> string) : Prop :=
  (forall x, str x <> "" /\ str x <> "p1" /\ str x <> "mm" /\ ~ In "_"%char (chars (str x))) /\ forall x y, str x = str y -> x = y.
Lemma tokens_numbers (str : R -> string) l : number_tokens str -> tokens (join_underscore (map str l)) = match l with [] => [""] | _ => map str l end.
Proof.
  intros [H _]. destruct l as [|x l]; [reflexivity|]. rewrite tokens_join by discriminate. generalize (x :: l). intros l0. induction l0 as [|y l0 IH]; [reflexivity|]. cbn [map flat_map]. rewrite tokens_one by apply H. cbn [app]. now rewrite IH.
Qed.
Lemma numbers_inj (str : R -> string) l l' : number_tokens str -> tokens (join_underscore (map str l)) = tokens (join_underscore (map str l')) -> l = l'.
Proof.
  intros N. rewrite !tokens_numbers by exact N. destruct N as [H I]. destruct l as [|x l], l' as [|y l']; cbn [map]; [reflexivity|..].
  - intros [= E _]. symmetry in E. now apply H in E.
  - intros [= E _]. now apply H in E.
  - change (map str (x :: l) = map str (y :: l') -> x :: l = y :: l'). generalize (y :: l'). generalize (x :: l). induction l0 as [|a l0 IH]; intros [|b l1] E; try discriminate; [reflexivity|]. cbn [map] in E. injection E as E1 E2. apply I in E1. apply IH in E2. congruence.
Qed.
Lemma no_token (str : R -> string) l k : number_tokens str -> (k = "p1" \/ k = "mm") -> ~ In k (tokens (join_underscore (map str l))).
Proof.
  intros N K. rewrite tokens_numbers by exact N. destruct N as [H _]. destruct l as [|x l]; [intros [<-|[]]; destruct K; discriminate|]. rewrite in_map_iff. intros (y & <- & _). destruct (H y) as (_ & A & B & _). destruct K; contradiction.
Qed.
(** All thresholds are in the name (if numbers are printed injectively); of the variables only
    their names joined by '_'. *)
Theorem C19_seeps : forall str vs ds mins maxs vs' ds' mins' maxs', number_tokens str ->
  seeps_name str vs ds mins maxs = seeps_name str vs' ds' mins' maxs' <-> (join_underscore vs = join_underscore vs' /\ ds = ds' /\ mins = mins' /\ maxs = maxs').
Proof.
  intros str vs ds mins maxs vs' ds' mins' maxs' N. split; [|intros (E & -> & -> & ->); unfold seeps_name; now rewrite E]. intros H.
  assert (forall vs ds mins maxs, tokens (seeps_name str vs ds mins maxs) = (((((("SEEPS" :: tokens (join_underscore vs)) ++ ["dry"; "threshold"]) ++ "mm" :: tokens (join_underscore (map str ds))) ++ ["min"]) ++ "p1" :: tokens (join_underscore (map str mins))) ++ ["max"]) ++ "p1" :: tokens (join_underscore (map str maxs))) as T.
  { clear. intros vs ds mins maxs. unfold seeps_name.
    change ("SEEPS_" ++ join_underscore vs ++ "_dry_threshold_mm_" ++ join_underscore (map str ds) ++ "_min_p1_" ++ join_underscore (map str mins) ++ "_max_p1_" ++ join_underscore (map str maxs))%string
      with ("SEEPS" ++ "_" ++ (join_underscore vs ++ "_" ++ ("dry" ++ "_" ++ ("threshold" ++ "_" ++ ("mm" ++ "_" ++ (join_underscore (map str ds) ++ "_" ++ ("min" ++ "_" ++ ("p1" ++ "_" ++ (join_underscore (map str mins) ++ "_" ++ ("max" ++ "_" ++ ("p1" ++ "_" ++ join_underscore (map str maxs))))))))))))%string.
    rewrite !tokens_app. cbn [app]. rewrite <- !app_assoc. reflexivity. }
  pose proof (f_equal tokens H) as E. rewrite !T in E. clear T.
  apply list_split_last in E; [|apply no_token; auto..]. destruct E as [E Ex]. apply numbers_inj in Ex; [|exact N]. apply app_inv_tail in E.
  apply list_split_last in E; [|apply no_token; auto..]. destruct E as [E Em]. apply numbers_inj in Em; [|exact N]. apply app_inv_tail in E.
  apply list_split_last in E; [|apply no_token; auto..]. destruct E as [E Ed]. apply numbers_inj in Ed; [|exact N]. subst ds' mins' maxs'. split; [|auto].
  unfold seeps_name in H. apply sapp_inj_l in H. apply sapp_inj_r in H. exact H.
Qed.
Print Assumptions C19_seeps.

(** ** Wrapped statistics *)
(** Wrapping keeps names apart: with the same inner name, the side and the suffix of the
    transform can be read off. *)
Theorem C19_wrapped : forall s s' w w', In (which w) ["predictions"; "targets"; "both"] -> In (which w') ["predictions"; "targets"; "both"] -> unique_name s = unique_name s' ->
  (unique_name (WrappedStatistic s w) = unique_name (WrappedStatistic s' w') <-> which w = which w' /\ suffix w = suffix w').
Proof.
  intros s s' w w' I I' E. cbn [unique_name WrappedStatistic]. rewrite E. split; [|intros [-> ->]; reflexivity]. intros H. apply sapp_inj_l in H. apply sapp_inj_l in H.
  cbn [In] in I, I'. destruct I as [A|[A|[A|[]]]], I' as [B|[B|[B|[]]]]; rewrite <- A, <- B in H |- *; try (cbn in H; discriminate); (split; [reflexivity|]; apply sapp_inj_l in H; now apply (sapp_inj_l "_") in H).
Qed.
Print Assumptions C19_wrapped.
(** With the same transform, the inner names. *)
Theorem C19_wrapped_inner : forall s s' w, unique_name (WrappedStatistic s w) = unique_name (WrappedStatistic s' w) <-> unique_name s = unique_name s'.
Proof. intros s s' w. cbn [unique_name WrappedStatistic]. split; [apply sapp_inj_r|intros ->; reflexivity]. Qed.
Print Assumptions C19_wrapped_inner.
Theorem C19_averaged_inner : forall d k k' s s', unique_name (EnsembleAveragedStatistic d k s) = unique_name (EnsembleAveragedStatistic d k' s') <-> unique_name s = unique_name s'.
Proof. intros d k k' s s'. cbn [unique_name EnsembleAveragedStatistic]. split; [apply sapp_inj_r|intros ->; reflexivity]. Qed.
Print Assumptions C19_averaged_inner.

(** Thresholds given as a list: numbers are printed injectively, without the separators. *)
Definition prints (str : label -> string) (ls : list label) : Prop :=
  (forall x, In x ls -> str x <> "" /\ ~ In ","%char (chars (str x)) /\ ~ In "_"%char (chars (str x))) /\ forall x y, In x ls -> In y ls -> str x = str y -> x = y.
Lemma join_labels str ls l l' : prints str ls -> incl l ls -> incl l' ls -> join_comma (map str l) = join_comma (map str l') -> l = l'.
Proof.
  intros [P Q]. revert l'. induction l as [|x l IH]; intros [|y l'] H1 H2 H; [reflexivity|..].
  - destruct (P y (H2 y (or_introl eq_refl))) as [N _]. destruct l' as [|z l']; cbn [map join_comma] in H; [congruence|]. destruct (str y); [contradiction|discriminate].
  - destruct (P x (H1 x (or_introl eq_refl))) as [N _]. destruct l as [|z l]; cbn [map join_comma] in H; [congruence|]. destruct (str x); [contradiction|discriminate].
  - pose proof (H1 x (or_introl eq_refl)) as Ix. pose proof (H2 y (or_introl eq_refl)) as Iy. destruct l as [|x' l], l' as [|y' l'].
    + cbn [map join_comma] in H. apply Q in H; auto. congruence.
    + exfalso. cbn [map] in H. change (str x = str y ++ String "," (join_comma (str y' :: map str l')))%string in H. apply (proj1 (proj2 (P x Ix))). rewrite H, chars_app. apply in_or_app. right. now left.
    + exfalso. cbn [map] in H. change (str x ++ String "," (join_comma (str x' :: map str l)) = str y)%string in H. apply (proj1 (proj2 (P y Iy))). rewrite <- H, chars_app. apply in_or_app. right. now left.
    + cbn [map] in H. change (str x ++ String "," (join_comma (map str (x' :: l))) = str y ++ String "," (join_comma (map str (y' :: l'))))%string in H.
      apply split_at in H; [|now apply P..]. destruct H as [E1 E2]. apply Q in E1; auto. apply IH in E2; [|intros z Hz; apply H1; now right|intros z Hz; apply H2; now right]. congruence.
Qed.
Lemma join_no_underscore str ls l : prints str ls -> incl l ls -> ~ In "_"%char (chars (join_comma (map str l))).
Proof.
  intros [P _]. induction l as [|x l IH]; intros H; [intros []|]. destruct l as [|y l].
  - cbn [map join_comma]. apply P. apply H. now left.
  - cbn [map] in *. change (join_comma (str x :: str y :: map str l)) with (str x ++ String "," (join_comma (str y :: map str l)))%string. rewrite chars_app, in_app_iff. intros [K|[K|K]]; [revert K; apply P; apply H; now left|discriminate|]. revert K. apply IH. intros z Hz. apply H. now right.
Qed.
(** ContinuousToBinary: dimension (without '=') and thresholds. *)
Theorem C19_binary : forall str w d vs d' vs' t t',
  prints str (map fst vs ++ map fst vs') -> ~ In "="%char (chars d) -> ~ In "="%char (chars d') ->
  ContinuousToBinary str w (TList vs) d None = Ok t -> ContinuousToBinary str w (TList vs') d' None = Ok t' ->
  (suffix t = suffix t' <-> d = d' /\ map fst vs = map fst vs').
Proof.
  intros str w d vs d' vs' t t' P Nd Nd' Ht Ht'. unfold ContinuousToBinary, input_transform in Ht, Ht'. cbn [threshold_suffix bind] in Ht, Ht'. destruct (memb w _); [|discriminate]. injection Ht as <-. injection Ht' as <-. cbn [suffix]. rewrite <- (map_map fst str vs), <- (map_map fst str vs'). split; [|intros [-> ->]; reflexivity].
  intros H. change (d ++ String "=" (join_comma (map str (map fst vs))) = d' ++ String "=" (join_comma (map str (map fst vs'))))%string in H. apply split_at in H; auto. destruct H as [-> H]. split; [reflexivity|]. apply (join_labels str (map fst vs ++ map fst vs')) in H; auto; [apply incl_appl|apply incl_appr]; apply incl_refl.
Qed.
Print Assumptions C19_binary.
(** ContinuousToBins and ContinuousToCDF: dimension and thresholds, and the side that is closed. *)
Theorem C19_bins : forall str str2f w d vs en d' vs' en' t t',
  prints str (map fst vs ++ map fst vs') ->
  ContinuousToBins str str2f w (TList vs) d None en = Ok t -> ContinuousToBins str str2f w (TList vs') d' None en' = Ok t' ->
  (suffix t = suffix t' <-> d = d' /\ map fst vs = map fst vs').
Proof.
  intros str str2f w d vs en d' vs' en' t t' P Ht Ht'. unfold ContinuousToBins, input_transform in Ht, Ht'. cbn [threshold_suffix bind] in Ht, Ht'. destruct (memb w _); [|discriminate]. injection Ht as <-. injection Ht' as <-. cbn [suffix]. rewrite <- (map_map fst str vs), <- (map_map fst str vs'). split; [|intros [-> ->]; reflexivity].
  intros H. apply (sapp_inj_l "ContinuousToBins_") in H. change (d ++ String "_" (join_comma (map str (map fst vs))) = d' ++ String "_" (join_comma (map str (map fst vs'))))%string in H.
  apply split_last in H; [|eapply join_no_underscore; [exact P|]; first [apply incl_appl; apply incl_refl|apply incl_appr; apply incl_refl]..]. destruct H as [-> H]. split; [reflexivity|]. apply (join_labels str (map fst vs ++ map fst vs')) in H; auto; [apply incl_appl|apply incl_appr]; apply incl_refl.
Qed.
Print Assumptions C19_bins.
Theorem C19_cdf : forall str w d vs en ri d' vs' en' ri' t t',
  prints str (map fst vs ++ map fst vs') ->
  ContinuousToCDF str w (TList vs) d None en ri = Ok t -> ContinuousToCDF str w (TList vs') d' None en' ri' = Ok t' ->
  (suffix t = suffix t' <-> d = d' /\ map fst vs = map fst vs' /\ ri = ri').
Proof.
  intros str w d vs en ri d' vs' en' ri' t t' P Ht Ht'. unfold ContinuousToCDF, input_transform in Ht, Ht'. cbn [threshold_suffix bind] in Ht, Ht'. destruct (memb w _); [|discriminate]. injection Ht as <-. injection Ht' as <-. cbn [suffix]. rewrite <- (map_map fst str vs), <- (map_map fst str vs'). split; [|intros (-> & -> & ->); reflexivity].
  intros H. change ("ContinuousToCDF_" ++ (d ++ "_" ++ join_comma (map str (map fst vs)) ++ "_right_inclusive_" ++ bool_name ri) = "ContinuousToCDF_" ++ (d' ++ "_" ++ join_comma (map str (map fst vs')) ++ "_right_inclusive_" ++ bool_name ri'))%string in H. apply (sapp_inj_l "ContinuousToCDF_") in H. set (x := join_comma (map str (map fst vs))) in *. set (x' := join_comma (map str (map fst vs'))) in *.
  assert (forall d x k, (d ++ "_" ++ x ++ "_right_inclusive_" ++ bool_name k = (d ++ "_" ++ x) ++ "_right_inclusive_" ++ bool_name k)%string) as A by (intros d0 x0 k; now rewrite (sapp_assoc d0), (sapp_assoc "_")).
  rewrite !A in H. assert (ri = ri') as <-.
  { destruct ri, ri'; try reflexivity; exfalso; apply endings in H; try discriminate; cbn in H; discriminate. }
  rename H into H'.
  apply sapp_inj_r in H'. change (d ++ String "_" x = d' ++ String "_" x')%string in H'.
  apply split_last in H'; [|eapply join_no_underscore; [exact P|]; first [apply incl_appl; apply incl_refl|apply incl_appr; apply incl_refl]..]. destruct H' as [-> H']. split; [reflexivity|]. split; [|reflexivity]. apply (join_labels str (map fst vs ++ map fst vs')) in H'; auto; [apply incl_appl|apply incl_appr]; apply incl_refl.
Qed.
Print Assumptions C19_cdf.
