(** One result file (C70): facts about the literal names, and process_results. *)
From Coq Require Import String Ascii ZArith List Bool Reals FunctionalExtensionality.
Import ListNotations.
From Verif Require Import Prelude Values Model_XArray Spec_XArray Proofs_XArray Model_MetricsBase Model_Aggregation Model_Categorical
  Model_Prepare Spec_Prepare Proofs_Prepare Proofs_Select Proofs_RoundTrip Proofs_Seeps Proofs_Loaders Proofs_AggState Model_Combine Spec_Combine Proofs_Combine.
Local Open Scope string_scope.
Local Open Scope list_scope.

(** ** The literal dictionaries *)
Definition nm (k v : string) : string := (k ++ "." ++ v)%string.
Definition canon (n : string) : string :=
  if String.eqb n "vector_rmse.wind" then "rmse.wind_vector" else if String.eqb n "vector_rmse.10m_wind" then "rmse.10m_wind_vector" else n.
Definition pair_ok (k v : string) : bool :=
  match part 0 (nm k v), part 1 (nm k v) with Ok a, Ok b => String.eqb a k && String.eqb b v | _, _ => false end
  && String.eqb (canon (nm k v)) (nm k v)
  && forallb (fun v' => Bool.eqb (endswith ("." ++ v')%string (nm k v)) (String.eqb v v')) (keys VARIABLE_NAMES).
Lemma pairs_ok m : forallb (fun k => forallb (pair_ok k) (keys VARIABLE_NAMES)) (keys (metric_names m)) = true.
Proof. destruct m; vm_compute; reflexivity. Qed.
Lemma shown_key {V} (d : list (string * V)) k x : In (k, x) d -> In k (keys d).
Proof. intros I. apply in_map_iff. exists (k, x). auto. Qed.
Lemma pair_facts m k v : In k (keys (metric_names m)) -> In v (keys VARIABLE_NAMES) ->
  part 0 (nm k v) = Ok k /\ part 1 (nm k v) = Ok v /\ canon (nm k v) = nm k v /\
  (forall v', In v' (keys VARIABLE_NAMES) -> endswith ("." ++ v')%string (nm k v) = String.eqb v v').
Proof.
  intros Ik Iv. pose proof (pairs_ok m) as H. rewrite forallb_forall in H. specialize (H k Ik). rewrite forallb_forall in H. specialize (H v Iv).
  unfold pair_ok in H. apply andb_true_iff in H. destruct H as [H H3]. apply andb_true_iff in H. destruct H as [H1 H2].
  destruct (part 0 (nm k v)) as [p0|]; [|discriminate]. destruct (part 1 (nm k v)) as [p1|]; [|discriminate]. apply andb_true_iff in H1. destruct H1 as [A B].
  apply String.eqb_eq in A, B, H2. subst. repeat split; auto. intros v' Iv'. rewrite forallb_forall in H3. apply Bool.eqb_prop, H3, Iv'.
Qed.
Lemma nm_inj m k v k' v' : In k (keys (metric_names m)) -> In v (keys VARIABLE_NAMES) -> In k' (keys (metric_names m)) -> In v' (keys VARIABLE_NAMES) ->
  nm k v = nm k' v' -> k = k' /\ v = v'.
Proof.
  intros I1 I2 I3 I4 E. destruct (pair_facts m k v I1 I2) as (A & B & _). destruct (pair_facts m k' v' I3 I4) as (A' & B' & _).
  rewrite E in A, B. rewrite A in A'. rewrite B in B'. split; congruence.
Qed.
Lemma named_canon m n k v K V : named n k v -> shown_metric m k K -> shown_variable v V -> canon n = nm k v.
Proof.
  intros H HK HV. destruct H as [k v H| |]; [|reflexivity|reflexivity].
  apply shown_key in HK, HV. apply (pair_facts m k v HK HV).
Qed.
Fixpoint nodups (l : list string) : bool := match l with [] => true | x :: l' => negb (memb x l') && nodups l' end.
Lemma nodups_NoDup l : nodups l = true -> NoDup l.
Proof. induction l as [|x l IH]; intros H; [constructor|]. cbn [nodups] in H. apply andb_true_iff in H. destruct H as [H1 H2]. constructor; [apply negb_true_iff, memb_false in H1; exact H1|auto]. Qed.
Lemma dict_functional (d : list (string * string)) : nodups (keys d) = true -> forall k x y, In (k, x) d -> In (k, y) d -> x = y.
Proof. intros N k x y Ix Iy. apply nodups_NoDup in N. apply (In_dget _ _ _ N) in Ix, Iy. congruence. Qed.
Lemma dict_injective (d : list (string * string)) : nodups (values d) = true -> forall k k' x, In (k, x) d -> In (k', x) d -> k = k'.
Proof.
  intros N k k' x I I'. apply nodups_NoDup in N. unfold values in N.
  assert (forall (l : list (string * string)), NoDup (map snd l) -> In (k, x) l -> In (k', x) l -> k = k') as H; [|apply (H d); auto].
  induction l as [|[a b] l IH]; [contradiction|]. cbn [map snd]. intros M. apply NoDup_cons_iff in M. destruct M as [M1 M2]. intros [[= <- <-]|J] [[= ->]|J']; auto.
  - exfalso. apply M1. apply in_map_iff. exists (k', b). auto.
  - subst b. exfalso. apply M1. apply in_map_iff. exists (k, x). auto.
Qed.
Lemma metric_get m k K : shown_metric m k K <-> dget (metric_names m) k = Some K.
Proof.
  unfold shown_metric. split; [|intros H; apply dget_In, H]. apply In_dget. apply nodups_NoDup. destruct m; vm_compute; reflexivity.
Qed.
Lemma metric_inj m k k' K : shown_metric m k K -> shown_metric m k' K -> k = k'.
Proof. apply dict_injective. destruct m; vm_compute; reflexivity. Qed.
Lemma variable_get v V : shown_variable v V <-> dget VARIABLE_NAMES v = Some V.
Proof. unfold shown_variable. split; [|intros H; apply dget_In, H]. apply In_dget. apply nodups_NoDup. vm_compute. reflexivity. Qed.
Lemma variable_inj v v' V : shown_variable v V -> shown_variable v' V -> v = v'.
Proof. apply dict_injective. vm_compute. reflexivity. Qed.
Lemma variable_fun v V V' : shown_variable v V -> shown_variable v V' -> V = V'.
Proof. apply dict_functional. vm_compute. reflexivity. Qed.
Lemma model_get m a M : shown_model m a M <-> dget (models m) a = Some M.
Proof. unfold shown_model. split; [|intros H; apply dget_In, H]. apply In_dget. apply nodups_NoDup. destruct m; vm_compute; reflexivity. Qed.
Lemma model_inj m a a' M : shown_model m a M -> shown_model m a' M -> a = a'.
Proof. apply dict_injective. destruct m; vm_compute; reflexivity. Qed.
Definition all_regions : list (string * string) := REGION_NAMES ++ map (fun rg => (fst rg ++ "_land", snd rg ++ " (Land)")%string) REGION_NAMES.
Lemma shown_region_all r G : shown_region r G <-> In (r, G) all_regions.
Proof.
  unfold shown_region, all_regions. rewrite in_app_iff. split; (intros [H|H]; [left; exact H|right]).
  - destruct H as (r0 & G0 & H & -> & ->). apply in_map_iff. exists (r0, G0). auto.
  - apply in_map_iff in H. destruct H as ([r0 G0] & [= <- <-] & H). eauto.
Qed.
Lemma region_inj r r' G : shown_region r G -> shown_region r' G -> r = r'.
Proof. rewrite !shown_region_all. apply dict_injective. vm_compute. reflexivity. Qed.
Lemma region_fun r G G' : shown_region r G -> shown_region r G' -> G = G'.
Proof. rewrite !shown_region_all. apply dict_functional. vm_compute. reflexivity. Qed.
Lemma region_rename r G : shown_region r G -> rename_region (LS r) = Ok (LS G).
Proof.
  rewrite shown_region_all. intros I.
  assert (forallb (fun rg => match rename_region (LS (fst rg)) with Ok (LS g) => String.eqb g (snd rg) | _ => false end) all_regions = true) as H by (vm_compute; reflexivity).
  rewrite forallb_forall in H. specialize (H (r, G) I). cbn [fst snd] in H. destruct (rename_region (LS r)) as [[z|q|g|b]|]; try discriminate. apply String.eqb_eq in H. now subst.
Qed.

(** ** Lists *)
Lemma mapM_In_iff {A B} (f : A -> result B) l r : mapM f l = Ok r -> forall y, In y r <-> exists x, In x l /\ f x = Ok y.
Proof.
  intros H. apply mapM_Ok_Forall2 in H. induction H as [|x y l r E F IH]; intros z; [split; [contradiction|intros (? & [] & _)]|]. cbn [In]. rewrite IH. split.
  - intros [<-|(x' & I & E')]; [exists x; auto|exists x'; auto].
  - intros (x' & [<-|I] & E'); [left; congruence|right; eauto].
Qed.
Lemma dget_combine_mapM {V} (f : string -> result V) ks : forall vs, mapM f ks = Ok vs -> forall k a, dget (combine (map LS ks) vs) (LS k) = Some a <-> In k ks /\ f k = Ok a.
Proof.
  induction ks as [|k0 ks IH]; intros vs H k a; cbn [mapM] in H.
  - injection H as <-. split; [discriminate|intros [[] _]].
  - destruct (f k0) as [v0|] eqn:E; [|discriminate]. cbn [bind] in H. destruct (mapM f ks) as [vs'|] eqn:E'; [|discriminate]. injection H as <-. cbn [map combine dget].
    destruct (eq_dec (LS k) (LS k0)) as [Ek|Ek].
    + injection Ek as <-. split; [intros [= <-]; split; [left; reflexivity|exact E]|intros [_ Ef]; congruence].
    + rewrite (IH _ eq_refl). split; intros [A B]; split; auto; [right; exact A|destruct A as [<-|A]; [congruence|exact A]].
Qed.
