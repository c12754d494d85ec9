(** C70: a file with a metric the combination does not know stops it. *)
From Coq Require Import String Ascii ZArith List Bool.
Import ListNotations.
From Verif Require Import Prelude Values Model_XArray Spec_XArray Proofs_XArray Model_MetricsBase Model_Aggregation Model_Categorical Model_Prepare Proofs_RoundTrip Proofs_Seeps Proofs_Strings
  Model_Combine Spec_Combine Proofs_Combine Proofs_Combine2 Proofs_Combine5.
Local Open Scope string_scope.
Local Open Scope list_scope.

Definition dotless (s : string) : Prop := ~ In "."%char (list_ascii_of_string s).

Lemma split_dot k v : dotless k -> dotless v -> split_char "."%char (k ++ "." ++ v)%string = [k; v].
Proof.
  unfold dotless. intros Hk Hv. assert (forall s, ~ In "."%char (list_ascii_of_string s) -> split_char "."%char s = [s]) as S1.
  { clear. induction s as [|c s IH]; intros H; [reflexivity|]. cbn [split_char]. cbn [list_ascii_of_string] in H. destruct (Ascii.eqb_spec c ".") as [->|_]; [exfalso; apply H; now left|]. rewrite IH; [reflexivity|]. intros I. apply H. now right. }
  induction k as [|c k IH].
  - change ("" ++ "." ++ v)%string with (String "." v). cbn [split_char]. rewrite (S1 v Hv). reflexivity.
  - change (String c k ++ "." ++ v)%string with (String c (k ++ "." ++ v)). cbn [split_char]. cbn [list_ascii_of_string] in Hk. destruct (Ascii.eqb_spec c ".") as [->|_]; [exfalso; apply Hk; now left|].
    rewrite IH; [reflexivity|]. intros I. apply Hk. now right.
Qed.
Lemma endswith_app a b : endswith b (a ++ b)%string = true.
Proof. induction a as [|c a IH]; [cbn; destruct b; cbn; rewrite ?String.eqb_refl, ?Ascii.eqb_refl; reflexivity|]. change (String c a ++ b)%string with (String c (a ++ b)). cbn [endswith]. rewrite IH. apply orb_true_r. Qed.
Lemma rename_vector_keeps old new (ds out : vars da) n : rename_vector old new ds = Ok out -> n <> old -> In n (keys ds) -> In n (keys out).
Proof.
  unfold rename_vector. intros H Hn I. destruct (memb old (ds_names ds)); [|injection H as <-; exact I]. unfold rename_ds in H. destruct (_ && _); [|discriminate]. injection H as <-.
  unfold keys in *. rewrite map_map. cbn [fst]. apply in_map_iff in I. destruct I as (kv & <- & I). apply in_map_iff. exists kv. split; [|exact I]. unfold new_name. cbn [dget]. destruct (eq_dec (fst kv) old); [contradiction|reflexivity].
Qed.
Lemma combined_labels {A} k (arrs : list A) : forall ms, length arrs = length ms -> In k ms -> In (LS k) (map fst (combine (map LS ms) arrs)).
Proof. induction arrs as [|a arrs IH]; intros [|x l] L Ik; try discriminate; [contradiction|]. cbn [map combine fst]. destruct Ik as [->|Ik]; [now left|right]. apply IH; auto. Qed.
(** What a successful [process] says of the metrics named in the file. *)
Lemma process_metrics m (ds out : vars da) k v : process m ds = Ok out -> In (k ++ "." ++ v)%string (keys ds) -> dotless k -> dotless v ->
  (k ++ "." ++ v)%string <> "vector_rmse.wind" -> (k ++ "." ++ v)%string <> "vector_rmse.10m_wind" -> dget (metric_names m) k <> None.
Proof.
  intros H I Hk Hv N1 N2. unfold process in H. destruct (rename_vector _ _ ds) as [D1|] eqn:E1; [|discriminate]. cbn [bind] in H. destruct (rename_vector _ _ D1) as [D2|] eqn:E2; [|discriminate]. cbn [bind] in H.
  apply (rename_vector_keeps _ _ _ _ _ E1 N1) in I. apply (rename_vector_keeps _ _ _ _ _ E2 N2) in I. clear E1 E2 D1.
  destruct (mapM (part 1) (keys D2)) as [vs|] eqn:Evs; [|discriminate]. cbn [bind] in H. destruct (mapM (cat_variable D2) (nodup string_dec vs)) as [cats|] eqn:Ec; [|discriminate]. cbn [bind] in H.
  assert (In v vs) as Iv by (apply (mapM_In_iff _ _ _ Evs); exists (k ++ "." ++ v)%string; split; [exact I|]; unfold part; rewrite split_dot by assumption; reflexivity).
  assert (forall c, In c cats -> exists ls rest, dims (snd c) = ("metric", ls) :: rest) as Dm.
  { intros c Hc. apply (mapM_In_iff _ _ _ Ec) in Hc. destruct Hc as (w & _ & Ew). unfold cat_variable in Ew. destruct (metrics_for_variable _ w) as [ms|]; [|discriminate]. cbn [bind] in Ew. destruct (mapM _ ms) as [arrs|]; [|discriminate]. cbn [bind] in Ew. destruct ms; [discriminate|]. injection Ew as <-. eexists. eexists. reflexivity. }
  assert (exists c, In c cats /\ In (LS k) (labels_of (dims (snd c)) "metric")) as (c & Ic & Il).
  { assert (In v (nodup string_dec vs)) as Iv' by (apply nodup_In; exact Iv).
    assert (exists c, cat_variable D2 v = Ok c) as [c Ev]. { destruct (cat_variable D2 v) as [c|er] eqn:Ev; [eauto|]. exfalso. apply mapM_Ok_Forall2 in Ec. clear -Ec Iv' Ev. induction Ec; [contradiction|]. destruct Iv' as [->|Iv']; [congruence|auto]. }
    exists c. split; [apply (mapM_In_iff _ _ _ Ec); eauto|]. unfold cat_variable in Ev. destruct (metrics_for_variable _ v) as [ms|] eqn:Em; [|discriminate]. cbn [bind] in Ev. destruct (mapM _ ms) as [arrs|] eqn:Ea; [|discriminate]. cbn [bind] in Ev.
    assert (In k ms) as Ik. { unfold metrics_for_variable in Em. apply (mapM_In_iff _ _ _ Em). exists (k ++ "." ++ v)%string. split; [|unfold part; rewrite split_dot by assumption; reflexivity]. apply filter_In. split; [exact I|apply endswith_app]. }
    assert (length arrs = length ms) as L by (eapply mapM_Ok_length; eauto). destruct ms as [|k0 ms]; [contradiction|]. injection Ev as <-. cbn [snd]. rewrite concat_labels_self.
    change (In (LS k) (map fst (combine (map LS (k0 :: ms)) arrs))). apply combined_labels; assumption. }
  unfold align_dataset in H. rewrite align_reindex in H. set (J := fold_left _ _ _) in H.
  assert (In (LS k) (labels_of J "metric")) as IJ by (apply joint_labels; exists (snd c); split; [apply in_map; exact Ic|exact Il]).
  cbv zeta in H. set (D3 := combine (map fst cats) (map (reindex J NaN) (map snd cats))) in H. destruct (rename_ds (known_renames D3) D3) as [D4|] eqn:E4; [|discriminate]. cbn [bind] in H.
  assert (exists w a D, D3 = (w, a) :: D /\ exists rest, dims a = ("metric", labels_of J "metric") :: rest) as (w & a & D & ED & rest & Ea).
  { unfold D3. destruct cats as [|[w a] cats]; [contradiction|]. cbn [map combine fst snd]. eexists. eexists. eexists. split; [reflexivity|]. destruct (Dm (w, a) (or_introl eq_refl)) as (ls & rest & E). cbn [snd] in E. unfold reindex. cbn [dims]. rewrite E. cbn [map fst]. eauto. }
  assert (ds_labels D4 "metric" = Ok (labels_of J "metric")) as EL.
  { unfold rename_ds in E4. destruct (_ && _); [|discriminate]. injection E4 as <-. rewrite ED. cbn [map fst snd]. unfold ds_labels. cbn [find snd].
    assert (new_name (known_renames ((w, a) :: D)) "metric" = "metric") as NN.
    { unfold new_name, known_renames. match goal with |- match dget ?l _ with _ => _ end = _ => destruct (dget l "metric") eqn:G end; [|reflexivity]. exfalso. apply dget_In in G. apply filter_In in G. destruct G as [G _]. apply (in_map fst) in G. revert G. apply memb_false. vm_compute. reflexivity. }
    assert (dims (rename_da (known_renames ((w, a) :: D)) a) = ("metric", labels_of J "metric") :: map (fun p => (new_name (known_renames ((w, a) :: D)) (fst p), snd p)) rest) as DD by (unfold rename_da; cbn [dims]; rewrite Ea; cbn [map fst snd]; rewrite NN; reflexivity).
    assert (memb "metric" (dnames (rename_da (known_renames ((w, a) :: D)) a)) = true) as -> by (apply memb_In; unfold dnames; rewrite DD; now left).
    cbn [snd]. rewrite DD. unfold labels_of. cbn [dget]. destruct (eq_dec "metric" "metric"); [reflexivity|contradiction]. }
  match type of H with bind ?x _ = _ => destruct x as [D5|] eqn:E5; [|discriminate] end. clear H. unfold relabel in E5. rewrite EL in E5. cbn [bind] in E5. destruct (mapM (rename_metric m) (labels_of J "metric")) as [new|] eqn:En; [|discriminate].
  apply mapM_Ok_Forall2 in En. clear -En IJ. induction En as [|l y ls ys Hl _ IH]; [contradiction|]. destruct IJ as [->|IJ]; [|auto]. unfold rename_metric, dgetE in Hl. intros G. rewrite G in Hl. discriminate.
Qed.
Lemma merge_all_each m files cs : forall r out, merge_all m files r cs = Ok out -> forall model year resolution, In (model, year, resolution) cs ->
  exists o, process_results m files model year resolution = Ok o.
Proof.
  induction cs as [|c cs IH]; intros r out H model year resolution I; [contradiction|]. cbn [merge_all] in H. destruct (add_cell m files r c) as [r'|] eqn:E; [|discriminate]. cbn [bind] in H. destruct I as [->|I]; [|eapply IH; eauto].
  cbn [add_cell] in E. destruct (process_results m files model year resolution) as [o|]; [eauto|discriminate].
Qed.
(** If the combination succeeds, every metric of every file it found is one it has a name for: a file
    with an unknown metric is an error, not a silent gap. *)
Theorem C70_unknown_metric m files out : main m files = Ok out -> forall ds k v, found m files ds -> In (k ++ "." ++ v)%string (keys ds) ->
  dotless k -> dotless v -> ~ (k = "vector_rmse" /\ (v = "wind" \/ v = "10m_wind")) -> exists K, shown_metric m k K.
Proof.
  intros H ds k v (model & M & year & resolution & Hc & Hf) I Hk Hv Nv. unfold main in H. destruct (merge_all m files [] (cells m)) as [r|] eqn:E; [|discriminate].
  destruct (merge_all_each m files _ _ _ E model year resolution) as (o & P); [apply cells_In; eauto|]. unfold process_results, open_nc in P. change (result_file model year resolution) with (file_of model year resolution) in P. rewrite Hf in P.
  match type of P with bind (process m ?d) _ = _ => destruct (process m d) as [p|] eqn:Ep; [|discriminate] end.
  assert (forall a b, dotless a -> dotless b -> (k ++ "." ++ v)%string = (a ++ "." ++ b)%string -> k = a /\ v = b) as Inj.
  { intros a b Ha Hb E0. apply (f_equal (split_char ".")) in E0. rewrite !split_dot in E0 by assumption. injection E0. auto. }
  apply (process_metrics m _ _ k v) in Ep; auto.
  - destruct (dget (metric_names m) k) as [K|] eqn:G; [|contradiction]. exists K. apply metric_get. exact G.
  - rewrite (keys_map_val strip). exact I.
  - intros E0. apply (Inj "vector_rmse" "wind") in E0; [|intros C; cbn in C; repeat (destruct C as [C|C]; [discriminate|]); exact C..]. apply Nv. tauto.
  - intros E0. apply (Inj "vector_rmse" "10m_wind") in E0; [|intros C; cbn in C; repeat (destruct C as [C|C]; [discriminate|]); exact C..]. apply Nv. tauto.
Qed.
Print Assumptions C70_unknown_metric.
(** A misspelt metric: no output, whatever the values.  (C70_example shows a set of files that succeeds.) *)
Example C70_unknown_metric_case a out : main Deterministic (fun fn => if String.eqb fn "hres_vs_era5_64x32_2020.nc" then Some [("rms.temperature", a)] else None) <> Ok out.
Proof.
  intros H. assert (exists K, shown_metric Deterministic "rms" K) as [K HK].
  { assert (forall s, (if existsb (Ascii.eqb "."%char) (list_ascii_of_string s) then false else true) = true -> dotless s) as D.
    { intros s E I. assert (existsb (Ascii.eqb "."%char) (list_ascii_of_string s) = true) as X by (apply existsb_exists; exists "."%char; split; [exact I|reflexivity]). rewrite X in E. discriminate. }
    apply (C70_unknown_metric Deterministic _ out H [("rms.temperature", a)] "rms" "temperature").
    - exists "hres_vs_era5", "IFS HRES vs ERA5", "2020", "64x32". split; [split; [right; left; reflexivity|split; [right; left; reflexivity|left; reflexivity]]|reflexivity].
    - left. reflexivity.
    - apply D. reflexivity.
    - apply D. reflexivity.
    - intros [C _]. discriminate. }
  apply metric_get in HK. discriminate.
Qed.
