(** C67: preparation of a loader's dataset. *)
From Coq Require Import String Ascii ZArith List Bool Lia.
Import ListNotations.
From Verif Require Import Prelude Values Model_XArray Spec_XArray Proofs_XArray Model_MetricsBase Model_Aggregation Model_TimeChunks Model_Deterministic Proofs_Beam9 Proofs_AggState
  Model_Loaders Spec_Loaders Proofs_Loaders Proofs_Loaders2 Props_Loaders Model_Latency Model_Prepare Spec_Prepare Proofs_Prepare Proofs_Prepare2.
Local Open Scope Z_scope.
Local Open Scope string_scope.
Local Open Scope list_scope.

(** ** Construction *)
(** A loader can be made exactly if one of the path and the dataset is given, and reads nothing yet. *)
Theorem C67_one_source : forall path ds,
  ((exists s, init_loader path ds = Ok s) <-> (path = None <-> ds <> None)) /\
  (forall e, init_loader path ds = Err e -> e = ValueError).
Proof.
  intros path ds. split; [|unfold init_loader; destruct path, ds; congruence]. unfold init_loader. destruct path as [p|], ds as [d|]; split.
  - intros [s H]; discriminate.
  - intros [_ H]. specialize (H ltac:(discriminate)). discriminate.
  - intros _. split; congruence.
  - intros _. eauto.
  - intros _. split; congruence.
  - intros _. eauto.
  - intros [s H]; discriminate.
  - intros [H _]. specialize (H eq_refl). congruence.
Qed.

(** A path is opened as zarr exactly if it ends in ".zarr", any slashes at its end left aside. *)
Fixpoint slashes (n : nat) : string := match n with O => EmptyString | S n => String "/" (slashes n) end.
Lemma rev_string_acc s : forall acc, rev_string s acc = (rev_string s "" ++ acc)%string.
Proof.
  induction s as [|c s IH]; intros acc; [reflexivity|]. cbn [rev_string]. rewrite (IH (String c acc)), (IH (String c "")).
  generalize (rev_string s ""). intros t. induction t as [|x t IHt]; [reflexivity|]. cbn [append]. rewrite IHt. reflexivity.
Qed.
Lemma append_assoc_s (a b c : string) : ((a ++ b) ++ c)%string = (a ++ (b ++ c))%string.
Proof. induction a as [|x a IH]; [reflexivity|]. cbn [append]. rewrite IH. reflexivity. Qed.
Lemma append_nil_s (a : string) : (a ++ "")%string = a.
Proof. induction a as [|x a IH]; [reflexivity|]. cbn [append]. rewrite IH. reflexivity. Qed.
Lemma rev_string_app a b : rev_string (a ++ b)%string "" = (rev_string b "" ++ rev_string a "")%string.
Proof.
  induction a as [|c a IH]; [symmetry; apply append_nil_s|]. cbn [append rev_string]. rewrite rev_string_acc, IH, (rev_string_acc a (String c "")), append_assoc_s. reflexivity.
Qed.
Lemma rev_string_invol a : rev_string (rev_string a "") "" = a.
Proof. induction a as [|c a IH]; [reflexivity|]. cbn [rev_string]. rewrite (rev_string_acc a (String c "")), rev_string_app, IH. reflexivity. Qed.
Lemma rev_slashes n : rev_string (slashes n) "" = slashes n.
Proof.
  induction n as [|n IH]; [reflexivity|]. cbn [slashes rev_string]. rewrite rev_string_acc, IH. clear. induction n as [|n IH]; [reflexivity|]. cbn [slashes append]. rewrite IH. reflexivity.
Qed.
Lemma lstrip_spec s : exists n t, s = (slashes n ++ t)%string /\ lstrip "/" s = t /\ (forall t', t <> String "/" t').
Proof.
  induction s as [|c s IH]; [exists O, ""; repeat split; discriminate|]. cbn [lstrip]. destruct (Ascii.eqb c "/") eqn:E.
  - apply Ascii.eqb_eq in E. subst c. destruct IH as (n & t & -> & Et & Nt). exists (S n), t. repeat split; auto.
  - exists O, (String c s). repeat split; auto. intros t' [= -> _]. discriminate.
Qed.
Lemma prefix_app p s : String.prefix p s = true <-> exists t, s = (p ++ t)%string.
Proof.
  revert s. induction p as [|c p IH]; intros s; [split; [intros _; exists s; reflexivity|intros _; destruct s; reflexivity]|]. destruct s as [|c' s]; [split; [discriminate|intros [t H]; discriminate]|]. cbn [String.prefix append].
  destruct (Ascii.ascii_dec c c') as [->|Ne]; [rewrite IH; split; intros [t H]; exists t; congruence|]. split; [discriminate|]. intros [t [= -> _]]. congruence.
Qed.
Lemma lstrip_slashes n t : (forall t', t <> String "/" t') -> lstrip "/" (slashes n ++ t) = t.
Proof.
  intros H. induction n as [|n IH].
  - cbn [slashes append]. destruct t as [|c t]; [reflexivity|]. cbn [lstrip]. destruct (Ascii.eqb c "/") eqn:E; [apply Ascii.eqb_eq in E; subst; exfalso; apply (H t eq_refl)|reflexivity].
  - cbn [slashes append lstrip]. exact IH.
Qed.
Theorem C67_zarr_by_name : forall w path,
  ((exists base n, path = (base ++ ".zarr" ++ slashes n)%string) -> open_path w path = open_zarr w path) /\
  (~ (exists base n, path = (base ++ ".zarr" ++ slashes n)%string) -> open_path w path = open_dataset w path).
Proof.
  intros w path. assert (is_zarr path = true <-> exists base n, path = (base ++ ".zarr" ++ slashes n)%string) as Z.
  { unfold is_zarr. rewrite prefix_app. split.
    - intros [t H]. destruct (lstrip_spec (rev_string path "")) as (n & t0 & E & Et & _). rewrite Et in H. exists (rev_string t ""), n. rewrite <- (rev_string_invol path), E, H, !rev_string_app, rev_slashes, rev_string_invol. apply append_assoc_s.
    - intros (base & n & ->). exists (rev_string base ""). rewrite !rev_string_app, rev_slashes, append_assoc_s, lstrip_slashes; [reflexivity|]. intros t'. discriminate. }
  unfold open_path. split; intros H; [apply Z in H; rewrite H; reflexivity|]. destruct (is_zarr path); [exfalso; apply H, Z; reflexivity|reflexivity].
Qed.

(** ** The prepared dataset *)
(** After preprocessing: the variables asked for (all by default), each with the values it had under
    its old names, at the labels asked for. *)
Theorem C67_prepared_values : forall o source raw ds, step (o_preprocessing_fn o) (fun f => f) source raw -> dataset raw ->
  (forall kw, o_sel_kwargs o = Some kw -> NoDup (keys kw)) -> prepared_from o source ds ->
  exists rho, asked_names o raw rho /\
    (forall n n', name_of raw n -> name_of raw n' -> rho n = rho n' -> n = n') /\
    keys ds = match o_variables o with None => map rho (keys raw) | Some l => nodup string_dec l end /\
    forall v b, dget ds v = Some b -> exists u a, v = rho u /\ dget raw u = Some a /\ selected_from (o_sel_kwargs o) rho a b.
Proof.
  intros o source raw ds P D Nk (d1 & d2 & d3 & A & B & C & E). assert (d1 = raw) as -> by (unfold step in A, P; destruct (o_preprocessing_fn o); congruence). destruct (rename_dataset_spec o raw d2 B) as (rho & As & R). pose proof (dataset_renamed _ _ _ D R) as D2. exists rho. split; auto. split; [apply R|].
  assert (keys ds = keys d3 /\ forall v a, dget d3 v = Some a -> tidy a -> exists b, dget ds v = Some b /\ selected_from (o_sel_kwargs o) id_name a b) as [K3 S3].
  { unfold step in E. destruct (o_sel_kwargs o) as [kw|]; [apply sel_kwargs_spec; auto|]. subst ds. split; auto. intros v a G T. exists a. split; auto. apply selected_none, T. }
  assert (keys d3 = match o_variables o with None => map rho (keys raw) | Some l => nodup string_dec l end /\ forall v a, dget d3 v = Some a -> dget d2 v = Some a) as [K2 S2].
  { unfold step in C. destruct (o_variables o) as [l|]; [split; [apply (select_variables_spec _ _ _ C)|intros v a; apply (select_variables_sub _ _ _ _ _ C)]|]. subst d3. split; auto. apply (keys_renamed _ _ _ R). }
  split; [congruence|]. intros v b Gb. assert (exists a3, dget d3 v = Some a3) as [a3 G3]. { apply keys_dget. rewrite <- K3. apply (dget_Some_keys _ _ Gb). }
  pose proof (S2 _ _ G3) as G2. destruct (S3 v a3 G3 (wf_tidy _ (dataset_get _ _ _ D2 G2))) as (b' & Gb' & Sb). assert (b' = b) as -> by (unfold vars, dict in *; congruence).
  destruct (dget_renamed_inv _ _ _ _ _ R G2) as (u & a & Ga & -> & ->). exists u, a. split; auto. split; auto. apply selected_ren; auto; [apply wf_tidy, (dataset_get _ _ _ D Ga)|].
  destruct R as [J _]. intros n n' I I' Eq. apply J; auto; right; exists u, a; (split; [apply dget_In, Ga|left; auto]).
Qed.

(** ** Histories *)
(** Once a loader has read its dataset and prepared it, every call is answered from that prepared
    dataset, whatever happens to the files; before that, every call raises the error of reading. *)
Definition load_from (cfg : loader_config) (src : source) (r : request) : result (vars da) :=
  load_chunk cfg src (r_inits r) (r_leads r) (r_reference r).
Lemma run_done o cfg so ds calls : run_loads o cfg so calls (mkState (Some ds) true) = map (fun wr => load_from cfg (so ds) (snd wr)) calls.
Proof. induction calls as [|[w r] calls IH]; [reflexivity|]. cbn [run_loads map snd]. unfold loader_load_chunk. rewrite prepare_done. cbn [st_ds]. rewrite IH. reflexivity. Qed.
Theorem C67_prepared_once : forall o cfg source_of given s before w r after raw ds,
  init_loader (o_path o) given = Ok s ->
  (forall w' r', In (w', r') before -> exists e, reading o given w' = Err e) ->
  reading o given w = Ok raw -> prepared_from o raw ds ->
  run_loads o cfg source_of (before ++ (w, r) :: after) s =
    map (fun wr => reading o given (fst wr)) before ++ map (fun wr => load_from cfg (source_of ds) (snd wr)) ((w, r) :: after).
Proof.
  intros o cfg so given s before w r after raw ds I B Rd P. apply prepared_iff in P. destruct (init_loader_ok _ _ _ I) as (-> & _). induction before as [|[w0 r0] before IH].
  - cbn [app map run_loads snd]. assert (maybe_prepare_dataset o w (mkState given false) = (mkState (Some ds) true, Ok tt)) as E.
    { destruct given as [d|]; [injection Rd as ->; apply prepare_ok, P|]. rewrite (prepare_read _ _ _ Rd). apply prepare_ok, P. }
    unfold loader_load_chunk. rewrite E. cbn [st_ds]. rewrite run_done. reflexivity.
  - cbn [app map run_loads fst]. destruct (B w0 r0 (or_introl eq_refl)) as [e Ee]. destruct given as [d|]; [discriminate|]. unfold loader_load_chunk. rewrite (prepare_unreadable _ _ _ Ee), Ee. f_equal. apply IH. intros w' r' Ir. apply (B w' r'). right. auto.
Qed.
