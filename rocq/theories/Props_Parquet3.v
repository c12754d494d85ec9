(** C45, continued: the chunk returned - init, lead and valid times, index, missing values. *)
From Coq Require Import Ascii String ZArith List Bool Lia Permutation.
Import ListNotations.
From Verif Require Import Prelude Values Model_XArray Proofs_Baseline Model_Calendar Spec_Calendar Model_Spatial Model_Parquet Spec_Parquet Proofs_Strings Proofs_Parquet Props_Parquet Props_Parquet2.
Local Open Scope string_scope.
Local Open Scope list_scope.
Local Open Scope Z_scope.

(** ** Columns *)
Lemma In_union_cols fs : forall acc c, In c (fold_left (fun acc f => acc ++ filter (fun c => negb (memb c acc)) (cols f)) fs acc) <-> In c acc \/ exists f, In f fs /\ In c (cols f).
Proof.
  induction fs as [|f fs IH]; intros acc c; cbn [fold_left].
  - split; [now left|]. intros [H|(f & [] & _)]. exact H.
  - rewrite IH, in_app_iff, filter_In. split.
    + intros [[H|[H _]]|(g & Hg & H)]; [now left|right; exists f; split; [now left|exact H]|right; exists g; split; [now right|exact H]].
    + intros [H|(g & [<-|Hg] & H)]; [now left; left| |right; now exists g]. destruct (memb c acc) eqn:M; [left; left; now apply memb_In|]. left. right. split; [exact H|reflexivity].
Qed.
Lemma concat_rows fs df : pd_concat fs = Ok df -> rows df = flat_map (fun f => map (fit (cols f)) (rows f)) fs.
Proof. unfold pd_concat. destruct fs as [|f fs]; [discriminate|]. now intros [= <-]. Qed.
(** The tables of the result: one for a Dataset, one per variable otherwise. *)
Definition tables_of (out : observations) : list indexed := match out with Dataset _ t => [t] | Variables _ vs => map snd vs end.
(** Columns of the files: no two get the same name, the time column becomes valid_time, and a
    preprocessing function, if there is one, keeps the times. *)
Definition plain_columns (cfg : config) (files : string -> option frame) : Prop :=
  keeps_times cfg /\ time_column cfg /\ In "valid_time" (c_coordinates cfg) /\
  forall w df df', read_window cfg files w = Ok df -> (match c_preprocess cfg with None => Ok df | Some f => f df end) = Ok df' ->
    no_clash cfg df' /\ In (c_time_dim cfg) (cols df').
(** Within the tolerance of [v] (equal to [v] if there is none). *)
Definition near (cfg : config) (v t : Z) : Prop :=
  match c_tolerance cfg with
  | None => t = v
  | Some (a, b) => v + a <= t /\ (if c_include_end cfg then t <= v + b else t < v + b)
  end.

Section Chunk.
  Variable sort_values : (row -> option Z) -> list row -> list row.
  Hypothesis sort_perm : forall key rs, Permutation (sort_values key rs) rs.

  Lemma single_cols cfg files v sl df : load_data_for_single_time sort_values cfg files v sl = Ok df -> cols df = c_variables cfg ++ c_coordinates cfg.
  Proof.
    unfold load_data_for_single_time. intros H. destruct (time_window cfg v sl) as [w|]; [|discriminate]. cbn [bind] in H. destruct (read_window cfg files w) as [d|]; [|discriminate]. cbn [bind] in H.
    match type of H with (do m <- ?x; _) = _ => destruct x as [d1|] eqn:E1; [|discriminate] end. cbn [bind] in H.
    match type of H with (do m <- ?x; _) = _ => destruct x as [d2|] eqn:E2; [|discriminate] end. cbn [bind] in H. cbv zeta in H.
    unfold loc in H. destruct (forallb _ _); [|discriminate]. now injection H as <-.
  Qed.
  Lemma single_near cfg files v df o : plain_columns cfg files -> load_data_for_single_time sort_values cfg files v None = Ok df -> In o (rows df) ->
    exists t, o "valid_time" = CTime t /\ near cfg v t.
  Proof.
    intros (K & Tc & _ & N) H Ho. destruct (C45_window sort_values sort_perm cfg files v None df o H Ho K Tc) as (w & t & Ew & Et & A); [intros; eapply N; eauto|].
    exists t. split; [exact Et|]. unfold time_window in Ew. unfold near. destruct (c_tolerance cfg) as [[a b]|]; injection Ew as <-; cbn [asked] in A; [|exact A]. destruct (c_include_end cfg); lia.
  Qed.
  Lemma single_slice cfg files v sl df o : plain_columns cfg files -> c_tolerance cfg = None -> load_data_for_single_time sort_values cfg files v (Some sl) = Ok df -> In o (rows df) ->
    exists a b t, sl_start sl = Some a /\ sl_stop sl = Some b /\ o "valid_time" = CTime t /\ v - a <= t /\ (if c_include_end cfg then t <= v + b else t < v + b).
  Proof.
    intros (K & Tc & _ & N) Nt H Ho. destruct (C45_window sort_values sort_perm cfg files v (Some sl) df o H Ho K Tc) as (w & t & Ew & Et & A); [intros; eapply N; eauto|].
    unfold time_window in Ew. rewrite Nt in Ew. destruct (sl_start sl) as [a|]; [|discriminate]. destruct (sl_stop sl) as [b|]; [|discriminate]. injection Ew as <-. cbn [asked] in A. exists a, b, t. split; [reflexivity|]. split; [reflexivity|]. split; [exact Et|]. destruct (c_include_end cfg); lia.
  Qed.

  (** The rows of the result are those of the tables, in order, numbered from 0. *)
  Lemma chunk_rows cfg files inits leads out : load_chunk_from_source sort_values cfg files inits leads = Ok out ->
    exists dfs, load_tables sort_values cfg files inits leads = Ok dfs /\
      forall t n o, In t (tables_of out) -> In (n, o) t -> exists df o', In df dfs /\ In o' (rows df) /\ o = fit (cols df) o'.
  Proof.
    unfold load_chunk_from_source. intros H. destruct (load_tables sort_values cfg files inits leads) as [dfs|]; [|discriminate]. cbn [bind] in H. exists dfs. split; [reflexivity|].
    destruct (pd_concat dfs) as [df|] eqn:Ec; [|discriminate]. cbn [bind] in H. cbv zeta in H.
    assert (forall n o, In (n, o) (with_index (rows df)) -> exists d o', In d dfs /\ In o' (rows d) /\ o = fit (cols d) o') as K.
    { intros n o I. unfold with_index in I. apply in_combine_r in I. rewrite (concat_rows _ _ Ec) in I. apply in_flat_map in I. destruct I as (d & Hd & I). apply in_map_iff in I. destruct I as (o' & <- & I). eauto. }
    assert (forall bad n o, In (n, o) (drop_if bad (with_index (rows df))) -> In (n, o) (with_index (rows df))) as D by (intros bad n o I; apply filter_In in I; tauto).
    intros t n o Ht Ho. apply (K n). destruct (c_split cfg); injection H as <-; cbn [tables_of] in Ht.
    - apply in_map_iff in Ht. destruct Ht as ([v t'] & <- & I). apply in_map_iff in I. destruct I as (v' & E & _). injection E as _ <-. cbn [snd] in Ho. destruct (c_dropna cfg); [eapply D; eauto|exact Ho].
    - destruct Ht as [<-|[]]. destruct (c_dropna cfg); [eapply D; eauto|exact Ho].
  Qed.
  Lemma fit_in cs r k : In k cs -> fit cs r k = r k. Proof. intros H. unfold fit. apply memb_In in H. now rewrite H. Qed.
  Lemma add_col_cols k f df c : In c (cols (add_col k f df)) <-> In c (cols df) \/ c = k.
  Proof. unfold add_col. cbn [cols]. destruct (memb k (cols df)) eqn:M; [apply memb_In in M; intuition congruence|]. rewrite in_app_iff. cbn [In]. intuition congruence. Qed.
  Lemma add_col_rows k f df o : In o (rows (add_col k f df)) -> exists r, In r (rows df) /\ o k = f r /\ forall c, c <> k -> o c = r c.
  Proof. unfold add_col. cbn [rows]. intros I. apply in_map_iff in I. destruct I as (r & <- & I). exists r. split; [exact I|]. unfold set, eqb. split; [now destruct (eq_dec k k)|]. intros c N. now destruct (eq_dec c k). Qed.

  (** Exact lead times: every observation has the requested init and lead time, and its own time,
      as valid_time, is within the tolerance of init + lead. *)
  Theorem C45_exact : forall cfg files inits ls out t n o,
    plain_columns cfg files -> load_chunk_from_source sort_values cfg files inits (Leads ls) = Ok out -> In t (tables_of out) -> In (n, o) t ->
    exists i l v, In i inits /\ In l ls /\ o "init_time" = CTime i /\ o "lead_time" = CDelta l /\ o "valid_time" = CTime v /\ near cfg (i + l) v.
  Proof.
    intros cfg files inits ls out t n o P H Ht Ho. destruct (chunk_rows _ _ _ _ _ H) as (dfs & E & K). destruct (K t n o Ht Ho) as (df & o' & Hd & Ho' & ->). unfold load_tables in E. apply mapM_Ok_Forall2 in E.
    assert (exists il, In il (list_prod inits ls) /\ (do df <- load_data_for_single_time sort_values cfg files (fst il + snd il) None; Ok (add_col "lead_time" (fun _ => CDelta (snd il)) (add_col "init_time" (fun _ => CTime (fst il)) df))) = Ok df) as ([i l] & Hil & E').
    { clear - E Hd. induction E as [|il d ils ds E1 E2 IH]; [destruct Hd|]. destruct Hd as [->|Hd]; [exists il; split; [now left|exact E1]|]. destruct (IH Hd) as (il' & I & E'). exists il'. split; [now right|exact E']. }
    apply in_prod_iff in Hil. cbn [fst snd] in E'. destruct (load_data_for_single_time _ _ _ _ _) as [d|] eqn:El; [|discriminate]. cbn [bind] in E'. injection E' as <-.
    apply add_col_rows in Ho'. destruct Ho' as (r1 & I1 & L1 & O1). apply add_col_rows in I1. destruct I1 as (r2 & I2 & L2 & O2).
    destruct (single_near _ _ _ _ _ P El I2) as (v & Ev & Nv). exists i, l, v.
    assert (In "valid_time" (cols d)) as Vd. { rewrite (single_cols _ _ _ _ _ El), in_app_iff. right. apply P. }
    split; [tauto|]. split; [tauto|]. rewrite !fit_in by (rewrite !add_col_cols; auto). rewrite L1, !O1 by discriminate. rewrite L2, O2 by discriminate. auto.
  Qed.
  (** No lead times: the init times are the valid times. *)
  Theorem C45_no_leads : forall cfg files inits out t n o,
    plain_columns cfg files -> load_chunk_from_source sort_values cfg files inits NoLeads = Ok out -> In t (tables_of out) -> In (n, o) t ->
    exists i v, In i inits /\ o "valid_time" = CTime v /\ near cfg i v.
  Proof.
    intros cfg files inits out t n o P H Ht Ho. destruct (chunk_rows _ _ _ _ _ H) as (dfs & E & K). destruct (K t n o Ht Ho) as (df & o' & Hd & Ho' & ->). unfold load_tables in E. apply mapM_Ok_Forall2 in E.
    assert (exists i, In i inits /\ load_data_for_single_time sort_values cfg files i None = Ok df) as (i & Hi & El).
    { clear - E Hd. induction E as [|i d ils ds E1 E2 IH]; [destruct Hd|]. destruct Hd as [->|Hd]; [exists i; split; [now left|exact E1]|]. destruct (IH Hd) as (il' & I & E'). exists il'. split; [now right|exact E']. }
    destruct (single_near _ _ _ _ _ P El Ho') as (v & Ev & Nv). exists i, v. split; [exact Hi|]. split; [|exact Nv]. rewrite fit_in; [exact Ev|]. rewrite (single_cols _ _ _ _ _ El), in_app_iff. right. apply P.
  Qed.
  (** Slices: lead_time is valid_time - init_time; it is at least MINUS the start of the slice and
      below the stop (or equal to it, with include_slice_end_time). *)
  Theorem C45_slice : forall cfg files inits sl out t n o,
    plain_columns cfg files -> load_chunk_from_source sort_values cfg files inits (LeadSlice sl) = Ok out -> In t (tables_of out) -> In (n, o) t ->
    exists a b i l, sl_start sl = Some a /\ sl_stop sl = Some b /\ In i inits /\ o "init_time" = CTime i /\ o "lead_time" = CDelta l /\ o "valid_time" = CTime (i + l) /\
      - a <= l /\ (if c_include_end cfg then l <= b else l < b).
  Proof.
    intros cfg files inits sl out t n o P H Ht Ho. destruct (chunk_rows _ _ _ _ _ H) as (dfs & E & K). destruct (K t n o Ht Ho) as (df & o' & Hd & Ho' & ->). unfold load_tables in E. destruct (c_tolerance cfg) eqn:Tol; [discriminate|]. apply mapM_Ok_Forall2 in E.
    assert (exists i, In i inits /\ (do df <- load_data_for_single_time sort_values cfg files i (Some sl); do _ <- mapM (fun r => minus_time (r "valid_time") i) (rows df); Ok (add_col "lead_time" (fun r => lead_of (r "valid_time") i) (add_col "init_time" (fun _ => CTime i) df))) = Ok df) as (i & Hi & E').
    { clear - E Hd. induction E as [|il d ils ds E1 E2 IH]; [destruct Hd|]. destruct Hd as [->|Hd]; [exists il; split; [now left|exact E1]|]. destruct (IH Hd) as (il' & I & E'). exists il'. split; [now right|exact E']. }
    destruct (load_data_for_single_time _ _ _ _ _) as [d|] eqn:El; [|discriminate]. cbn [bind] in E'. match type of E' with (do m <- ?x; _) = _ => destruct x as [?zs|]; [|discriminate] end. cbn [bind] in E'. injection E' as <-.
    apply add_col_rows in Ho'. destruct Ho' as (r1 & I1 & L1 & O1). apply add_col_rows in I1. destruct I1 as (r2 & I2 & L2 & O2).
    destruct (single_slice _ _ _ _ _ _ P Tol El I2) as (a & b & v & Ea & Eb & Ev & A & B). exists a, b, i, (v - i).
    assert (In "valid_time" (cols d)) as Vd. { rewrite (single_cols _ _ _ _ _ El), in_app_iff. right. apply P. }
    split; [exact Ea|]. split; [exact Eb|]. split; [exact Hi|]. rewrite !fit_in by (rewrite !add_col_cols; auto). rewrite L1, !O1 by discriminate. rewrite L2, O2 by discriminate. rewrite Ev. unfold lead_of. cbn [minus_time].
    split; [reflexivity|]. split; [reflexivity|]. split; [f_equal; lia|]. split; [lia|]. destruct (c_include_end cfg); lia.
  Qed.
  (** A tolerance, or removing duplicates, cannot be combined with a slice. *)
  Theorem C45_slice_incompatible : forall cfg files inits sl out,
    load_chunk_from_source sort_values cfg files inits (LeadSlice sl) = Ok out -> c_tolerance cfg = None /\ c_remove_duplicates cfg = false.
  Proof.
    intros cfg files inits sl out H. unfold load_chunk_from_source, load_tables in H. destruct (c_tolerance cfg); [discriminate|]. split; [reflexivity|]. destruct inits as [|i inits]; [discriminate|]. cbn [mapM] in H.
    destruct (c_remove_duplicates cfg) eqn:Dup; [exfalso|reflexivity]. unfold load_data_for_single_time in H. destruct (time_window cfg i (Some sl)); [|discriminate]. cbn [bind] in H. destruct (read_window cfg files _); [|discriminate]. cbn [bind] in H.
    destruct (match c_preprocess cfg with None => _ | Some f => _ end); [|discriminate]. cbn [bind] in H. rewrite Dup in H. discriminate.
  Qed.

  (** ** Nothing is lost *)
  Lemma in_with_index rs o : In o rs -> exists n, In (n, o) (with_index rs).
  Proof.
    unfold with_index. generalize 0%nat. induction rs as [|r rs IH]; intros k H; [destruct H|]. cbn [length seq combine]. destruct H as [->|H]; [exists k; now left|]. destruct (IH (S k) H) as (n & I). exists n. now right.
  Qed.
  Lemma chunk_complete cfg files inits leads out : c_dropna cfg = false -> load_chunk_from_source sort_values cfg files inits leads = Ok out ->
    exists dfs, load_tables sort_values cfg files inits leads = Ok dfs /\
      forall t df o, In t (tables_of out) -> In df dfs -> In o (rows df) -> exists n, In (n, fit (cols df) o) t.
  Proof.
    intros Nd H. unfold load_chunk_from_source in H. destruct (load_tables sort_values cfg files inits leads) as [dfs|]; [|discriminate]. cbn [bind] in H. exists dfs. split; [reflexivity|].
    destruct (pd_concat dfs) as [df|] eqn:Ec; [|discriminate]. cbn [bind] in H. cbv zeta in H. rewrite Nd in H. intros t d o Ht Hd Ho.
    assert (t = with_index (rows df)) as ->.
    { destruct (c_split cfg); injection H as <-; cbn [tables_of] in Ht; [|destruct Ht as [<-|[]]; reflexivity]. apply in_map_iff in Ht. destruct Ht as ([v t'] & <- & I). apply in_map_iff in I. destruct I as (v' & E & _). now injection E as _ <-. }
    apply in_with_index. rewrite (concat_rows _ _ Ec). apply in_flat_map. exists d. split; [exact Hd|]. now apply in_map.
  Qed.
  (** Without preprocessing, removal of duplicates and dropping missing values, every observation
      in a file near the valid time (see C44) that is within the tolerance of the valid time of a
      requested init and lead time is in the result, with these times. *)
  Theorem C45_complete : forall cfg files inits ls out t u i l m fn fr r v,
    plain_columns cfg files -> c_preprocess cfg = None -> c_remove_duplicates cfg = false -> c_dropna cfg = false ->
    load_chunk_from_source sort_values cfg files inits (Leads ls) = Ok out -> In t (tables_of out) -> In i inits -> In l ls ->
    partition_unit (c_partitioned_by cfg) u -> file_of (c_path cfg) u m fn -> files fn = Some fr -> In r (rows fr) -> In (c_time_dim cfg) (cols fr) ->
    r (c_time_dim cfg) = CTime v -> near cfg (i + l) v -> Z.abs (v - m) <= c_file_tolerance cfg ->
    exists n o, In (n, o) t /\ o "init_time" = CTime i /\ o "lead_time" = CDelta l /\ o "valid_time" = CTime v /\
      forall c, In c (cols fr) -> In (new_name cfg c) (c_variables cfg ++ c_coordinates cfg) -> new_name cfg c <> "init_time" -> new_name cfg c <> "lead_time" -> o (new_name cfg c) = r c.
  Proof.
    intros cfg files inits ls out t u i l m fn fr r v P Np Nd Nn H Ht Hi Hl Hu Hf Ef Hr Tf Ev Nv Hm.
    destruct (chunk_complete _ _ _ _ _ Nn H) as (dfs & E & K). unfold load_tables in E. apply mapM_Ok_Forall2 in E.
    assert (exists df, In df dfs /\ (do df <- load_data_for_single_time sort_values cfg files (i + l) None; Ok (add_col "lead_time" (fun _ => CDelta l) (add_col "init_time" (fun _ => CTime i) df))) = Ok df) as (df & Hd & E').
    { assert (In (i, l) (list_prod inits ls)) as I by (apply in_prod_iff; auto). clear - E I. induction E as [|il d ils ds E1 E2 IH]; [destruct I|]. destruct I as [->|I]; [exists d; split; [now left|exact E1]|]. destruct (IH I) as (d' & I' & E'). exists d'. split; [now right|exact E']. }
    destruct (load_data_for_single_time _ _ _ _ _) as [d|] eqn:El; [|discriminate]. cbn [bind] in E'. injection E' as <-.
    destruct (C45_rows sort_values cfg files (i + l) None d Np Nd El) as (w & d0 & Ew & Er & Cd & Nc). 
    assert (asked w v) as Aw. { unfold time_window in Ew. unfold near in Nv. destruct (c_tolerance cfg) as [[a b]|]; injection Ew as <-; cbn [asked]; [|exact Nv]. destruct (c_include_end cfg); lia. }
    destruct (C44_complete cfg files w d0 u m fn fr r v Hu Er Hf Ef Hr Ev Aw Hm) as (o0 & Io0 & Eo0).
    destruct P as (Kt & Tc & Vt & N). destruct (N w d0 d0 Er) as [Ncl Tin]; [now rewrite Np|]. destruct (Nc Ncl) as [Cs F].
    assert (exists o1, In o1 (rows d) /\ forall c, In c (cols d0) -> o1 (new_name cfg c) = o0 c) as (o1 & I1 & E1).
    { clear - F Io0. induction F as [|a b la lb E1 F IH]; [destruct Io0|]. destruct Io0 as [->|I]; [exists b; split; [now left|exact E1]|]. destruct (IH I) as (o1 & I1 & E2). exists o1. split; [now right|exact E2]. }
    assert (forall c, In c (cols fr) -> In c (cols d0)) as Sub.
    { clear - Er Hf Ef Hu Aw Hm Ev. unfold read_window in Er. 
      destruct (get_parquet_files_subset _ _ _ _) as [fns|] eqn:Eg; [|discriminate]. cbn [bind] in Er. destruct (mapM _ fns) as [dd|] eqn:Em; [|discriminate]. cbn [bind] in Er.
      assert (In fn fns) as I.
      { assert (fst (window_bounds w) <= v <= snd (window_bounds w)) as B by (destruct w as [x|a b []]; cbn [asked window_bounds fst snd] in *; lia).
        assert (file_range cfg w = (fst (window_bounds w) - c_file_tolerance cfg, snd (window_bounds w) + c_file_tolerance cfg)) as E by (destruct w; reflexivity). rewrite E in Eg. cbn [fst snd] in Eg.
        destruct (C44_files (c_path cfg) (c_partitioned_by cfg) u (fst (window_bounds w) - c_file_tolerance cfg) (snd (window_bounds w) + c_file_tolerance cfg) Hu ltac:(lia)) as (fns' & Ef' & _ & Hf'). rewrite Ef' in Eg. injection Eg as <-. apply Hf'. exists m. split; [lia|exact Hf]. }
      apply mapM_Ok_Forall2 in Em. assert (exists f, In f dd /\ read_parquet files w (c_time_dim cfg) fn = Ok f) as (f & If & Rf).
      { clear - Em I. induction Em as [|x y xs ys E1 E2 IH]; [destruct I|]. destruct I as [->|I]; [exists y; split; [now left|exact E1]|]. destruct (IH I) as (f & I' & E'). exists f. split; [now right|exact E']. }
      unfold read_parquet in Rf. rewrite Ef in Rf. destruct (negb _); [discriminate|]. destruct (forallb _ _); [|discriminate]. injection Rf as <-.
      intros c Hc. unfold pd_concat in Er. destruct dd as [|x dd]; [discriminate|]. injection Er as <-. cbn [cols]. unfold union_cols. apply In_union_cols. right. eexists. split; [exact If|exact Hc]. }
    assert (In "valid_time" (cols d)) as Vd by (rewrite Cd, in_app_iff; now right).
    assert (new_name cfg (c_time_dim cfg) = "valid_time") as Nt.
    { unfold new_name. destruct Tc as [->|(mm & -> & Hmm)]; [|unfold renamed; rewrite Hmm]; now rewrite eqb_refl. }
    set (o2 := set (set o1 "init_time" (CTime i)) "lead_time" (CDelta l)).
    assert (In o2 (rows (add_col "lead_time" (fun _ => CDelta l) (add_col "init_time" (fun _ => CTime i) d)))) as I2.
    { unfold add_col. cbn [rows]. rewrite map_map. apply in_map_iff. exists o1. split; [reflexivity|exact I1]. }
    destruct (K t _ _ Ht Hd I2) as (n & In2). eexists. eexists. split; [exact In2|].
    assert (forall c, c <> "init_time" -> c <> "lead_time" -> o2 c = o1 c) as Oc.
    { intros c C1 C2. unfold o2, set, eqb. destruct (eq_dec c "lead_time"); [contradiction|]. destruct (eq_dec c "init_time"); [contradiction|reflexivity]. }
    rewrite !fit_in by (rewrite !add_col_cols; auto). split; [reflexivity|]. split; [reflexivity|]. split.
    - rewrite Oc by discriminate. rewrite <- Nt, E1 by exact Tin. rewrite Eo0; [exact Ev|]. exact Tf.
    - intros c Hc Hn C1 C2. rewrite fit_in by (rewrite !add_col_cols, Cd; auto). rewrite Oc by assumption. rewrite E1 by (now apply Sub). now apply Eo0.
  Qed.

  (** ** Order, index and missing values *)
  (** The result without dropping. *)
  Definition keep_na (cfg : config) : config :=
    mkConfig (c_path cfg) (c_partitioned_by cfg) (c_time_dim cfg) (c_variables cfg) (c_coordinates cfg) (c_split cfg) false (c_tolerance cfg) (c_rename cfg)
      (c_include_end cfg) (c_remove_duplicates cfg) (c_pick_by cfg) (c_observation_dim cfg) (c_file_tolerance cfg) (c_preprocess cfg).
  (** Without dropping, the index counts the rows of the tables (init times first, then lead
      times), in order, from 0. *)
  Theorem C45_index : forall cfg files inits leads out,
    c_dropna cfg = false -> load_chunk_from_source sort_values cfg files inits leads = Ok out ->
    exists dfs, load_tables sort_values cfg files inits leads = Ok dfs /\ dfs <> [] /\
      forall t, In t (tables_of out) -> map fst t = seq 0 (length t) /\ map snd t = flat_map (fun df => map (fit (cols df)) (rows df)) dfs.
  Proof.
    intros cfg files inits leads out Nd H. unfold load_chunk_from_source in H. destruct (load_tables sort_values cfg files inits leads) as [dfs|]; [|discriminate]. cbn [bind] in H. exists dfs. split; [reflexivity|].
    destruct (pd_concat dfs) as [df|] eqn:Ec; [|discriminate]. cbn [bind] in H. cbv zeta in H. rewrite Nd in H. split; [intros ->; discriminate|]. intros t Ht.
    assert (t = with_index (rows df)) as ->.
    { destruct (c_split cfg); injection H as <-; cbn [tables_of] in Ht; [|destruct Ht as [<-|[]]; reflexivity]. apply in_map_iff in Ht. destruct Ht as ([v t'] & <- & I). apply in_map_iff in I. destruct I as (v' & E & _). now injection E as _ <-. }
    assert (rows df = flat_map (fun df => map (fit (cols df)) (rows df)) dfs) as <- by exact (concat_rows _ _ Ec).
    unfold with_index. rewrite combine_length, seq_length, Nat.min_id. split.
    - clear. generalize 0%nat. induction (rows df) as [|r rs IH]; intros k; [reflexivity|]. cbn [length seq combine map fst]. f_equal. apply IH.
    - clear. generalize 0%nat. induction (rows df) as [|r rs IH]; intros k; [reflexivity|]. cbn [length seq combine map snd]. f_equal. apply IH.
  Qed.
  (** dropna: a Dataset keeps exactly the rows in which all data variables are present, with their
      index. *)
  Theorem C45_dropna : forall cfg files inits leads out,
    c_split cfg = false -> c_dropna cfg = true -> load_chunk_from_source sort_values cfg files inits leads = Ok out ->
    exists coords t0 t, out = Dataset coords t /\ load_chunk_from_source sort_values (keep_na cfg) files inits leads = Ok (Dataset coords t0) /\
      coords = c_coordinates cfg ++ (match leads with NoLeads => [] | _ => ["init_time"; "lead_time"] end) /\
      forall n o, In (n, o) t <-> In (n, o) t0 /\ forall v, In v (c_variables cfg) -> ~ In v coords -> isna (o v) = false.
  Proof.
    intros cfg files inits leads out Sp Dr H.
    assert (load_tables sort_values (keep_na cfg) files inits leads = load_tables sort_values cfg files inits leads) as Ek by reflexivity.
    unfold load_chunk_from_source in H |- *. rewrite Ek. clear Ek. destruct (load_tables sort_values cfg files inits leads) as [dfs|] eqn:El; [|discriminate]. cbn [bind] in H |- *.
    destruct (pd_concat dfs) as [df|] eqn:Ec; [|discriminate]. cbn [bind] in H |- *. cbv zeta in H |- *. change (c_split (keep_na cfg)) with (c_split cfg). change (c_dropna (keep_na cfg)) with false. change (c_coordinates (keep_na cfg)) with (c_coordinates cfg). rewrite Sp, Dr in H. rewrite Sp. injection H as <-.
    eexists. eexists. eexists. split; [reflexivity|]. split; [reflexivity|]. split; [reflexivity|]. set (coords := c_coordinates cfg ++ _).
    assert (forall v, In v (filter (fun c => negb (memb c coords)) (cols df)) <-> In v (c_variables cfg) /\ ~ In v coords) as D.
    { assert (forall d, In d dfs -> forall c, In c (cols d) <-> In c (c_variables cfg ++ c_coordinates cfg) \/ In c (match leads with NoLeads => [] | _ => ["init_time"; "lead_time"] end)) as C.
      { intros d Hd. unfold load_tables in El. destruct leads as [|ls|sl].
        - apply mapM_Ok_Forall2 in El. assert (exists i, load_data_for_single_time sort_values cfg files i None = Ok d) as (i & E).
          { clear - El Hd. induction El as [|i x is xs E1 E2 IH]; [destruct Hd|]. destruct Hd as [->|Hd]; eauto. }
          rewrite (single_cols _ _ _ _ _ E). cbn [In]. tauto.
        - apply mapM_Ok_Forall2 in El. assert (exists il, (do df <- load_data_for_single_time sort_values cfg files (fst il + snd il) None; Ok (add_col "lead_time" (fun _ => CDelta (snd il)) (add_col "init_time" (fun _ => CTime (fst il)) df))) = Ok d) as (i & E).
          { clear - El Hd. induction El as [|i x is xs E1 E2 IH]; [destruct Hd|]. destruct Hd as [->|Hd]; eauto. }
          destruct (load_data_for_single_time _ _ _ _ _) as [d1|] eqn:E1; [|discriminate]. cbn [bind] in E. injection E as <-. intros c. rewrite !add_col_cols, (single_cols _ _ _ _ _ E1). cbn [In]. intuition congruence.
        - destruct (c_tolerance cfg); [discriminate|]. apply mapM_Ok_Forall2 in El. assert (exists i, (do df <- load_data_for_single_time sort_values cfg files i (Some sl); do _ <- mapM (fun r => minus_time (r "valid_time") i) (rows df); Ok (add_col "lead_time" (fun r => lead_of (r "valid_time") i) (add_col "init_time" (fun _ => CTime i) df))) = Ok d) as (i & E).
          { clear - El Hd. induction El as [|i x is xs E1 E2 IH]; [destruct Hd|]. destruct Hd as [->|Hd]; eauto. }
          destruct (load_data_for_single_time _ _ _ _ _) as [d1|] eqn:E1; [|discriminate]. cbn [bind] in E. match type of E with (do m <- ?x; _) = _ => destruct x as [?zs|]; [|discriminate] end. cbn [bind] in E. injection E as <-. intros c. rewrite !add_col_cols, (single_cols _ _ _ _ _ E1). cbn [In]. intuition congruence. }
      assert (cols df = union_cols dfs /\ dfs <> []) as [Cu Ne] by (unfold pd_concat in Ec; destruct dfs; [discriminate|]; injection Ec as <-; split; [reflexivity|discriminate]).
      intros v. rewrite filter_In, Cu. unfold union_cols. rewrite In_union_cols. rewrite negb_true_iff. rewrite memb_false. split.
      - intros [[[]|(d & Hd & I)] N]. split; [|exact N]. apply (C d Hd) in I. unfold coords in N. rewrite in_app_iff in I, N. tauto.
      - intros [I N]. split; [|exact N]. right. destruct dfs as [|d ds]; [contradiction|]. exists d. split; [now left|]. apply (C d); [now left|]. left. apply in_or_app. now left. }
    intros n o. unfold drop_if. rewrite filter_In. cbn [snd]. rewrite negb_true_iff. split.
    - intros [I E]. split; [exact I|]. intros v Hv Nv. destruct (isna (o v)) eqn:Na; [|reflexivity]. assert (existsb (fun v => isna (o v)) (filter (fun c => negb (memb c coords)) (cols df)) = true) as X; [|congruence]. apply existsb_exists. exists v. split; [apply D; auto|exact Na].
    - intros [I E]. split; [exact I|]. destruct (existsb _ _) eqn:X; [|reflexivity]. apply existsb_exists in X. destruct X as (v & Hv & Na). apply D in Hv. rewrite E in Na by tauto. discriminate.
  Qed.
  (** With split_variables: for each variable, the rows in which this variable is present. *)
  Theorem C45_dropna_split : forall cfg files inits leads out,
    c_split cfg = true -> load_chunk_from_source sort_values cfg files inits leads = Ok out ->
    exists coords t0 vs, out = Variables coords vs /\
      load_chunk_from_source sort_values (mkConfig (c_path cfg) (c_partitioned_by cfg) (c_time_dim cfg) (c_variables cfg) (c_coordinates cfg) false false (c_tolerance cfg) (c_rename cfg)
        (c_include_end cfg) (c_remove_duplicates cfg) (c_pick_by cfg) (c_observation_dim cfg) (c_file_tolerance cfg) (c_preprocess cfg)) files inits leads = Ok (Dataset coords t0) /\
      forall v t, In (v, t) vs -> forall n o, In (n, o) t <-> In (n, o) t0 /\ (c_dropna cfg = true -> isna (o v) = false).
  Proof.
    intros cfg files inits leads out Sp H. unfold load_chunk_from_source in H |- *.
    match goal with |- context [load_tables sort_values ?c files inits leads] => change (load_tables sort_values c files inits leads) with (load_tables sort_values cfg files inits leads) end.
    destruct (load_tables sort_values cfg files inits leads) as [dfs|] eqn:El; [|discriminate]. cbn [bind] in H |- *.
    destruct (pd_concat dfs) as [df|] eqn:Ec; [|discriminate]. cbn [bind] in H |- *. cbv zeta in H |- *. rewrite Sp in H. injection H as <-. cbn [c_split c_dropna c_coordinates].
    eexists. eexists. eexists. split; [reflexivity|]. split; [reflexivity|]. intros v t I n o. apply in_map_iff in I. destruct I as (v' & E & _). injection E as -> <-. destruct (c_dropna cfg).
    - unfold drop_if. rewrite filter_In. cbn [snd]. rewrite negb_true_iff. intuition.
    - split; [intros K; split; [exact K|discriminate]|intros [K _]; exact K].
  Qed.
End Chunk.
Print Assumptions C45_exact.
Print Assumptions C45_no_leads.
Print Assumptions C45_slice.
Print Assumptions C45_slice_incompatible.
Print Assumptions C45_complete.
Print Assumptions C45_index.
Print Assumptions C45_dropna.
Print Assumptions C45_dropna_split.
