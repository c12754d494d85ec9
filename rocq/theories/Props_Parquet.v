(** C44: which files are read. *)
From Coq Require Import Ascii String ZArith List Bool Lia.
Import ListNotations.
From Verif Require Import Prelude Values Model_XArray Model_Calendar Spec_Calendar Model_Spatial Model_Parquet Spec_Parquet Proofs_Strings Proofs_Parquet.
Local Open Scope string_scope.
Local Open Scope list_scope.
Local Open Scope Z_scope.

Lemma part_of_Ok s u : partition_unit s u <-> part_of s = Ok u.
Proof.
  unfold partition_unit, part_of, eqb. split.
  - intros [[-> ->]|[[-> ->]|[-> ->]]]; reflexivity.
  - destruct (eq_dec s "month") as [->|]; [intros [= <-]; auto|]. destruct (eq_dec s "day") as [->|]; [intros [= <-]; auto|]. destruct (eq_dec s "hour") as [->|]; [intros [= <-]; auto|discriminate].
Qed.
(** The files of an interval are those of the partitions of its times, each once. *)
Theorem C44_files : forall path s u start stop, partition_unit s u -> start <= stop ->
  exists fns, get_parquet_files_subset path start stop s = Ok fns /\ NoDup fns /\
    forall fn, In fn fns <-> exists t, start <= t <= stop /\ file_of path u t fn.
Proof.
  intros path s u start stop Hu L. apply part_of_Ok in Hu. unfold get_parquet_files_subset. rewrite Hu. cbn [bind]. eexists. split; [reflexivity|]. split.
  - apply FinFun.Injective_map_NoDup; [intros n n'; apply unit_of_name|apply NoDup_arange].
  - intros fn. rewrite in_map_iff. split.
    + intros (n & <- & Hn). apply In_arange in Hn. apply (units_between u start stop n L) in Hn. destruct Hn as (t & Ht & <-). exists t. split; [exact Ht|apply file_name].
    + intros (t & Ht & F). exists (to_unit u t). split; [|apply In_arange; apply (units_between u start stop _ L); exists t; auto]. apply partition_name_spec in F. rewrite F. apply name_of_unit.
Qed.
Print Assumptions C44_files.
(** Two times share a file exactly if they share the partition. *)
Theorem C44_distinct : forall path u t t' fn fn', file_of path u t fn -> file_of path u t' fn' -> (fn = fn' <-> same_partition u t t').
Proof.
  intros path u t t' fn fn' F F'. apply partition_name_spec in F, F'. rewrite <- name_of_unit in F, F'. subst fn fn'. rewrite <- same_unit. split; [apply unit_of_name|intros ->; reflexivity].
Qed.
Print Assumptions C44_distinct.
(** Every time has a file, and only one. *)
Theorem C44_unique : forall path u t, exists fn, file_of path u t fn /\ forall fn', file_of path u t fn' -> fn' = fn.
Proof.
  intros path u t. exists (parquet_filename_for_time path (to_unit u t) u). split; [apply file_name|]. intros fn' F. apply partition_name_spec in F. now rewrite F, name_of_unit.
Qed.
Print Assumptions C44_unique.

(** The rows of a frame satisfying the filter. *)
Definition chosen (cfg : config) (w : window) (fr : frame) (rs : list row) : Prop :=
  exists f, rs = filter f (rows fr) /\ forall r, In r (rows fr) -> (f r = true <-> exists t, r (c_time_dim cfg) = CTime t /\ asked w t).
Lemma passes_asked w c : passes w c = true <-> exists t, c = CTime t /\ asked w t.
Proof.
  split.
  - destruct c as [t| | | |]; cbn [passes]; try discriminate. intros H. exists t. split; [reflexivity|]. destruct w as [x|a b cl]; cbn [asked]; [now apply Z.eqb_eq in H|]. apply andb_prop in H. destruct H as [H1 H2]. apply Z.leb_le in H1. destruct cl; [apply Z.leb_le in H2|apply Z.ltb_lt in H2]; lia.
  - intros (t & -> & H). cbn [passes]. destruct w as [x|a b cl]; cbn [asked] in H; [now apply Z.eqb_eq|]. apply andb_true_intro. destruct cl; split; try apply Z.leb_le; try apply Z.ltb_lt; lia.
Qed.
Definition window_bounds (w : window) : Z * Z := match w with Exactly t => (t, t) | Between a b _ => (a, b) end.
(** A window is read from the files of all partitions that the window, widened by file_tolerance
    on both sides, meets; all of these must exist; the rows read are exactly those asked for,
    file by file, each once. *)
Theorem C44_read : forall cfg files w df u,
  partition_unit (c_partitioned_by cfg) u -> read_window cfg files w = Ok df ->
  fst (window_bounds w) - c_file_tolerance cfg <= snd (window_bounds w) + c_file_tolerance cfg ->
  exists fns frs, NoDup fns /\
    (forall fn, In fn fns <-> exists t, fst (window_bounds w) - c_file_tolerance cfg <= t <= snd (window_bounds w) + c_file_tolerance cfg /\ file_of (c_path cfg) u t fn) /\
    Forall2 (fun fn fr => files fn = Some fr) fns frs /\
    exists parts, Forall2 (fun fr rs => chosen cfg w fr rs) frs parts /\
      rows df = concat (map (fun fp => map (fit (cols (fst fp))) (snd fp)) (combine frs parts)).
Proof.
  intros cfg files w df u Hu H L. unfold read_window in H.
  assert (file_range cfg w = (fst (window_bounds w) - c_file_tolerance cfg, snd (window_bounds w) + c_file_tolerance cfg)) as E by (destruct w; reflexivity).
  rewrite E in H. cbn [fst snd] in H. destruct (C44_files (c_path cfg) _ u _ _ Hu L) as (fns & Ef & N & Hf). rewrite Ef in H. cbn [bind] in H.
  destruct (mapM _ fns) as [dfs|] eqn:Em; [|discriminate]. cbn [bind] in H. apply mapM_Ok_Forall2 in Em.
  assert (exists frs, Forall2 (fun fn fr => files fn = Some fr) fns frs /\ Forall2 (fun fr d => cols d = cols fr /\ rows d = filter (fun r => passes w (r (c_time_dim cfg))) (rows fr)) frs dfs) as (frs & F1 & F2).
  { clear - Em. induction Em as [|fn d fns0 dfs0 E Em IH]; [exists []; auto|]. destruct IH as (frs & F1 & F2). unfold read_parquet in E. destruct (files fn) as [fr|] eqn:Ef; [|discriminate]. destruct (negb _); [discriminate|]. destruct (forallb _ _); [|discriminate]. injection E as <-.
    exists (fr :: frs). split; constructor; auto. }
  exists fns, frs. split; [exact N|]. split; [exact Hf|]. split; [exact F1|]. exists (map rows dfs). split.
  - clear - F2. induction F2 as [|fr d frs0 dfs1 [_ E] F2 IH]; cbn [map]; constructor; [|exact IH]. exists (fun r => passes w (r (c_time_dim cfg))). split; [exact E|]. intros r _. apply passes_asked.
  - assert (concat (map (fun fp => map (fit (cols (fst fp))) (snd fp)) (combine frs (map rows dfs))) = flat_map (fun f => map (fit (cols f)) (rows f)) dfs) as ->.
    { clear - F2. induction F2 as [|fr d frs0 dfs1 [E _] F2 IH]; [reflexivity|]. cbn [map combine fst snd concat flat_map]. rewrite E. f_equal. exact IH. }
    unfold pd_concat in H. destruct dfs as [|d0 dfs]; [discriminate|]. injection H as <-. reflexivity.
Qed.
Print Assumptions C44_read.
(** No observation asked for is overlooked if its time differs from that of its partition by at
    most the file tolerance. *)
Theorem C44_complete : forall cfg files w df u n fn fr r t,
  partition_unit (c_partitioned_by cfg) u -> read_window cfg files w = Ok df ->
  file_of (c_path cfg) u n fn -> files fn = Some fr -> In r (rows fr) -> r (c_time_dim cfg) = CTime t -> asked w t ->
  Z.abs (t - n) <= c_file_tolerance cfg ->
  exists o, In o (rows df) /\ forall k, In k (cols fr) -> o k = r k.
Proof.
  intros cfg files w df u n fn fr r t Hu H F Ef Hr Ht Ha Hn.
  assert (fst (window_bounds w) <= t <= snd (window_bounds w)) as B by (destruct w as [x|a b []]; cbn [asked window_bounds fst snd] in *; lia).
  destruct (C44_read cfg files w df u Hu H ltac:(lia)) as (fns & frs & _ & Hf & F1 & parts & F2 & E).
  assert (In fn fns) as I by (apply Hf; exists n; split; [lia|exact F]).
  exists (fit (cols fr) r). split; [|intros k Hk; unfold fit; apply memb_In in Hk; now rewrite Hk].
  rewrite E. apply in_concat. clear - I F1 F2 Ef Hr Ht Ha. revert parts F2 I. induction F1 as [|fn' fr' fns0 frs0 E1 F1 IH]; intros parts F2 I; [destruct I|]. inversion F2 as [|? rs ? parts' C F2']; subst. destruct I as [->|I].
  - rewrite Ef in E1. injection E1 as <-. exists (map (fit (cols fr)) rs). split; [cbn [combine map]; now left|]. apply in_map. destruct C as (f & -> & Hf). apply filter_In. split; [exact Hr|]. apply Hf; [exact Hr|]. exists t. auto.
  - destruct (IH _ F2' I) as (l & Hl & Hin). exists l. split; [cbn [combine map]; now right|exact Hin].
Qed.
Print Assumptions C44_complete.
(** The constructor accepts exactly the three partitions, non-empty tolerances, and an observation
    dimension if duplicates are to be removed. *)
Theorem C44_constructor : forall path s time_dim vs cs split dropna tol ren incl dup pick obs ft pre,
  (exists cfg, SparseObservationsFromParquet path s time_dim vs cs split dropna tol ren incl dup pick obs ft pre = Ok cfg) <->
  (exists u, partition_unit s u) /\
  (match tol with NoTolerance => True | PlusMinus t => 0 < t | Tolerances a b => a < b end) /\
  (dup = true -> obs <> None).
Proof.
  intros path s time_dim vs cs split dropna tol ren incl dup pick obs ft pre. unfold SparseObservationsFromParquet.
  assert (memb s ["hour"; "day"; "month"] = true <-> exists u, partition_unit s u) as Hs.
  { rewrite memb_In. cbn [In]. unfold partition_unit. split.
    - intros [<-|[<-|[<-|[]]]]; eexists; eauto.
    - intros (u & [[-> _]|[[-> _]|[-> _]]]); auto. }
  rewrite <- Hs. destruct (memb s _); cbn [negb]; [|split; [intros (c & H); discriminate|intros (H & _); discriminate]].
  assert ((exists o, check_tolerance tol = Ok o) /\ match tol with NoTolerance => True | PlusMinus t => 0 < t | Tolerances a b => a < b end \/ check_tolerance tol = Err ValueError /\ ~ match tol with NoTolerance => True | PlusMinus t => 0 < t | Tolerances a b => a < b end) as Ht.
  { destruct tol as [|t|a b]; cbn [check_tolerance]; [left; eauto| |].
    - destruct (t - - t <=? 0) eqn:E; rewrite ?Z.leb_le, ?Z.leb_gt in E; [right; split; [reflexivity|lia]|left; split; [eauto|lia]].
    - destruct (b - a <=? 0) eqn:E; rewrite ?Z.leb_le, ?Z.leb_gt in E; [right; split; [reflexivity|lia]|left; split; [eauto|lia]]. }
  destruct Ht as [[[o ->] Ht]|[-> Ht]]; cbn [bind].
  - destruct dup; cbn [andb]; [destruct obs; cbn|].
    + split; [intros _; repeat split; auto; discriminate|eauto].
    + split; [intros (c & H); discriminate|intros (_ & _ & H); exfalso; now apply H].
    + split; [intros _; repeat split; auto; discriminate|eauto].
  - split; [intros (c & H); discriminate|intros (_ & H & _); contradiction].
Qed.
Print Assumptions C44_constructor.

(** 2020-01-05T07:00 is 1578207600 s after the epoch. *)
Example C44_example_names :
  parquet_filename_for_time "metar" (to_unit Hour 1578207600000000000) Hour = "metar/year=2020/month=1/day=5/hour=7/2020-01-05T07.parquet" /\
  parquet_filename_for_time "metar/" (to_unit Day 1578207600000000000) Day = "metar/year=2020/month=1/day=5/2020-01-05.parquet" /\
  get_parquet_files_subset "metar" (1578207600000000000 - 31 * ns_day) 1578207600000000000 "month" =
    Ok ["metar/year=2019/month=12/2019-12.parquet"; "metar/year=2020/month=1/2020-01.parquet"].
Proof. split; [|split]; vm_compute; reflexivity. Qed.
