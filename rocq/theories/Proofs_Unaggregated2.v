(** What the pipeline emits. *)
From Coq Require Import String ZArith List Bool Permutation Lia.
Import ListNotations.
From Verif Require Import Prelude Values Model_XArray Spec_XArray Proofs_XArray Model_Tree Model_MetricsBase Model_TimeChunks Spec_TimeChunks Proofs_TimeChunks
  Model_Aggregation Spec_Aggregator Model_Beam Spec_Beam Proofs_Beam Proofs_Beam2 Proofs_Beam3 Model_Unaggregated Spec_Unaggregated Proofs_Unaggregated.
Local Open Scope Z_scope.
Local Open Scope string_scope.
Local Open Scope list_scope.

(** ** All variables of all statistics *)
Definition flat {A} (sc : dict string (dict string A)) : list ((string * string) * A) :=
  concat (map (fun kv => map (fun va => ((fst kv, fst va), snd va)) (snd kv)) sc).
Lemma In_flat {A} (sc : dict string (dict string A)) k v a : In ((k, v), a) (flat sc) <-> exists vs, In (k, vs) sc /\ In (v, a) vs.
Proof.
  unfold flat. rewrite in_concat. split.
  - intros (l & I & J). apply in_map_iff in I. destruct I as ([k' vs] & <- & I). cbn [fst snd] in J. apply in_map_iff in J. destruct J as ([v' a'] & E & J). cbn [fst snd] in E. injection E as -> -> ->. eauto.
  - intros (vs & I & J). eexists. split; [apply in_map_iff; exists (k, vs); split; [reflexivity|exact I]|]. cbn [fst snd]. apply in_map_iff. exists (v, a). auto.
Qed.
Lemma flat_stat (sc : dict string (vars da)) k v a : dicts sc -> In ((k, v), a) (flat sc) <-> stat sc k v = Some a.
Proof.
  intros [N1 N2]. rewrite In_flat. unfold stat. split.
  - intros (vs & I & J). assert (dget sc k = Some vs) as E by (apply In_dget; auto). rewrite E. apply In_dget; [exact (N2 _ _ I)|exact J].
  - destruct (dget sc k) as [vs|] eqn:E; [|discriminate]. intros G. exists vs. split; [now apply dget_In|now apply dget_In].
Qed.
Lemma NoDup_flat {A} (sc : dict string (dict string A)) : NoDup (keys sc) -> (forall k vs, In (k, vs) sc -> NoDup (keys vs)) -> NoDup (map fst (flat sc)).
Proof.
  induction sc as [|[k vs] sc IH]; intros N1 N2; [constructor|]. unfold flat. cbn [map concat fst snd]. rewrite map_app, map_map. cbn [fst].
  unfold keys in N1. cbn [map fst] in N1. apply NoDup_cons_iff in N1. destruct N1 as [Nk N1]. apply NoDup_app_intro.
  - specialize (N2 k vs (or_introl eq_refl)). clear -N2. unfold keys in N2. induction vs as [|[v a] vs IH]; [constructor|]. cbn [map fst] in *. apply NoDup_cons_iff in N2. destruct N2 as [H1 H2]. constructor; [|auto]. intros I. apply H1. apply in_map_iff in I. destruct I as (x & E & I). injection E as E. apply in_map_iff. eauto.
  - apply IH; [exact N1|]. intros k' vs' I. apply (N2 k'). now right.
  - intros [k' v'] I J. apply in_map_iff in I. destruct I as (x & E & _). injection E as <- _. apply in_map_iff in J. destruct J as ([[k2 v2] a] & E & J). cbn [fst] in E. injection E as -> ->. fold (flat sc) in J. apply In_flat in J. destruct J as (vs2 & J & _). apply Nk. apply in_map_iff. exists (k, vs2). auto.
Qed.
Lemma flat_items {A B} (Q : A -> B -> Prop) full sc : items_rel (items_rel Q) full sc -> Forall2 (fun x y => fst x = fst y /\ Q (snd x) (snd y)) (flat full) (flat sc).
Proof.
  unfold items_rel. induction 1 as [|[k vs] [k' vs'] full sc [E H] F IH]; [constructor|]. cbn [fst snd] in *. subst k'. unfold flat. cbn [map concat fst snd]. apply Forall2_app; [|exact IH].
  induction H as [|[v a] [v' a'] vs vs' [E H] F' IH']; [constructor|]. cbn [fst snd] in *. subst v'. cbn [map fst snd]. constructor; [auto|exact IH'].
Qed.
Lemma flat_stats full sc I L : dicts full -> stats_slice I L full sc ->
  NoDup (map fst (flat sc)) /\
  (forall k v a, In ((k, v), a) (flat sc) -> exists st, stat full k v = Some st /\ wf a /\ time_slice (map LZ I) (map LZ L) st a) /\
  (forall k v st, stat full k v = Some st -> exists a, In ((k, v), a) (flat sc) /\ wf a /\ time_slice (map LZ I) (map LZ L) st a).
Proof.
  intros D S. apply flat_items in S. pose proof (NoDup_flat full (proj1 D) (proj2 D)) as N.
  assert (map fst (flat full) = map fst (flat sc)) as E by (clear -S; induction S as [|x y l l' [E _] F IH]; [reflexivity|]; cbn [map]; now f_equal).
  split; [now rewrite <- E|]. split.
  - intros k v a H. assert (exists st, In ((k, v), st) (flat full) /\ wf a /\ time_slice (map LZ I) (map LZ L) st a) as (st & H1 & H2).
    { clear -S H. induction S as [|[kv st] [kv' c] l l' [E [W T]] F IH]; [destruct H|]. cbn [fst snd] in *. subst kv'. destruct H as [[= -> ->]|H]; [exists st; split; [now left|auto]|]. destruct (IH H) as (st' & A & B). exists st'. split; [now right|exact B]. }
    exists st. split; [now apply flat_stat|exact H2].
  - intros k v st H. apply flat_stat in H; [|exact D]. clear -S H. induction S as [|[kv st0] [kv' c] l l' [E [W T]] F IH]; [destruct H|]. cbn [fst snd] in *. subst kv'. destruct H as [[= -> ->]|H]; [exists c; split; [now left|auto]|]. destruct (IH H) as (a & A & B). exists a. split; [now right|exact B].
Qed.
(** The regions of one chunk. *)
Definition regions (o : offsets) (sc : dict string (vars da)) : list region :=
  map (fun x => format_statistic o (fst (fst x)) (snd (fst x)) (snd x)) (flat sc).
Lemma format_regions metrics pl tl c o sc : chunk_stats pl tl metrics c = Ok sc ->
  (do pt <- load_predictions_and_targets pl tl c; format_statistics metrics o pt) = Ok (regions o sc).
Proof.
  unfold chunk_stats, load_predictions_and_targets, format_statistics. destruct (tl (fst c) (snd c) None) as [t|]; [|discriminate]. cbn [bind]. destruct (pl (fst c) (snd c) (Some t)) as [p|]; [|discriminate]. cbn [bind fst snd].
  intros ->. cbn [bind]. f_equal. unfold regions, flat. rewrite concat_map, map_map. f_equal. apply map_ext. intros [k vs]. cbn [fst snd]. rewrite map_map. reflexivity.
Qed.

Section Run.
  Variables (init lead : list Z) (isz lsz : option Z) (tc : time_chunks) (pl tl : loader) (metrics : dict string (metric da)) (full : dict string (vars da)).
  Hypothesis H : unaggregated_evaluation init lead isz lsz tc pl tl metrics full.
  Lemma run_offsets : exists os, tc_iter_offsets tc = Ok os /\ map snd os = tc_iter tc /\ grid init lead os /\
    forall o ic lc, In (o, (ic, ChunkArr lc)) os -> ic = run_at init (off_init o) (length ic) /\ lc = run_at lead (off_lead o) (length lc) /\ 0 <= off_init o /\ 0 <= off_lead o.
  Proof.
    destruct H as [HC Ni Nl HD HV HN HL]. destruct (offsets_defined _ _ _ _ _ HC) as [os E]. exists os. split; [exact E|].
    destruct (offsets_locate _ _ _ _ _ _ HC E) as (M & R & _). split; [exact M|]. split; [exact (make_grid _ _ _ _ _ _ HC Ni Nl E)|]. intros o ic lc I. destruct (R o ic lc I) as (A & B & C & D). split; [exact A|]. split; [exact B|lia].
  Qed.
  (** One list of regions per chunk. *)
  Lemma run_emitted os : tc_iter_offsets tc = Ok os -> map snd os = tc_iter tc -> grid init lead os ->
    exists scs, emitted metrics pl tl tc = Ok (concat (map (fun x => regions (fst (fst x)) (snd x)) (combine os scs))) /\
      Forall2 (fun oc sc => stats_slice (c_init oc) (c_lead oc) full sc) os scs.
  Proof.
    intros E M G. destruct H as [HC Ni Nl HD HV HN HL]. unfold emitted. rewrite E. cbn [bind].
    assert (forall oc, In oc os -> exists sc, chunk_stats pl tl metrics (snd oc) = Ok sc /\ stats_slice (c_init oc) (c_lead oc) full sc) as K.
    { intros [o [ic c]] I. pose proof (gr_arr _ _ _ G _ I) as A. cbn [snd] in A. unfold c_lead in A. cbn [snd] in A. destruct c as [lc|]; [|discriminate]. apply HL. rewrite <- M. apply in_map_iff. exists (o, (ic, ChunkArr lc)). auto. }
    clear E M G HL. induction os as [|oc os IH].
    - exists []. split; [reflexivity|constructor].
    - destruct IH as (scs & E & F); [intros; apply K; now right|]. destruct (K oc (or_introl eq_refl)) as (sc & Ec & S). exists (sc :: scs). split; [|now constructor].
      cbn [mapM]. rewrite (format_regions metrics pl tl (snd oc) (fst oc) sc Ec). cbn [bind]. destruct (mapM _ os) as [es|] eqn:Em; [|discriminate]. cbn [bind] in E |- *. injection E as E. cbn [concat combine map fst snd]. now rewrite <- E.
  Qed.
End Run.
