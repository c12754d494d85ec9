(** The pipeline theorems. *)
From Coq Require Import String ZArith Bool List Permutation Lia Arith.
Import ListNotations.
From Verif Require Import Prelude Values Model_XArray Spec_XArray Proofs_XArray Model_Tree Spec_Tree Proofs_Tree
  Model_TimeChunks Spec_TimeChunks Proofs_TimeChunks Model_MetricsBase
  Model_Aggregation Spec_Aggregation Spec_Aggregator Proofs_AggState Proofs_Aggregator Proofs_Aggregator2
  Model_Beam Spec_Beam Proofs_Beam Proofs_Beam2 Proofs_Beam3 Proofs_Beam4 Proofs_Beam5 Proofs_Beam6 Proofs_Beam7.
From Coq Require Import Reals.
Local Open Scope string_scope.
Local Open Scope list_scope.

Lemma process_emits pl tl metrics g oc sc : chunk_stats pl tl metrics (snd oc) = Ok sc ->
  (do pt <- load_predictions_and_targets pl tl (snd oc); process metrics g (fst oc) pt) =
  (do es <- emits g (fst oc) sc; Ok (concat (concat es))).
Proof.
  unfold chunk_stats, load_predictions_and_targets. destruct (tl _ _ None) as [t|]; [|discriminate]. cbn [bind]. destruct (pl _ _ (Some t)) as [p|]; [|discriminate]. cbn [bind]. intros H.
  unfold process. cbn [fst snd]. rewrite H. reflexivity.
Qed.

Lemma mapM_emits pl tl metrics g os sc elems :
  (forall c, In c os -> chunk_stats pl tl metrics (snd c) = Ok (sc c)) ->
  mapM (fun oc => do pt <- load_predictions_and_targets pl tl (snd oc); process metrics g (fst oc) pt) os = Ok elems ->
  exists ess, Forall2 (fun c es => emits g (fst c) (sc c) = Ok es) os ess /\ elems = map (fun es => concat (concat es)) ess.
Proof.
  revert elems. induction os as [|c os IH]; intros elems Hc H.
  - injection H as <-. exists []. split; constructor.
  - cbn [mapM] in H. rewrite (process_emits pl tl metrics g c (sc c)) in H by (apply Hc; now left).
    destruct (emits g (fst c) (sc c)) as [es|] eqn:E; [|discriminate]. cbn [bind] in H.
    destruct (mapM _ os) as [r|] eqn:Er; [|discriminate]. cbn [bind] in H. injection H as <-.
    destruct (IH r) as (ess & HF & ->); auto; [intros; apply Hc; now right|]. exists (es :: ess). split; auto.
Qed.

Lemma safe_nil init lead os g st stc : grid init lead os ->
  (forall w, In w (weigh_by g) -> time_local [] w) -> (forall b, In b (bin_by g) -> time_local [] (create_bin_mask b)) ->
  wf st ->
  (forall c, In c os -> wf (stc c) /\ time_slice (cI c) (cL c) st (stc c)) -> safe os g [] st stc.
Proof.
  intros G Hw Hb Hst Hsl R1 R2 ws ms E1 E2. split; [|intros d l []].
  intros c e Hc He Hi Hn. exfalso. apply Hn.
  assert (forall a, In a (st :: ws ++ ms) -> wf a) as Wa by (intros a Ha; eapply (full_local g [] Hw Hb st Hst ws ms E1 E2 a Ha)).
  destruct (chunk_arrs os g [] Hw Hb st Hst stc Hsl ws ms E1 E2 R1 R2 c Hc) as (ws' & ms' & _ & _ & EC & _ & HF).
  assert (forall a, In a (carrs g stc c) -> wf a) as Wc.
  { clear - HF. intros a Ha. induction HF as [|u v la lb P HF IH]; [destruct Ha|]. destruct Ha as [<-|Ha]; auto. apply P. }
  rewrite point_of_labels by (apply ij_NoDup; intros; now apply Wc).
  rewrite point_of_labels in He by (apply ij_NoDup; intros; now apply Wa).
  intros d Hd. apply ij_names in Hd. destruct Hd as (a & Ha & Hda).
  assert (In d (map fst (ijoint (st :: ws ++ ms)))) as Hd'.
  { apply ij_names. clear - HF Ha Hda. induction HF as [|u v la lb P HF IH]; [destruct Ha|]. destruct Ha as [<-|Ha].
    - exists u. split; [now left|]. now apply (po_dims _ _ _ _ _ P).
    - destruct (IH Ha) as (z & ? & ?). exists z. split; auto. now right. }
  apply (cj_labels_all os g [] Hw Hb st Hst stc Hsl ws ms E1 E2 R1 R2 c d); auto.
  unfold inch in Hi. apply andb_true_iff in Hi. rewrite !memb_In in Hi. destruct Hi as [I1 I2]. split; intros ->; auto.
Qed.

(** ** The pipeline against direct aggregation *)
Section Final.
  Variables (init lead : list Z) (isz lsz : option Z) (tc : time_chunks).
  Hypothesis Hmk : make_time_chunks init (LeadArr lead) isz lsz = Ok tc.
  Hypothesis Hni : NoDup init.
  Hypothesis Hnl : NoDup lead.
  Hypothesis Hne : init <> [] /\ lead <> [].
  Variables (pl tl : loader) (metrics : dict string (metric da)) (g : aggregator) (B : list string).
  Hypothesis HB : forall d, In d B -> ~ time_dim d.
  Hypothesis Hw : forall w, In w (weigh_by g) -> time_local B w.
  Hypothesis Hb : forall b, In b (bin_by g) -> time_local B (create_bin_mask b).
  Variables (full : dict string (vars da)) (s : state).
  Hypothesis Hd : dicts full.
  Hypothesis Hs : aggregate_statistics g (present full) = Ok s.
  Hypothesis Hvars : forall k v st, stat full k v = Some st -> wf st /\ mask_local st /\ times_are init lead st.
  Hypothesis Hlocal : forall I L, In (I, ChunkArr L) (tc_iter tc) -> exists sc, chunk_stats pl tl metrics (I, ChunkArr L) = Ok sc /\ stats_slice I L full sc.
  Hypothesis Hsafe : forall os, grid init lead os -> map snd os = tc_iter tc -> forall k v st stc, stat full k v = Some st -> (forall c, In c os -> wf (stc c) /\ time_slice (cI c) (cL c) st (stc c)) ->
     safe os g B (fst (prepare g st)) (fun c => fst (prepare g (stc c))) /\
     safe os g B (snd (prepare g st)) (fun c => snd (prepare g (stc c))).
  Hypothesis Hfull : forall ty k v a d, entry (part ty s) k v = Some a -> In d (dnames a) -> labels_of (dims a) d <> [].

  Definition sc_of (c : chunk) : dict string (vars da) := match chunk_stats pl tl metrics (snd c) with Ok x => x | Err _ => [] end.

  Lemma grid_facts os : tc_iter_offsets tc = Ok os ->
    grid init lead os /\ os <> [] /\ map snd os = tc_iter tc /\
    (forall c, In c os -> chunk_stats pl tl metrics (snd c) = Ok (sc_of c)) /\
    (forall c, In c os -> stats_slice (c_init c) (c_lead c) full (sc_of c)).
  Proof.
    intros Ho. pose proof (make_grid _ _ _ _ _ _ Hmk Hni Hnl Ho) as G. destruct (offsets_locate _ _ _ _ _ _ Hmk Ho) as (Em & _ & _).
    split; auto. split; [|split; auto].
    - destruct Hne as [N1 N2]. destruct init as [|t r]; [congruence|]. destruct lead as [|l r']; [congruence|].
      destruct (gr_one _ _ _ G t l) as (l1 & c & l2 & -> & _); try now left. now destruct l1.
    - assert (forall c, In c os -> exists sc, chunk_stats pl tl metrics (snd c) = Ok sc /\ stats_slice (c_init c) (c_lead c) full sc) as X.
      { intros c Hc. assert (snd c = (c_init c, ChunkArr (c_lead c))) as E. { rewrite (surjective_pairing (snd c)). f_equal. now apply (gr_arr _ _ _ G). }
        rewrite E. apply Hlocal. rewrite <- E, <- Em. now apply in_map. }
      split; intros c Hc; unfold sc_of; destruct (X c Hc) as (sc & E & HH); now rewrite E.
  Qed.

  Theorem pipeline_direct out : pipeline_states tc pl tl metrics g out ->
    (forall s' ty k v, In s' out -> opt_rel same_array (entry (part ty s') k v) (entry (part ty s) k v)) /\
    ((exists ty k v a, entry (part ty s) k v = Some a) -> exists s', out = [s']) /\
    ((forall ty k v, entry (part ty s) k v = None) -> out = []).
  Proof.
    intros (os & elems & summed & grouped & groups & Ho & Hel & H1 & H2 & H3 & H4).
    destruct (grid_facts os Ho) as (G & Nos & Em & C1 & C2). destruct (mapM_emits pl tl metrics g os sc_of elems C1 Hel) as (ess & HF & ->).
    assert (forall k v st stc, stat full k v = Some st -> (forall c, In c os -> wf (stc c) /\ time_slice (cI c) (cL c) st (stc c)) ->
     safe os g B (fst (prepare g st)) (fun c => fst (prepare g (stc c))) /\ safe os g B (snd (prepare g st)) (fun c => snd (prepare g (stc c)))) as Hsafe' by (apply Hsafe; auto).
    assert (forall s' ty k v, In s' out -> opt_rel same_array (entry (part ty s') k v) (entry (part ty s) k v)) as Hent.
    { intros s' ty k v Hin. eapply (all_entries init lead os G Nos g B HB Hw Hb full s Hd Hs Hvars sc_of C2 Hsafe' Hfull ess HF); eauto. }
    split; auto. destruct (out_length _ _ _ _ _ H1 H2 H3 H4) as [L1 L2].
    destruct (concat (map (fun es => concat (concat es)) ess)) as [|[kk x] rest] eqn:EA.
    - split; [|intros _; auto]. intros (ty & k & v & a & E). exfalso.
      pose proof (direct_entry g full s ty k v Hd Hs) as X. destruct (stat full k v) as [st|] eqn:Es; [|congruence]. destruct X as (r & Er & Ee).
      destruct r as [xy|]; [|congruence].
      pose proof (all_agg init lead os G Nos g B HB Hw Hb full Hvars sc_of C2 Hsafe' k v st (Some xy) Es Er) as (comp & Yc & Yok).
      assert (exists c, In c os) as [c0 H0] by (clear - Nos; destruct os as [|c r]; [congruence|]; exists c; now left).
      pose proof (under_comp init lead os G Nos g B HB Hw Hb full s Hd Hs Hvars sc_of C2 Hsafe' ess HF ty k v st xy comp) as HU.
      set (kf := keyf (negb (memb "init_time" (reduce_dims g))) (negb (memb "lead_time" (reduce_dims g))) (mkKey ty k v) c0).
      specialize (HU (k_init kf) (k_lead kf) Es Er Yc). rewrite EA in HU.
      assert (forall c d, In c os -> time_dim d -> (In d (dnames (fst (comp c))) <-> ~ In d (reduce_dims g))) as Hdim.
      { intros c d Hc Ht. destruct (Yok SumWeightedStatistics) as [_ Z]. now apply (Z c Hc). }
      specialize (HU Hdim).
      assert (In (sel ty (comp c0)) (map (fun c : chunk => sel ty (comp c))
       (filter (fun c : chunk => if eq_dec (keyf (negb (memb "init_time" (reduce_dims g))) (negb (memb "lead_time" (reduce_dims g))) (mkKey ty k v) c)
              (mkKey ty k v (k_init kf) (k_lead kf)) then true else false) os))) as F.
      { apply (in_map (fun c => sel ty (comp c))). apply filter_In. split; auto. unfold kf, keyf. cbn [k_init k_lead]. now destruct (eq_dec _ _). }
      rewrite <- HU in F. destruct F.
    - split; [intros _; apply L2; discriminate|]. intros Hnone. exfalso. destruct (L2 ltac:(discriminate)) as [s' ->].
      pose proof (out_entry _ _ _ _ _ H1 H2 H3 H4 s' (k_type kk) (k_statistic kk) (k_variable kk) (or_introl eq_refl)) as [N _].
      specialize (Hent s' (k_type kk) (k_statistic kk) (k_variable kk) (or_introl eq_refl)). rewrite Hnone in Hent.
      destruct (entry _ _ _) eqn:E in Hent; [destruct Hent|]. apply (N E kk). split; [now left|]. reflexivity.
  Qed.

  (** The pipeline does not fail. *)
  Theorem pipeline_runs : exists out, pipeline_states tc pl tl metrics g out.
  Proof.
    destruct (offsets_defined _ _ _ _ _ Hmk) as [os Ho].
    destruct (grid_facts os Ho) as (G & Nos & Em & C1 & C2).
    assert (forall k v st stc, stat full k v = Some st -> (forall c, In c os -> wf (stc c) /\ time_slice (cI c) (cL c) st (stc c)) ->
     safe os g B (fst (prepare g st)) (fun c => fst (prepare g (stc c))) /\ safe os g B (snd (prepare g st)) (fun c => snd (prepare g (stc c)))) as Hsafe' by (apply Hsafe; auto).
    destruct (mapM_total (fun oc => do pt <- load_predictions_and_targets pl tl (snd oc); process metrics g (fst oc) pt) os) as [elems He].
    { intros c Hc. rewrite (process_emits pl tl metrics g c (sc_of c)) by auto.
      destruct (chunk_emits init lead os G Nos g B HB Hw Hb full s Hd Hs Hvars sc_of C2 Hsafe' c Hc) as [es ->]. cbn [bind]. eauto. }
    set (all := concat elems).
    set (sched := fun k => fold_left AddInput (under k all) NewAccumulator).
    assert (forall l s0, inputs_of (fold_left AddInput l s0) = inputs_of s0 ++ l) as Hin.
    { induction l as [|x l IH]; intros s0; simpl; [now rewrite app_nil_r|]. rewrite IH. simpl. now rewrite <- app_assoc. }
    assert (forall l s0, (exists r, run_schedule s0 = Some r) \/ l <> [] -> exists r, run_schedule (fold_left AddInput l s0) = Some r) as Hrun.
    { induction l as [|x l IH]; intros s0 H; simpl; [destruct H as [H|H]; [exact H|congruence]|]. apply IH. left. simpl. unfold add_input. destruct (run_schedule s0); eauto. }
    set (ks := nodup eq_dec (map fst all)).
    assert (forall k, In k ks -> exists r, run_schedule (sched k) = Some r) as Hr.
    { intros k Hk. apply Hrun. right. unfold ks in Hk. apply nodup_In in Hk. apply in_map_iff in Hk. destruct Hk as [[k' x] [<- Hk]]. intros F.
      apply (proj2 (under_In k' all x)) in Hk. cbn [fst] in F. rewrite F in Hk. destruct Hk. }
    set (summed := map (fun k => (k, match run_schedule (sched k) with Some r => r | None => da_empty end)) ks).
    assert (combine_per_key all summed) as H1.
    { split; [|split].
      - unfold summed. rewrite map_map. cbn [fst]. rewrite List.map_id. apply NoDup_nodup.
      - intros k. unfold summed. rewrite map_map. cbn [fst]. rewrite List.map_id. apply nodup_In.
      - intros k x Hx. unfold summed in Hx. apply in_map_iff in Hx. destruct Hx as [k' [[= -> <-] Hk]]. exists (sched k). split.
        + unfold sched. rewrite Hin. reflexivity.
        + destruct (Hr k Hk) as [r ->]. reflexivity. }
    set (inp := map (fun ka : key * da => (drop_offsets (fst ka), snd ka)) summed).
    set (grouped := map (fun k => (k, under k inp)) (nodup eq_dec (map fst inp))).
    assert (group_by_key inp grouped) as H2.
    { split; [|split].
      - unfold grouped. rewrite map_map. cbn [fst]. rewrite List.map_id. apply NoDup_nodup.
      - intros k. unfold grouped. rewrite map_map. cbn [fst]. rewrite List.map_id. apply nodup_In.
      - intros k x Hx. unfold grouped in Hx. apply in_map_iff in Hx. destruct Hx as [k' [[= -> <-] Hk]]. reflexivity. }
    set (fin := map (fun kv => (fst kv, combine_data_arrays_by_coords (snd kv))) grouped).
    assert (exists groups, group_all fin groups) as [groups H3].
    { destruct fin as [|p l]; [exists []; reflexivity|]. exists [p :: l]. exists (p :: l). auto. }
    exists (map reconstruct groups). exists os, elems, summed, grouped, groups. repeat (split; auto).
  Qed.
End Final.
