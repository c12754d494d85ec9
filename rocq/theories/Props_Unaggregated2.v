(** C66: the template of the unaggregated pipeline, declared chunks, errors. *)
From Coq Require Import String ZArith List Bool Permutation Lia Reals.
Import ListNotations.
From Verif Require Import Prelude Values Model_XArray Spec_XArray Proofs_XArray Model_Tree Model_MetricsBase Model_TimeChunks Spec_TimeChunks Proofs_TimeChunks
  Model_Aggregation Spec_Aggregator Model_Beam Spec_Beam Proofs_Beam Proofs_Beam2 Proofs_Beam3 Model_Unaggregated Spec_Unaggregated Proofs_Unaggregated Proofs_Unaggregated2 Props_Unaggregated.
Local Open Scope Z_scope.
Local Open Scope string_scope.
Local Open Scope list_scope.

(** ** The template *)
Lemma eqb_String d d' : eqb d d' = String.eqb d d'.
Proof. destruct (String.eqb_spec d d') as [->|N]; [apply eqb_refl|]. now apply eqb_false_iff. Qed.
Lemma expand_absent d ls t : has_dim d t = false -> expand_time d ls t = t.
Proof.
  unfold has_dim, expand_time. induction t as [|[n ds] t IH]; [reflexivity|]. cbn [existsb map fst snd]. intros E. apply orb_false_iff in E. destruct E as [-> E]. now rewrite IH.
Qed.
Lemma filter_one (ds : dimlist) d : NoDup (map fst ds) -> filter (fun p => String.eqb (fst p) d) ds = match dget ds d with Some ls => [(d, ls)] | None => [] end.
Proof.
  induction ds as [|[k ls] ds IH]; intros N; [reflexivity|]. cbn [map fst] in N. apply NoDup_cons_iff in N. destruct N as [N1 N2]. cbn [filter fst dget]. destruct (String.eqb_spec k d) as [->|Nk].
  - destruct (eq_dec d d) as [_|X]; [|congruence]. f_equal. rewrite (IH N2). destruct (dget ds d) eqn:E; [|reflexivity]. apply dget_Some_keys in E. contradiction.
  - destruct (eq_dec d k) as [->|_]; [congruence|]. now apply IH.
Qed.
Lemma filter_filter {A} (f g : A -> bool) l : filter f (filter g l) = filter (fun x => g x && f x) l.
Proof. induction l as [|x l IH]; [reflexivity|]. cbn [filter]. destruct (g x); cbn [filter andb]; [destruct (f x); now rewrite IH|exact IH]. Qed.
(** The dimensions of one variable in the template. *)
Lemma expanded init lead I L st (a : da) :
  wf st -> (forall ls, dget (dims st) "init_time" = Some ls -> ls = map LZ init) -> (forall ls, dget (dims st) "lead_time" = Some ls -> ls = map LZ lead) ->
  time_slice I L st a ->
  let f := fun d (labels : list label) (ds : dimlist) => if memb d (map fst ds) then (d, labels) :: filter (fun p => negb (eqb (fst p) d)) ds else ds in
  f "init_time" (map LZ init) (f "lead_time" (map LZ lead) (dims a)) = times_first (dims st).
Proof.
  intros W L1 L2 (E & _ & _). cbv zeta. unfold times_first. rewrite !filter_one by apply W.
  assert (map fst (dims a) = dnames st) as EN by (rewrite E; unfold chunk_dims; rewrite map_map; reflexivity).
  assert (forall g : string -> bool, (forall d, g d = true -> d <> "init_time" /\ d <> "lead_time") -> filter (fun p => g (fst p)) (dims a) = filter (fun p => g (fst p)) (dims st)) as K.
  { intros g Hg. rewrite E. unfold chunk_dims. clear -Hg. induction (dims st) as [|[d ls] ds IH]; [reflexivity|]. cbn [map filter fst snd]. destruct (g d) eqn:G; [|exact IH]. rewrite IH. f_equal. f_equal. destruct (Hg d G) as [N1 N2]. unfold in_chunkb. apply String.eqb_neq in N1, N2. rewrite N1, N2. clear. induction ls as [|x ls IH]; [reflexivity|]. cbn [filter]. now f_equal. }
  assert (forall d, ~ In d (dnames st) -> forall ds : dimlist, map fst ds = dnames st -> filter (fun p => negb (eqb (fst p) d)) ds = ds) as A.
  { intros d N ds Eds. rewrite <- Eds in N. clear -N. induction ds as [|[k ls] ds IH]; [reflexivity|]. cbn [filter fst map] in *. destruct (eqb k d) eqn:Q; [apply eqb_true_iff in Q; subst; exfalso; apply N; now left|]. cbn [negb]. f_equal. apply IH. intros J. apply N. now right. }
  rewrite EN.
  assert (filter (fun p => negb (String.eqb (fst p) "init_time" || String.eqb (fst p) "lead_time")) (dims st) = filter (fun p => negb (eqb (fst p) "init_time")) (filter (fun p => negb (eqb (fst p) "lead_time")) (dims a))) as ->.
  { rewrite filter_filter. rewrite <- (K (fun d => negb (String.eqb d "init_time" || String.eqb d "lead_time"))).
    - apply filter_ext. intros p. rewrite !eqb_String. destruct (String.eqb (fst p) "init_time"), (String.eqb (fst p) "lead_time"); reflexivity.
    - intros d Hd. apply negb_true_iff, orb_false_iff in Hd. destruct Hd as [H1 H2]. apply String.eqb_neq in H1, H2. auto. }
  assert (forall d, dget (dims st) d = None <-> ~ In d (dnames st)) as DN.
  { intros d. split; [intros G; now apply dget_None|]. intros N. destruct (dget (dims st) d) eqn:G; [|reflexivity]. apply dget_Some_keys in G. contradiction. }
  destruct (dget (dims st) "lead_time") as [ll|] eqn:EL.
  - assert (memb "lead_time" (dnames st) = true) as M by (apply memb_In; exact (dget_Some_keys _ _ EL)). rewrite M, (L2 _ eq_refl). cbn [map fst memb].
    assert (map fst (filter (fun p => negb (eqb (fst p) "lead_time")) (dims a)) = filter (fun d => negb (eqb d "lead_time")) (dnames st)) as EF.
    { rewrite <- EN. clear. induction (dims a) as [|[k ls] ds IH]; [reflexivity|]. cbn [map filter fst]. destruct (eqb k "lead_time"); cbn [negb map fst]; now rewrite IH. }
    destruct (dget (dims st) "init_time") as [li|] eqn:EI.
    + rewrite (L1 _ eq_refl). rewrite EF.
      assert (memb "init_time" ("lead_time" :: filter (fun d => negb (eqb d "lead_time")) (dnames st)) = true) as ->.
      { apply memb_In. right. apply filter_In. split; [exact (dget_Some_keys _ _ EI)|reflexivity]. }
      cbn [app filter fst]. change (eqb "lead_time" "init_time") with false. cbn [negb]. reflexivity.
    + rewrite EF. assert (memb "init_time" ("lead_time" :: filter (fun d => negb (eqb d "lead_time")) (dnames st)) = false) as ->.
      { apply memb_false. intros [X|X]; [discriminate|]. apply filter_In in X. apply DN in EI. tauto. }
      cbn [app]. f_equal. rewrite filter_filter. apply filter_ext_in. intros [k ls] J. cbn [fst]. assert (In k (dnames st)) as Ik by (rewrite <- EN; apply in_map_iff; exists (k, ls); auto).
      assert (eqb k "init_time" = false) as -> by (apply eqb_false_iff; intros ->; apply DN in EI; contradiction). cbn [negb]. now rewrite andb_true_r.
  - assert (memb "lead_time" (dnames st) = false) as -> by (apply memb_false; now apply DN). rewrite EN. rewrite (A "lead_time" (proj1 (DN _) EL) (dims a) EN).
    destruct (dget (dims st) "init_time") as [li|] eqn:EI.
    + assert (memb "init_time" (dnames st) = true) as -> by (apply memb_In; exact (dget_Some_keys _ _ EI)). rewrite (L1 _ eq_refl). reflexivity.
    + assert (memb "init_time" (dnames st) = false) as -> by (apply memb_false; now apply DN). cbn [app]. symmetry. exact (A "init_time" (proj1 (DN _) EI) (dims a) EN).
Qed.
Lemma dict_of_flat (sc : dict string (vars da)) : NoDup (map (fun x => output_name (fst (fst x)) (snd (fst x))) (flat sc)) ->
  first_dataset sc = map (fun x => (output_name (fst (fst x)) (snd (fst x)), snd x)) (flat sc).
Proof.
  intros N. unfold first_dataset. transitivity (dict_of (map (fun x : string * string * da => (output_name (fst (fst x)) (snd (fst x)), snd x)) (flat sc))).
  { f_equal. unfold flat. rewrite concat_map, map_map. f_equal. apply map_ext. intros [k vs]. cbn [fst snd]. rewrite map_map. reflexivity. }
  apply dict_of_NoDup. unfold keys. rewrite map_map. cbn [fst]. exact N.
Qed.
Lemma template_run init lead isz lsz tc pl tl metrics full : unaggregated_evaluation init lead isz lsz tc pl tl metrics full -> tc_iter tc <> [] ->
  exists t sc I L, get_template metrics pl tl tc = Ok t /\ stats_slice I L full sc /\
    t_vars t = map (fun x => (output_name (fst (fst x)) (snd (fst x)), match stat full (fst (fst x)) (snd (fst x)) with Some st => times_first (dims st) | None => [] end)) (flat sc) /\
    t_valid_time t = if has_dim "init_time" (t_vars t) && has_dim "lead_time" (t_vars t) then Some (mkCoord ["init_time"; "lead_time"] (fun e => LZ (ticks (e "init_time") + ticks (e "lead_time")))) else None.
Proof.
  intros U NE. destruct (run_offsets _ _ _ _ _ _ _ _ _ U) as (os & E & M & G & R).
  assert (exists c, tc_getitem tc 0 = Ok c /\ In c (tc_iter tc)) as (c & Eg & Ic).
  { destruct (getitem_agrees tc 0) as [A _]. destruct A as (c & Ec & Eg); [rewrite tc_len_iter; destruct (tc_iter tc); [congruence|cbn; lia]|]. exists c. split; [exact Eg|]. eapply nth_error_In. exact Ec. }
  assert (exists I L, c = (I, ChunkArr L)) as (I & L & ->).
  { rewrite <- M in Ic. apply in_map_iff in Ic. destruct Ic as ([o [i l]] & <- & Ic). pose proof (gr_arr _ _ _ G _ Ic) as A. unfold c_lead in A. cbn [snd] in *. destruct l; [|discriminate]. eauto. }
  destruct (ue_local _ _ _ _ _ _ _ _ _ U I L Ic) as (sc & Ec & S). destruct (flat_stats full sc _ _ (ue_dicts _ _ _ _ _ _ _ _ _ U) S) as (N & A & B).
  assert (NoDup (map (fun x => output_name (fst (fst x)) (snd (fst x))) (flat sc))) as N'.
  { clear -N A U. induction (flat sc) as [|[[k v] a] l IH]; [constructor|]. cbn [map fst snd] in *. apply NoDup_cons_iff in N. destruct N as [N1 N2]. constructor; [|apply IH; auto; intros; eapply A; right; eassumption].
    intros J. apply in_map_iff in J. destruct J as ([[k' v'] a'] & Eo & J). cbn [fst snd] in Eo. destruct (A k v a (or_introl eq_refl)) as (st & Es & _). destruct (A k' v' a' (or_intror J)) as (st' & Es' & _).
    destruct (ue_names _ _ _ _ _ _ _ _ _ U _ _ _ _ _ _ Es' Es Eo) as [-> ->]. apply N1. apply in_map_iff. exists ((k, v), a'). auto. }
  assert (tc_init_times tc = init /\ tc_lead_times tc = LeadArr lead) as [T1 T2].
  { pose proof (ue_chunks _ _ _ _ _ _ _ _ _ U) as HC. unfold make_time_chunks in HC. destruct (negative isz); [discriminate|]. destruct (negative lsz); [discriminate|]. destruct (split_chunks init _); [|discriminate]. cbn [bind] in HC. destruct (split_chunks lead _); [|discriminate]. cbn [bind] in HC. injection HC as <-. auto. }
  unfold get_template. rewrite Eg. cbn [bind].
  unfold chunk_stats in Ec. unfold load_predictions_and_targets. destruct (tl _ _ None) as [tg|]; [|discriminate]. cbn [bind] in Ec |- *. destruct (pl _ _ (Some tg)) as [pr|]; [|discriminate]. cbn [bind fst snd] in Ec |- *. rewrite Ec. cbn [bind].
  rewrite (dict_of_flat sc N').
  assert (existsb (fun kv : string * da => memb "mask" (keys (aux (snd kv)))) (map (fun x => (output_name (fst (fst x)) (snd (fst x)), snd x)) (flat sc)) = false) as ->.
  { destruct (existsb _ _) eqn:Q; [|reflexivity]. exfalso. apply existsb_exists in Q. destruct Q as (y & J & Q). apply in_map_iff in J. destruct J as ([[k v] a] & <- & J). cbn [snd] in Q. destruct (A k v a J) as (st & Es & _ & (_ & Ea & _)). destruct (ue_vars _ _ _ _ _ _ _ _ _ U k v st Es) as (_ & _ & _ & Nm).
    apply memb_In in Q. rewrite Ea in Q. apply dget_None in Nm. contradiction. }
  set (t0 := map (fun kv : string * da => (fst kv, dims (snd kv))) _).
  assert ((if has_dim "lead_time" t0 then match tc_lead_times tc with LeadArr leads => Ok (expand_time "lead_time" (map LZ leads) t0) | _ => Err TypeError end else Ok t0) = Ok (expand_time "lead_time" (map LZ lead) t0)) as ->.
  { destruct (has_dim "lead_time" t0) eqn:Q; [now rewrite T2|]. now rewrite expand_absent. }
  cbn [bind]. set (t1 := expand_time "lead_time" (map LZ lead) t0).
  assert ((if has_dim "init_time" t1 then expand_time "init_time" (map LZ (tc_init_times tc)) t1 else t1) = expand_time "init_time" (map LZ init) t1) as ->.
  { destruct (has_dim "init_time" t1) eqn:Q; [now rewrite T1|]. now rewrite expand_absent. }
  eexists. exists sc, I, L. split; [reflexivity|]. split; [exact S|]. split; [|reflexivity]. cbn [t_vars].
  unfold t1, t0, expand_time. rewrite !map_map. apply map_ext_in. intros [[k v] a] J. cbn [fst snd]. f_equal. destruct (A k v a J) as (st & Es & W & T). rewrite Es. destruct (ue_vars _ _ _ _ _ _ _ _ _ U k v st Es) as (Ws & L1 & L2 & _).
  exact (expanded init lead _ _ st a Ws L1 L2 T).
Qed.

(** With at least one init and lead time the pipeline runs. Every statistic and variable is in the template under
    its name with its dimensions and all its labels, init_time and lead_time first; nothing else is.  valid_time is
    there if both time dimensions are, and is init_time + lead_time. *)
Theorem C66_template : forall init lead isz lsz tc pl tl metrics full,
  unaggregated_evaluation init lead isz lsz tc pl tl metrics full -> init <> [] -> lead <> [] ->
  (exists t s, unaggregated_pipeline metrics pl tl tc t s) /\
  forall t, get_template metrics pl tl tc = Ok t ->
    (forall k v st, stat full k v = Some st -> dget (t_vars t) (k ++ "." ++ v)%string = Some (times_first (dims st))) /\
    (forall name, In name (keys (t_vars t)) -> exists k v st, stat full k v = Some st /\ name = (k ++ "." ++ v)%string) /\
    (match t_valid_time t with
     | Some c => c_dims c = ["init_time"; "lead_time"] /\ (forall e i l, e "init_time" = LZ i -> e "lead_time" = LZ l -> c_get c e = LZ (i + l))
     | None => ~ ((exists k v st, stat full k v = Some st /\ In "init_time" (dnames st)) /\ (exists k v st, stat full k v = Some st /\ In "lead_time" (dnames st)))
     end).
Proof.
  intros init lead isz lsz tc pl tl metrics full U Ni Nl.
  assert (tc_iter tc <> []) as NE.
  { pose proof (ue_chunks _ _ _ _ _ _ _ _ _ U) as HC. destruct (partition _ _ _ _ _ HC) as (ics & lcs & E & _ & _ & P). intros Q. rewrite Q in P. cbn [flat_map] in P. apply Permutation_nil in P. destruct init, lead; try congruence. discriminate. }
  destruct (template_run _ _ _ _ _ _ _ _ _ U NE) as (t & sc & I & L & ET & S & EV & EC). split.
  { destruct (run_offsets _ _ _ _ _ _ _ _ _ U) as (os & E & M & G & R). destruct (run_emitted _ _ _ _ _ _ _ _ _ U os E M G) as (scs & E' & F). exists t. eexists. split; [exact ET|]. eexists. eexists. split; [exact E'|]. split; [apply Permutation_refl|reflexivity]. }
  intros t' ET'. assert (t' = t) as -> by congruence. destruct (flat_stats full sc _ _ (ue_dicts _ _ _ _ _ _ _ _ _ U) S) as (N & A & B).
  assert (forall k v st, stat full k v = Some st -> dget (t_vars t) (k ++ "." ++ v)%string = Some (times_first (dims st))) as V.
  { intros k v st Es. destruct (B k v st Es) as (a & Ia & _). rewrite EV.
    assert (forall x, In x (flat sc) -> output_name (fst (fst x)) (snd (fst x)) = (k ++ "." ++ v)%string -> fst x = (k, v)) as Q.
    { intros [[k' v'] a'] J Eo. cbn [fst snd] in *. destruct (A k' v' a' J) as (st' & Es' & _). destruct (ue_names _ _ _ _ _ _ _ _ _ U _ _ _ _ _ _ Es' Es Eo) as [-> ->]. reflexivity. }
    clear -Q Ia Es. induction (flat sc) as [|x l IH]; [destruct Ia|]. cbn [map dget]. destruct (eq_dec (k ++ "." ++ v)%string (output_name (fst (fst x)) (snd (fst x)))) as [Eo|No].
    - assert (fst x = (k, v)) as -> by (apply Q; [now left|now symmetry]). cbn [fst snd]. now rewrite Es.
    - destruct Ia as [->|Ia]; [cbn [fst snd] in No; exfalso; apply No; reflexivity|]. apply IH; [exact Ia|]. intros y J. apply Q. now right. }
  split; [exact V|]. split.
  - intros name J. rewrite EV in J. unfold keys in J. rewrite map_map in J. apply in_map_iff in J. destruct J as ([[k v] a] & <- & J). cbn [fst snd]. destruct (A k v a J) as (st & Es & _). exists k, v, st. auto.
  - rewrite EC. destruct (has_dim "init_time" (t_vars t) && has_dim "lead_time" (t_vars t)) eqn:Q; [split; [reflexivity|]; intros e i l E1 E2; cbn [c_get]; now rewrite E1, E2|].
    intros [(k1 & v1 & st1 & E1 & D1) (k2 & v2 & st2 & E2 & D2)].
    assert (forall d k v st, d = "init_time" \/ d = "lead_time" -> stat full k v = Some st -> In d (dnames st) -> has_dim d (t_vars t) = true) as HD.
    { intros d k v st Hd Es D. unfold has_dim. apply existsb_exists. exists ((k ++ "." ++ v)%string, times_first (dims st)). split; [apply dget_In, V, Es|]. cbn [snd]. apply memb_In. unfold dnames in D. apply in_map_iff in D. destruct D as (q & Eq & D). apply in_map_iff. exists q. split; [exact Eq|]. unfold times_first. rewrite !in_app_iff, !filter_In, Eq. destruct Hd as [->| ->]; cbn; auto. }
    rewrite (HD "init_time" k1 v1 st1), (HD "lead_time" k2 v2 st2) in Q; auto. discriminate.
Qed.
Print Assumptions C66_template.

(** ** Declared chunks *)
Lemma offsets_sizes init lead isz lsz tc os o ic lc : make_time_chunks init (LeadArr lead) isz lsz = Ok tc -> tc_iter_offsets tc = Ok os -> In (o, (ic, ChunkArr lc)) os ->
  exists si sl i l, tc_init_size tc = si /\ tc_lead_size tc = Some sl /\ 0 < si /\ 0 < sl /\ off_init o = si * i /\ off_lead o = sl * l /\
    zlen ic = Z.min si (zlen init - off_init o) /\ zlen lc = Z.min sl (zlen lead - off_lead o).
Proof.
  intros Hm Ho Hin. destruct (offsets_locate _ _ _ _ _ _ Hm Ho) as (_ & LOC & _). destruct (LOC _ _ _ Hin) as (_ & _ & B1 & B2).
  apply make_arr_inv in Hm. destruct Hm as (ics & lcs & H1 & H2 & H3 & H4 & E).
  pose proof (split_Ok_pos _ _ _ H1 H3) as Hp1. pose proof (split_Ok_pos _ _ _ H2 H4) as Hp2.
  pose proof (split_chunks_eq _ _ _ Hp1 H3) as E1. pose proof (split_chunks_eq _ _ _ Hp2 H4) as E2.
  set (si := effective_size isz init) in *. set (sl := effective_size lsz lead) in *.
  assert (tc_lead_size tc = Some sl) as Hls by now subst tc. assert (tc_init_size tc = si) as Hsi by now subst tc.
  rewrite (mapM_offsets_Ok _ _ Hls) in Ho. injection Ho as Ho.
  assert (length ics = npieces (zlen init) si) as Li by now rewrite E1, map_length, seq_length.
  assert (length lcs = npieces (zlen lead) sl) as Ll by now rewrite E2, map_length, seq_length.
  assert (zlen (tc_lead_chunks tc) = Z.of_nat (length lcs)) as Hz by (subst tc; unfold zlen; simpl; now rewrite map_length).
  rewrite Hz, Hsi in Ho. subst os. apply in_map_iff in Hin. destruct Hin as [[k c] [Heq Hin]]. simpl in Heq.
  apply In_nth_error in Hin. destruct Hin as [k' Hk']. apply nth_error_combine_seq in Hk'. simpl in Hk'. destruct Hk' as [<- Hc]. injection Heq as Heo Hec. subst o. cbn [off_init off_lead] in *.
  assert (k < length (tc_iter tc))%nat as Hk by (apply nth_error_Some; congruence).
  assert (tc_iter tc = list_prod ics (map ChunkArr lcs)) as Eit by (subst tc; reflexivity). rewrite Eit in Hc, Hk. rewrite prod_length, map_length in Hk.
  rewrite nth_error_list_prod in Hc by (rewrite map_length; exact Hk). rewrite map_length in Hc. assert (0 < length lcs)%nat by nia.
  assert (k / length lcs < length ics)%nat by (apply Nat.div_lt_upper_bound; lia).
  assert (k mod length lcs < length lcs)%nat by (apply Nat.mod_upper_bound; lia).
  assert (forall j, (j < length ics)%nat -> nth_error ics j = Some (piece (Z.to_nat si) init j)) as N1.
  { intros j Hj. rewrite Li in Hj. rewrite E1, nth_error_pieces. apply Nat.ltb_lt in Hj. now rewrite Hj. }
  assert (forall j, (j < length lcs)%nat -> nth_error lcs j = Some (piece (Z.to_nat sl) lead j)) as N2.
  { intros j Hj. rewrite Ll in Hj. rewrite E2, nth_error_pieces. apply Nat.ltb_lt in Hj. now rewrite Hj. }
  rewrite N1 in Hc by auto. rewrite nth_error_map in Hc. rewrite N2 in Hc by auto. cbn [option_map] in Hc. injection Hc as Hc. rewrite <- Hc in Hec. injection Hec as Ei El.
  exists si, sl, (Z.of_nat k / Z.of_nat (length lcs)), (Z.of_nat k mod Z.of_nat (length lcs)). split; [exact Hsi|]. split; [exact Hls|]. split; [exact Hp1|]. split; [exact Hp2|]. split; [reflexivity|]. split; [reflexivity|].
  rewrite <- Nat2Z.inj_div, <- Nat2Z.inj_mod in *. subst ic lc. unfold zlen in *. rewrite !piece_length.
  set (q := (k / length lcs)%nat) in *. set (m := (k mod length lcs)%nat) in *. clearbody q m.
  assert (Z.of_nat (q * Z.to_nat si) = si * Z.of_nat q) as X1 by (rewrite Nat2Z.inj_mul, Z2Nat.id; lia). assert (Z.of_nat (m * Z.to_nat sl) = sl * Z.of_nat m) as X2 by (rewrite Nat2Z.inj_mul, Z2Nat.id; lia).
  split; lia.
Qed.
(** Every region that is emitted fits the chunk sizes declared for it: along each dimension it starts at a multiple
    of the declared size (0 for dimensions other than the time dimensions) and is of the declared size, or shorter where the
    array ends. Its dimensions come in the template's order. *)
Theorem C66_declared_chunks : forall init lead isz lsz tc pl tl metrics full cs sizes,
  unaggregated_evaluation init lead isz lsz tc pl tl metrics full -> emitted metrics pl tl tc = Ok cs ->
  forall r, In r cs -> exists k v st, stat full k v = Some st /\ rg_name r = (k ++ "." ++ v)%string /\
    map fst (dims (rg_data r)) = map fst (times_first (dims st)) /\
    forall d ls n declared, dget (dims st) d = Some ls -> dget sizes d = Some n -> n = length ls -> dget (stat_chunks tc sizes) d = Some declared ->
      exists part, dget (dims (rg_data r)) d = Some part /\ 0 <= declared /\
        (exists i, offset_of r d = declared * i) /\ zlen part = Z.min declared (zlen ls - offset_of r d).
Proof.
  intros init lead isz lsz tc pl tl metrics full cs sizes U HE r Ir.
  destruct (run_offsets _ _ _ _ _ _ _ _ _ U) as (os & E & M & G & R). destruct (run_emitted _ _ _ _ _ _ _ _ _ U os E M G) as (scs & E' & F). assert (cs = concat (map (fun x => regions (fst (fst x)) (snd x)) (combine os scs))) as -> by congruence.
  apply (region_of _ _ _ _ _ _ _ _ _ U os scs F) in Ir. destruct Ir as (oc & k & v & st & a & Io & Es & W & T & ->). exists k, v, st. split; [exact Es|]. split; [reflexivity|].
  destruct (ue_vars _ _ _ _ _ _ _ _ _ U k v st Es) as (Ws & L1 & L2 & _). pose proof (gr_arr _ _ _ G _ Io) as A. destruct oc as [o [ic c]]. unfold c_lead, c_init in *. cbn [fst snd] in *. destruct c as [lc|]; [|discriminate]. destruct (R o ic lc Io) as (R1 & R2 & O1 & O2).
  split.
  - cbn [format_statistic rg_data time_first dims]. unfold times_first. rewrite !map_app. destruct T as (E0 & _).
    assert (forall f : string -> bool, map fst (filter (fun p : string * list label => f (fst p)) (dims a)) = map fst (filter (fun p => f (fst p)) (dims st))) as K.
    { intros f. rewrite E0. unfold chunk_dims. clear. induction (dims st) as [|[d ls] ds IH]; [reflexivity|]. cbn [map filter fst]. destruct (f d); cbn [map fst]; now rewrite IH. }
    rewrite (K (fun d => eqb d "init_time")), (K (fun d => eqb d "lead_time")), (K (fun d => negb (eqb d "init_time") && negb (eqb d "lead_time"))).
    f_equal; [|f_equal]; f_equal; apply filter_ext; intros p; rewrite ?eqb_String, ?negb_orb; reflexivity.
  - intros d ls n declared Ed En -> Edec. destruct (offsets_sizes _ _ _ _ _ _ _ _ _ (ue_chunks _ _ _ _ _ _ _ _ _ U) E Io) as (si & sl & i & l & S1 & S2 & P1 & P2 & M1 & M2 & Z1 & Z2).
    pose proof (part_dget init lead st a o ic lc (ue_init _ _ _ _ _ _ _ _ _ U) (ue_lead _ _ _ _ _ _ _ _ _ U) R1 R2 L1 L2 T d) as PD. rewrite Ed in PD.
    eexists. split; [cbn [format_statistic rg_data]; rewrite dget_time_first; exact PD|]. rewrite offset_format. assert (memb d (dnames a) = true) as -> by (apply memb_In; exact (dget_Some_keys _ _ PD)).
    assert (declared = if eqb d "init_time" then si else if eqb d "lead_time" then sl else zlen ls) as ->.
    { clear -Edec En S1 S2 P1 P2. unfold stat_chunks in Edec. induction sizes as [|[k x] sizes IH]; [discriminate|]. cbn [map dget fst snd] in *. destruct (eq_dec d k) as [->|]; [|now apply IH]. injection En as ->. injection Edec as <-. rewrite S1, S2.
      destruct (Z.eqb_spec si 0); [lia|]. destruct (Z.eqb_spec sl 0); [lia|]. reflexivity. }
    destruct (eqb d "init_time") eqn:E1; [apply eqb_true_iff in E1; subst d|destruct (eqb d "lead_time") eqn:E2; [apply eqb_true_iff in E2; subst d|]].
    + split; [lia|]. split; [exists i; exact M1|]. rewrite (L1 _ Ed). unfold zlen in *. rewrite !map_length. exact Z1.
    + split; [lia|]. split; [exists l; exact M2|]. rewrite (L2 _ Ed). unfold zlen in *. rewrite !map_length. exact Z2.
    + pose proof (zlen_nonneg ls). split; [lia|]. split; [exists 0; lia|lia].
Qed.
Print Assumptions C66_declared_chunks.
