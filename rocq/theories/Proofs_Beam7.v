(** The pipeline's state against direct aggregation: one variable, then all. *)
From Coq Require Import String ZArith Bool List Permutation Lia Arith.
Import ListNotations.
From Verif Require Import Prelude Values Model_XArray Spec_XArray Proofs_XArray Model_Tree Spec_Tree Proofs_Tree
  Model_TimeChunks Spec_TimeChunks Proofs_TimeChunks Model_MetricsBase
  Model_Aggregation Spec_Aggregation Spec_Aggregator Proofs_AggState Proofs_Aggregator Proofs_Aggregator2
  Model_Beam Spec_Beam Proofs_Beam Proofs_Beam2 Proofs_Beam3 Proofs_Beam4 Proofs_Beam5 Proofs_Beam6.
From Coq Require Import Reals.
Local Open Scope string_scope.
Local Open Scope list_scope.

Lemma slice_counted g I L a c e : time_slice I L a c -> point_of (dims c) e -> counted g c e = counted g a e.
Proof. intros (H1 & H2 & H3) He. unfold counted. now rewrite H2, H3. Qed.
Lemma prepare_slice g I L a c : mask_local a -> wf a -> wf c -> time_slice I L a c ->
  (wf (fst (prepare g a)) /\ wf (fst (prepare g c)) /\ time_slice I L (fst (prepare g a)) (fst (prepare g c))) /\
  (wf (snd (prepare g a)) /\ wf (snd (prepare g c)) /\ time_slice I L (snd (prepare g a)) (snd (prepare g c))).
Proof.
  intros Hm Ha Hc Hs. assert (mask_local c) as Hmc.
  { intros m E e e' He. pose proof Hs as (_ & H2 & _). rewrite H2 in E. apply (Hm m E). intros d Hd. apply He. now rewrite (slice_names _ _ _ _ Hs). }
  destruct (prepare_wf g a Ha Hm) as [A1 A2]. destruct (prepare_wf g c Hc Hmc) as [C1 C2].
  destruct (prepare_dims g a) as [D1 D2]. destruct (prepare_dims g c) as [D3 D4].
  assert (aux (fst (prepare g c)) = aux (fst (prepare g a)) /\ aux (snd (prepare g c)) = aux (snd (prepare g a))) as [X1 X2].
  { pose proof Hs as (_ & H2 & _). unfold prepare. rewrite H2. destruct (if masked g then _ else _); [|destruct (skipna g)]; simpl; rewrite ?H2; auto. }
  pose proof Hs as (H1 & _ & H3).
  split; (split; [assumption|split; [assumption|]]); (split; [rewrite ?D1, ?D2, ?D3, ?D4; exact H1|split; [assumption|]]); intros e He; rewrite ?D3, ?D4 in He.
  - rewrite !prepare_get, (slice_counted g I L a c e Hs He), (H3 e He). reflexivity.
  - now rewrite !prepare_mask, (slice_counted g I L a c e Hs He).
Qed.

Definition safe (os : list chunk) (g : aggregator) (B : list string) (st : da) (stc : chunk -> da) : Prop :=
  incl (reduce_dims g) (dnames st) -> nodupb (map bin_dim_name (bin_by g)) = true ->
  forall ws ms, mapM (fun w => w st) (weigh_by g) = Ok ws -> bin_masks (bin_by g) st = Ok (Some ms) ->
  (forall c e, In c os -> point_of (ijoint (st :: ws ++ ms)) e -> inch c e = true -> ~ point_of (ijoint (carrs g stc c)) e ->
     vprod (map (fun a => get a e) (st :: ws ++ ms)) = Fin 0%R) /\
  (forall d l, In d B -> In l (labels_of (ijoint (st :: ws ++ ms)) d) -> exists c, In c os /\ In l (labels_of (ijoint (carrs g stc c)) d)).

(** One aggregation over a grid of chunks. *)
Section One.
  Variables (init lead : list Z) (os : list chunk).
  Hypothesis G : grid init lead os.
  Hypothesis Hos : os <> [].
  Variables (g : aggregator) (B : list string).
  Hypothesis HB : forall d, In d B -> ~ time_dim d.
  Hypothesis Hw : forall w, In w (weigh_by g) -> time_local B w.
  Hypothesis Hb : forall b, In b (bin_by g) -> time_local B (create_bin_mask b).
  Variable st : da.
  Hypothesis Hst : wf st.
  Hypothesis Ht : times_are init lead st.
  Variable stc : chunk -> da.
  Hypothesis Hsl : forall c, In c os -> wf (stc c) /\ time_slice (cI c) (cL c) st (stc c).
  Hypothesis Hsafe : safe os g B st stc.

  (** comp c: what is aggregated from chunk c *)
  Definition comp_ok (x : da) (comp : chunk -> da) : Prop :=
    sums_to x (map comp os) /\
    forall c, In c os -> wf (comp c) /\ same_dims x (comp c) /\
      (forall d, time_dim d -> (In d (dnames (comp c)) <-> ~ In d (reduce_dims g))) /\
      (forall d l, time_dim d -> In d (dnames (comp c)) -> (In l (labels_of (dims (comp c)) d) <-> in_chunk (cI c) (cL c) d l)).

  Lemma one_agg r : aggregation_fn g st = Ok r ->
    match r with
    | None => forall c, In c os -> aggregation_fn g (stc c) = Ok None
    | Some x => exists comp, (forall c, In c os -> aggregation_fn g (stc c) = Ok (Some (comp c))) /\ comp_ok x comp
    end.
  Proof.
    destruct Ht as [Hti Htl]. destruct r as [x|]; intros H.
    - apply agg_fn_Some in H. destruct H as (H1 & H2 & ws & ms & H3 & H4 & ->). destruct (Hsafe H1 H2 ws ms H3 H4) as [Hm Hc].
      exists (fun c => da_dot (reduce_dims g) (carrs g stc c)). split.
      + intros c Hcc. destruct (chunk_arrs os g B Hw Hb st Hst stc Hsl ws ms H3 H4 H1 H2 c Hcc) as (? & ? & _ & _ & _ & H & _). exact H.
      + split; [eapply chunks_sum; eauto|]. intros c Hcc. eapply comp_facts; eauto.
    - intros c Hc. eapply agg_none; eauto.
  Qed.
End One.

(** One variable: both components. *)
Section Var.
  Variables (init lead : list Z) (os : list chunk).
  Hypothesis G : grid init lead os.
  Hypothesis Hos : os <> [].
  Variables (g : aggregator) (B : list string).
  Hypothesis HB : forall d, In d B -> ~ time_dim d.
  Hypothesis Hw : forall w, In w (weigh_by g) -> time_local B w.
  Hypothesis Hb : forall b, In b (bin_by g) -> time_local B (create_bin_mask b).
  Variable st : da.
  Hypothesis Hst : wf st.
  Hypothesis Hml : mask_local st.
  Hypothesis Ht : times_are init lead st.
  Variable stc : chunk -> da.
  Hypothesis Hsl : forall c, In c os -> wf (stc c) /\ time_slice (cI c) (cL c) st (stc c).
  Hypothesis Hsafe1 : safe os g B (fst (prepare g st)) (fun c => fst (prepare g (stc c))).
  Hypothesis Hsafe2 : safe os g B (snd (prepare g st)) (fun c => snd (prepare g (stc c))).

  Lemma var_agg r : aggregate_stat_var g st = Ok r ->
    match r with
    | None => forall c, In c os -> aggregate_stat_var g (stc c) = Ok None
    | Some xy => exists comp, (forall c, In c os -> aggregate_stat_var g (stc c) = Ok (Some (comp c))) /\
        forall ty, comp_ok os g (sel ty xy) (fun c => sel ty (comp c))
    end.
  Proof.
    assert (exists c, In c os) as [c0 H0] by (clear - Hos; destruct os as [|c r]; [congruence|]; exists c; now left).
    destruct (Hsl c0 H0) as [W0 S0]. destruct (prepare_slice g _ _ st (stc c0) Hml Hst W0 S0) as [(P1 & _ & _) (P2 & _ & _)].
    assert (times_are init lead (fst (prepare g st)) /\ times_are init lead (snd (prepare g st))) as [T1 T2].
    { destruct (prepare_dims g st) as [D1 D2]. unfold times_are in *. now rewrite D1, D2. }
    assert (forall c, In c os -> wf (fst (prepare g (stc c))) /\ time_slice (cI c) (cL c) (fst (prepare g st)) (fst (prepare g (stc c)))) as S1.
    { intros c Hc. destruct (Hsl c Hc) as [W S]. destruct (prepare_slice g _ _ st (stc c) Hml Hst W S) as [(_ & ? & ?) _]. auto. }
    assert (forall c, In c os -> wf (snd (prepare g (stc c))) /\ time_slice (cI c) (cL c) (snd (prepare g st)) (snd (prepare g (stc c)))) as S2.
    { intros c Hc. destruct (Hsl c Hc) as [W S]. destruct (prepare_slice g _ _ st (stc c) Hml Hst W S) as [_ (_ & ? & ?)]. auto. }
    unfold aggregate_stat_var. rewrite (surjective_pairing (prepare g st)).
    destruct (aggregation_fn g (fst (prepare g st))) as [x|] eqn:Ex; [|discriminate]. destruct (aggregation_fn g (snd (prepare g st))) as [y|] eqn:Ey; [|discriminate].
    cbn [bind]. intros [= <-].
    pose proof (one_agg init lead os G Hos g B HB Hw Hb _ P1 T1 _ S1 Hsafe1 x Ex) as Hx.
    pose proof (one_agg init lead os G Hos g B HB Hw Hb _ P2 T2 _ S2 Hsafe2 y Ey) as Hy.
    assert (forall c, In c os -> exists x' y', aggregation_fn g (fst (prepare g (stc c))) = Ok x' /\ aggregation_fn g (snd (prepare g (stc c))) = Ok y' /\
       (x = None -> x' = None) /\ (y = None -> y' = None)) as Hn.
    { intros c Hc. destruct x as [x|], y as [y|].
      - destruct Hx as (cx & Hx & _), Hy as (cy & Hy & _). rewrite (Hx c Hc), (Hy c Hc). do 2 eexists; repeat split; congruence.
      - destruct Hx as (cx & Hx & _). rewrite (Hx c Hc), (Hy c Hc). do 2 eexists; repeat split; congruence.
      - destruct Hy as (cy & Hy & _). rewrite (Hx c Hc), (Hy c Hc). do 2 eexists; repeat split; congruence.
      - rewrite (Hx c Hc), (Hy c Hc). do 2 eexists; repeat split; congruence. }
    destruct x as [x|].
    - destruct y as [y|].
      + destruct Hx as (cx & Hx & Kx), Hy as (cy & Hy & Ky). exists (fun c => (cx c, cy c)). split.
        * intros c Hc. rewrite (surjective_pairing (prepare g (stc c))), (Hx c Hc), (Hy c Hc). reflexivity.
        * intros []; assumption.
      + intros c Hc. rewrite (surjective_pairing (prepare g (stc c))). destruct (Hn c Hc) as (x' & y' & -> & -> & _ & Hyy). rewrite (Hyy eq_refl). cbn. now destruct x'.
    - intros c Hc. rewrite (surjective_pairing (prepare g (stc c))). destruct (Hn c Hc) as (x' & y' & -> & -> & Hxx & _). now rewrite (Hxx eq_refl).
  Qed.
End Var.

(** ** All variables *)
Section All.
  Variables (init lead : list Z) (os : list chunk).
  Hypothesis G : grid init lead os.
  Hypothesis Hos : os <> [].
  Variables (g : aggregator) (B : list string).
  Hypothesis HB : forall d, In d B -> ~ time_dim d.
  Hypothesis Hw : forall w, In w (weigh_by g) -> time_local B w.
  Hypothesis Hb : forall b, In b (bin_by g) -> time_local B (create_bin_mask b).
  Variables (full : dict string (vars da)) (s : state).
  Hypothesis Hd : dicts full.
  Hypothesis Hs : aggregate_statistics g (present full) = Ok s.
  Hypothesis Hvars : forall k v st, stat full k v = Some st -> wf st /\ mask_local st /\ times_are init lead st.
  Variable sc : chunk -> dict string (vars da).
  Hypothesis Hsc : forall c, In c os -> stats_slice (c_init c) (c_lead c) full (sc c).
  Hypothesis Hsafe : forall k v st stc, stat full k v = Some st -> (forall c, In c os -> wf (stc c) /\ time_slice (cI c) (cL c) st (stc c)) ->
     safe os g B (fst (prepare g st)) (fun c => fst (prepare g (stc c))) /\
     safe os g B (snd (prepare g st)) (fun c => snd (prepare g (stc c))).
  Hypothesis Hfull : forall ty k v a d, entry (part ty s) k v = Some a -> In d (dnames a) -> labels_of (dims a) d <> [].

  Lemma sc_dicts c : In c os -> dicts (sc c).
  Proof.
    intros Hc. pose proof (Hsc c Hc) as H. unfold stats_slice in H. destruct Hd as [D1 D2]. clear - H D1 D2. unfold items_rel in *. split.
    - assert (map fst (sc c) = map fst full) as ->; [|exact D1]. induction H as [|x y l l' [E _] HF IH]; simpl; [reflexivity|].
      inversion D1; subst. f_equal; [now symmetry|]. apply IH; auto. intros k vs Hin. apply (D2 k). now right.
    - intros k vs Hin. assert (exists x, In x full /\ fst x = k /\ map fst (snd x) = map fst vs) as (x & Hx & E1 & E2).
      { clear D1 D2. induction H as [|x y l l' [E HR] HF IH]; [destruct Hin|]. destruct Hin as [->|Hin].
        - exists x. split; [now left|]. split; auto. destruct x as [k0 vs0]. cbn [fst snd] in *. clear - HR. induction HR as [|a b m m' [E _] HF IH]; cbn [map]; [reflexivity|]. f_equal; auto.
        - destruct (IH Hin) as (x' & ? & ? & ?). exists x'. split; auto. now right. }
      rewrite <- E2. destruct x as [k' vs']. apply (D2 k'). exact Hx.
  Qed.
  Lemma sc_stat c k v : In c os -> match stat full k v, stat (sc c) k v with
    | Some st, Some stc => wf stc /\ time_slice (cI c) (cL c) st stc | None, None => True | _, _ => False end.
  Proof.
    intros Hc. pose proof (Hsc c Hc) as H. unfold stat. pose proof (items_rel_dget _ _ _ k H) as Hk. unfold vars, dict in *.
    destruct (dget full k) as [vs|], (dget (sc c) k) as [vs'|]; try contradiction; auto.
    pose proof (items_rel_dget _ _ _ v Hk) as Hv. destruct (dget vs v), (dget vs' v); auto.
  Qed.
  Definition stc_of (k v : string) (c : chunk) : da := match stat (sc c) k v with Some a => a | None => da_empty end.
  Lemma stc_slice k v st : stat full k v = Some st -> forall c, In c os -> wf (stc_of k v c) /\ time_slice (cI c) (cL c) st (stc_of k v c).
  Proof.
    intros H c Hc. pose proof (sc_stat c k v Hc) as X. rewrite H in X. unfold stc_of. destruct (stat (sc c) k v); [exact X|contradiction].
  Qed.
  Lemma stat_sc k v c : In c os -> stat (sc c) k v = match stat full k v with Some _ => Some (stc_of k v c) | None => None end.
  Proof. intros Hc. pose proof (sc_stat c k v Hc) as X. unfold stc_of. destruct (stat full k v), (stat (sc c) k v); try contradiction; auto. Qed.

  Lemma all_agg k v st r : stat full k v = Some st -> aggregate_stat_var g st = Ok r ->
    match r with
    | None => forall c, In c os -> aggregate_stat_var g (stc_of k v c) = Ok None
    | Some xy => exists comp, (forall c, In c os -> aggregate_stat_var g (stc_of k v c) = Ok (Some (comp c))) /\
        forall ty, comp_ok os g (sel ty xy) (fun c => sel ty (comp c))
    end.
  Proof.
    intros Hk. destruct (Hvars k v st Hk) as (H1 & H2 & H3). pose proof (stc_slice k v st Hk) as HS. destruct (Hsafe k v st _ Hk HS) as [F1 F2].
    now apply (var_agg init lead os G Hos g B HB Hw Hb st H1 H2 H3 _ HS F1 F2).
  Qed.

  Lemma chunk_emits c : In c os -> exists es, emits g (fst c) (sc c) = Ok es.
  Proof.
    intros Hc. apply emits_Ok. intros k vs v st Hk Hv. destruct (sc_dicts c Hc) as [D1 D2].
    assert (stat (sc c) k v = Some st) as E. { unfold stat. unfold vars, dict in *. rewrite (In_dget (sc c) k vs D1 Hk). apply In_dget; auto. now apply (D2 k). }
    rewrite stat_sc in E by auto. destruct (stat full k v) as [st0|] eqn:E0; [|discriminate]. injection E as E.
    pose proof (direct_entry g full s SumWeights k v Hd Hs) as X. rewrite E0 in X. destruct X as (r & Er & _).
    pose proof (all_agg k v st0 r E0 Er) as Y. rewrite <- E. destruct r as [xy|].
    - destruct Y as (comp & Y & _). eauto.
    - eauto.
  Qed.

  Variable ess : list (list (list (list (key * da)))).
  Hypothesis Hess : Forall2 (fun c es => emits g (fst c) (sc c) = Ok es) os ess.
  Let all := concat (map (fun es => concat (concat es)) ess).

  Lemma under_all ty k v i l : under (mkKey ty k v i l) all =
    match stat full k v with
    | Some st => match aggregate_stat_var g st with
        | Ok (Some xy) => 
            flat_map (fun c => match aggregate_stat_var g (stc_of k v c) with Ok (Some xy) => under (mkKey ty k v i l) (elements_of (fst c) k v xy) | _ => [] end) os
        | _ => [] end
    | None => []
    end.
  Proof.
    unfold all. assert (under (mkKey ty k v i l) (concat (map (fun es => concat (concat es)) ess)) =
      flat_map (fun c => match stat full k v with Some _ => match aggregate_stat_var g (stc_of k v c) with Ok (Some xy) => under (mkKey ty k v i l) (elements_of (fst c) k v xy) | _ => [] end | None => [] end) os) as ->.
    { assert (Forall2 (fun c es => emits g (fst c) (sc c) = Ok es /\ In c os) os ess) as HF.
      { clear all. assert (forall l, incl l os -> forall m, Forall2 (fun c es => emits g (fst c) (sc c) = Ok es) l m -> Forall2 (fun c es => emits g (fst c) (sc c) = Ok es /\ In c os) l m) as X.
        { intros l' Hi m HF. induction HF as [|c es l' m H HF IH]; constructor; [split; auto; apply Hi; now left|]. apply IH. intros z Hz. apply Hi. now right. }
        apply X; auto. apply incl_refl. }
      assert (forall l', Forall2 (fun c es => emits g (fst c) (sc c) = Ok es /\ In c os) l' ess -> under (mkKey ty k v i l) (concat (map (fun es => concat (concat es)) ess)) =
      flat_map (fun c => match stat full k v with Some _ => match aggregate_stat_var g (stc_of k v c) with Ok (Some xy) => under (mkKey ty k v i l) (elements_of (fst c) k v xy) | _ => [] end | None => [] end) l') as X; [|now apply X].
      clear HF. clear all Hess. intros l' HF. induction HF as [|c es l' m [H Hc] HF IH]; [reflexivity|].
      cbn [map concat flat_map]. rewrite under_app, IH. f_equal. rewrite (under_stats g (fst c) (sc c) es) by (auto using sc_dicts). rewrite stat_sc by auto.
      now destruct (stat full k v). }
    destruct (stat full k v) as [st|] eqn:E.
    - pose proof (direct_entry g full s SumWeights k v Hd Hs) as X. rewrite E in X. destruct X as (r & Er & _). rewrite Er.
      destruct r as [xy|]; [reflexivity|]. pose proof (all_agg k v st None E Er) as Y. simpl in Y. clear - Y.
      assert (forall l', incl l' os -> flat_map (fun c => match aggregate_stat_var g (stc_of k v c) with Ok (Some xy) => under (mkKey ty k v i l) (elements_of (fst c) k v xy) | _ => [] end) l' = []) as X; [|apply X, incl_refl].
      induction l' as [|c l' IH]; intros Hi; [reflexivity|]. cbn [flat_map]. rewrite Y by (apply Hi; now left). apply IH. intros z Hz. apply Hi. now right.
    - clear. induction os; simpl; auto.
  Qed.

  (** Occurring keys of a variable and what is under them. *)
  Lemma under_comp ty k v st xy comp i l : stat full k v = Some st -> aggregate_stat_var g st = Ok (Some xy) ->
    (forall c, In c os -> aggregate_stat_var g (stc_of k v c) = Ok (Some (comp c))) ->
    (forall c d, In c os -> time_dim d -> (In d (dnames (fst (comp c))) <-> ~ In d (reduce_dims g))) ->
    under (mkKey ty k v i l) all =
    map (fun c => sel ty (comp c)) (filter (fun c => if eq_dec (keyf (negb (memb "init_time" (reduce_dims g))) (negb (memb "lead_time" (reduce_dims g))) (mkKey ty k v) c) (mkKey ty k v i l) then true else false) os).
  Proof.
    intros E Er Hc Hdim. rewrite under_all, E, Er. clear all Hess.
    assert (forall l', incl l' os -> flat_map (fun c => match aggregate_stat_var g (stc_of k v c) with Ok (Some xy) => under (mkKey ty k v i l) (elements_of (fst c) k v xy) | _ => [] end) l' =
      map (fun c => sel ty (comp c)) (filter (fun c => if eq_dec (keyf (negb (memb "init_time" (reduce_dims g))) (negb (memb "lead_time" (reduce_dims g))) (mkKey ty k v) c) (mkKey ty k v i l) then true else false) l')) as X; [|apply X, incl_refl].
    induction l' as [|c l' IH]; intros Hi; [reflexivity|]. cbn [flat_map filter]. assert (In c os) as Hco by (apply Hi; now left). rewrite Hc by auto.
    rewrite IH by (intros z Hz; apply Hi; now right). rewrite under_elements. destruct (eq_dec (k, v) (k, v)) as [_|]; [|congruence].
    assert (forall d, time_dim d -> memb d (dnames (fst (comp c))) = negb (memb d (reduce_dims g))) as Hm.
    { intros d Ht. apply eq_true_iff_eq. rewrite negb_true_iff, memb_false, memb_In. now apply Hdim. }
    rewrite !Hm by (unfold time_dim; auto). unfold keyf.
    destruct (eq_dec (_, _) (i, l)) as [E1|E1].
    - injection E1 as -> ->. now destruct (eq_dec (mkKey ty k v i l) (mkKey ty k v i l)).
    - destruct (eq_dec _ (mkKey ty k v i l)) as [E2|]; [exfalso; apply E1; congruence|reflexivity].
  Qed.

  Variables (summed : list (key * da)) (grouped : list (key * list da)) (groups : list (list (key * da))) (out : list state).
  Hypothesis H1 : combine_per_key all summed.
  Hypothesis H2 : group_by_key (map (fun ka => (drop_offsets (fst ka), snd ka)) summed) grouped.
  Hypothesis H3 : group_all (map (fun kv => (fst kv, combine_data_arrays_by_coords (snd kv))) grouped) groups.
  Hypothesis H4 : out = map reconstruct groups.

  Theorem all_entries s' ty k v : In s' out -> opt_rel same_array (entry (part ty s') k v) (entry (part ty s) k v).
  Proof.
    intros Hs'. pose proof (out_entry _ _ _ _ _ H1 H2 H3 H4 s' ty k v Hs') as [N S].
    pose proof (direct_entry g full s ty k v Hd Hs) as X.
    assert (forall kk, occurs all ty k v kk <-> exists i l x, kk = mkKey ty k v i l /\ In x (under kk all)) as Hocc.
    { intros kk. unfold occurs. split.
      - intros [Hin He]. apply in_map_iff in Hin. destruct Hin as [[kk' x] [<- Hin]]. cbn [fst] in *. exists (k_init kk'), (k_lead kk'), x.
        destruct kk' as [t' k' v' i' l']. unfold drop_offsets, okey in He. cbn in *. injection He as -> -> ->. split; auto. now apply under_In.
      - intros (i & l & x & -> & Hin). apply under_In in Hin. split; [|reflexivity]. apply in_map_iff. now exists (mkKey ty k v i l, x). }
    destruct (stat full k v) as [st|] eqn:E.
    - destruct X as (r & Er & Ee). pose proof (all_agg k v st r E Er) as Y. destruct r as [xy|].
      + destruct Y as (comp & Yc & Yok). pose proof (Yok ty) as [Ysum Yf]. 
        assert (forall c d, In c os -> time_dim d -> (In d (dnames (fst (comp c))) <-> ~ In d (reduce_dims g))) as Hdim.
        { intros c d Hc Ht. destruct (Yok SumWeightedStatistics) as [_ Z]. now apply (Z c Hc). }
        pose proof (fun i l => under_comp ty k v st xy comp i l E Er Yc Hdim) as HU.
        set (ki := negb (memb "init_time" (reduce_dims g))) in *. set (kl := negb (memb "lead_time" (reduce_dims g))) in *.
        assert (exists c, In c os) as [c0 H0] by (clear - Hos; destruct os as [|c r]; [congruence|]; exists c; now left).
        assert (forall kk, occurs all ty k v kk <-> exists c, In c os /\ keyf ki kl (mkKey ty k v) c = kk) as Hocc'.
        { intros kk. rewrite Hocc. split.
          - intros (i & l & x & -> & Hin). rewrite HU in Hin. apply in_map_iff in Hin. destruct Hin as [c [_ Hin]]. apply filter_In in Hin. destruct Hin as [Hc Hin].
            exists c. split; auto. destruct (eq_dec _ (mkKey ty k v i l)); [auto|discriminate].
          - intros [c [Hc <-]]. unfold keyf at 1. do 2 eexists. exists (sel ty (comp c)). split; [reflexivity|]. unfold keyf at 1. rewrite HU.
            apply (in_map (fun c => sel ty (comp c))). apply filter_In. split; auto. unfold keyf. destruct (eq_dec _ _); congruence. }
        destruct (entry (part ty s') k v) as [a|]; [|exfalso; apply (N eq_refl (keyf ki kl (mkKey ty k v) c0)); apply Hocc'; eauto].
        destruct (S a eq_refl) as (ks & zs & -> & _ & Nk & Kin & HF). rewrite Ee. cbn [opt_rel].
        assert (forall c, In c os -> wf (sel ty (comp c))) as Hwc by (intros c Hc; now apply (Yf c Hc)).
        assert (forall c c', In c os -> In c' os -> same_dims (sel ty (comp c)) (sel ty (comp c'))) as Hsc'.
        { intros c c' Hc Hc' d. destruct (Yf c Hc) as (_ & A & _), (Yf c' Hc') as (_ & A' & _). now rewrite <- (A d), <- (A' d). }
        assert (forall a, sums_to a (map (fun c => sel ty (comp c)) os) -> same_array a (sel ty xy)) as Hsa
          by (intros a Ha; split; [apply Ha|]; split; [apply Ysum|]; eapply sums_to_unique; [exact Ha|exact Ysum]).
        apply Hsa. clear Hsa. apply (groups_sum init lead os G Hos (fun c => sel ty (comp c)) ki kl (mkKey ty k v)) with (ks := ks); auto.
        * intros a b a' b' EE. injection EE. auto.
        * intros c Hc. unfold ki. rewrite negb_true_iff, memb_false. destruct (Yf c Hc) as (_ & _ & A & _). symmetry. apply A. now left.
        * intros c Hc. unfold kl. rewrite negb_true_iff, memb_false. destruct (Yf c Hc) as (_ & _ & A & _). symmetry. apply A. now right.
        * intros c d l Hc Ht Hdn. destruct (Yf c Hc) as (_ & _ & _ & A). auto.
        * intros c d Hc Ht Hdn. destruct (Yf c Hc) as (_ & A & _). apply A in Hdn. pose proof (Hfull ty k v _ d Ee Hdn) as Hne.
          destruct (labels_of (dims (sel ty xy)) d) as [|l r] eqn:El; [congruence|]. destruct Ysum as (_ & _ & Yl & _).
          assert (In l (labels_of (dims (sel ty xy)) d)) as Hl by (rewrite El; now left). apply Yl in Hl. destruct Hl as [b [Hbb Hl]].
          apply in_map_iff in Hbb. destruct Hbb as [c' [<- Hc']]. eauto.
        * intros kk. now rewrite Kin, Hocc'.
        * assert (forall kk z, In kk ks -> In (kk, z) summed -> sums_to z (map (fun c => sel ty (comp c)) (grp os ki kl (mkKey ty k v) kk))) as Hgo.
          { intros kk z Hkk Hin. apply Kin, Hocc in Hkk. destruct Hkk as (i & l & x & -> & Hx). destruct H1 as (_ & _ & H1'). destruct (H1' _ _ Hin) as (sch & HP & Hr).
            rewrite HU in HP. unfold grp. set (L := map (fun c : chunk => sel ty (comp c)) (filter _ os)) in HP |- *.
            assert (forall a, In a L -> wf a) as W.
            { unfold L. intros a Ha. apply in_map_iff in Ha. destruct Ha as [c [<- Ha]]. apply filter_In in Ha. now apply Hwc. }
            assert (forall a b, In a L -> In b L -> same_dims a b) as W2.
            { unfold L. intros a b Ha Hb'. apply in_map_iff in Ha. destruct Ha as [c [<- Ha]]. apply filter_In in Ha.
              apply in_map_iff in Hb'. destruct Hb' as [c' [<- Hb']]. apply filter_In in Hb'. now apply Hsc'. }
            destruct (schedule_independent sch L HP W W2) as [_ Z]. destruct Z as (r' & Er' & Wr & Eq).
            - unfold L. intros F. rewrite HU in Hx. rewrite F in Hx. destruct Hx.
            - rewrite Er' in Hr. injection Hr as ->. eapply sums_to_equiv; [exact Wr|exact Eq|]. now apply sums_to_comb. }
          clear - HF Hgo. induction HF as [|kk z ks zs H HF IH]; constructor; [apply Hgo; auto; now left|]. apply IH. intros. apply Hgo; auto. now right.
      + rewrite Ee. destruct (entry (part ty s') k v) as [a|]; [|exact I]. exfalso. destruct (S a eq_refl) as (ks & zs & _ & Kne & _).
        destruct Kne as (kk & Z). apply Hocc in Z. destruct Z as (i & l & x & -> & Z). rewrite under_all, E, Er in Z. destruct Z.
    - rewrite X. destruct (entry (part ty s') k v) as [a|]; [|exact I]. exfalso. destruct (S a eq_refl) as (ks & zs & _ & Kne & _).
      destruct Kne as (kk & Z). apply Hocc in Z. destruct Z as (i & l & x & -> & Z). rewrite under_all, E in Z. destruct Z.
  Qed.
End All.
