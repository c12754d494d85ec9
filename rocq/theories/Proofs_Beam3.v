(** Chunk grids, and aggregation of one variable chunk by chunk. *)
From Coq Require Import String ZArith Bool List Permutation Lia Arith.
Import ListNotations.
From Verif Require Import Prelude Values Model_XArray Spec_XArray Proofs_XArray Model_Tree Spec_Tree Proofs_Tree
  Model_TimeChunks Spec_TimeChunks Proofs_TimeChunks Model_MetricsBase
  Model_Aggregation Spec_Aggregation Spec_Aggregator Proofs_AggState Proofs_Aggregator Model_Beam Spec_Beam Proofs_Beam Proofs_Beam2.
From Coq Require Import Reals.
Local Open Scope string_scope.
Local Open Scope list_scope.

(** ** exactly_one as a count *)
Lemma one_count {Y} (q : Y -> bool) l : length (filter q l) = 1%nat -> exactly_one q l.
Proof.
  induction l as [|y l IH]; simpl; [discriminate|]. destruct (q y) eqn:E; simpl.
  - intros [= H]. exists [], y, l. split; [reflexivity|]. split; auto. simpl. intros z Hz. destruct (q z) eqn:Ez; auto.
    exfalso. assert (In z (filter q l)) as F by (apply filter_In; auto). destruct (filter q l); [destruct F|discriminate].
  - intros H. destruct (IH H) as (l1 & z & l2 & -> & Hz & Ho). exists (y :: l1), z, l2. split; [reflexivity|]. split; auto.
    intros w [<-|Hw]; auto.
Qed.
Lemma count_prod {A B} (p : A -> bool) (q : B -> bool) l m :
  length (filter (fun ab => p (fst ab) && q (snd ab)) (list_prod l m)) = (length (filter p l) * length (filter q m))%nat.
Proof.
  induction l as [|a l IH]; simpl; [reflexivity|]. rewrite filter_app, app_length, IH.
  assert (length (filter (fun ab => p (fst ab) && q (snd ab)) (map (fun y => (a, y)) m)) = if p a then length (filter q m) else 0%nat) as ->.
  { clear. induction m as [|b m IH]; simpl; [now destruct (p a)|]. destruct (p a); simpl; [destruct (q b); simpl; now rewrite IH|auto]. }
  destruct (p a); simpl; lia.
Qed.
Lemma count_pieces (t : Z) ps : NoDup (concat ps) -> In t (concat ps) -> length (filter (fun p => memb t p) ps) = 1%nat.
Proof.
  induction ps as [|p ps IH]; simpl; intros Hn Hin; [destruct Hin|].
  assert (NoDup (concat ps) /\ forall x, In x p -> ~ In x (concat ps)) as [Hn' Hd].
  { clear - Hn. induction p as [|x p IH]; simpl in *; [auto|]. inversion Hn; subst. destruct (IH H2) as [A B]. split; auto.
    intros y [<-|Hy]; auto. intros F. apply H1. apply in_app_iff. auto. }
  destruct (memb t p) eqn:E; simpl.
  - apply memb_In in E. f_equal. assert (filter (fun p0 => memb t p0) ps = []) as ->; [|reflexivity].
    assert (forall l, incl l ps -> filter (fun p0 : list Z => memb t p0) l = []) as G; [|apply G, incl_refl].
    induction l as [|q l IHl]; simpl; intros Hi; [reflexivity|]. destruct (memb t q) eqn:Eq; [|apply IHl; intros z Hz; apply Hi; now right].
    exfalso. apply (Hd t E). apply in_concat. exists q. split; [apply Hi; now left|now apply memb_In].
  - apply IH; auto. apply in_app_iff in Hin. destruct Hin; auto. apply memb_In in H. congruence.
Qed.
Lemma share_piece (t : Z) ps p q : NoDup (concat ps) -> In p ps -> In q ps -> In t p -> In t q -> p = q.
Proof.
  intros Hn Hp Hq Htp Htq. assert (length (filter (fun p => memb t p) ps) = 1%nat) as H by (apply count_pieces; auto; apply in_concat; eauto).
  assert (In p (filter (fun p => memb t p) ps)) as H1 by (apply filter_In; split; auto; now apply memb_In).
  assert (In q (filter (fun p => memb t p) ps)) as H2 by (apply filter_In; split; auto; now apply memb_In).
  destruct (filter _ ps) as [|a [|]]; try discriminate. destruct H1 as [<-|[]], H2 as [<-|[]]. reflexivity.
Qed.
Lemma filter_map_length {A B} (f : A -> B) q l : length (filter q (map f l)) = length (filter (fun a => q (f a)) l).
Proof. induction l as [|a l IH]; simpl; [reflexivity|]. destruct (q (f a)); simpl; now rewrite IH. Qed.
Lemma run_head (l p : list Z) off : p = run_at l off (length p) -> p <> [] -> exists t, nth_error p 0 = Some t /\ nth_error l (Z.to_nat off) = Some t.
Proof.
  intros H Hn. destruct p as [|t p]; [congruence|]. exists t. split; [reflexivity|]. unfold run_at in H. cbn [length firstn] in H.
  destruct (skipn (Z.to_nat off) l) as [|u r] eqn:E; [discriminate|]. injection H as -> _.
  clear - E. revert l E. generalize (Z.to_nat off). intros n. induction n as [|n IH]; intros l E; simpl in *; [subst; reflexivity|].
  destruct l; [discriminate|]. apply IH. exact E.
Qed.

Definition chunk := (offsets * (list Z * lead_chunk))%type.
Definition c_init (c : chunk) : list Z := fst (snd c).
Definition c_lead (c : chunk) : list Z := match snd (snd c) with ChunkArr l => l | _ => [] end.

Record grid (init lead : list Z) (os : list chunk) : Prop := {
  gr_arr : forall c, In c os -> snd (snd c) = ChunkArr (c_lead c);
  gr_ne : forall c, In c os -> c_init c <> [] /\ c_lead c <> [];
  gr_incl : forall c, In c os -> incl (c_init c) init /\ incl (c_lead c) lead;
  gr_one : forall t l, In t init -> In l lead -> exactly_one (fun c => memb t (c_init c) && memb l (c_lead c)) os;
  gr_off_init : forall c c', In c os -> In c' os -> (off_init (fst c) = off_init (fst c') <-> exists t, In t (c_init c) /\ In t (c_init c'));
  gr_off_lead : forall c c', In c os -> In c' os -> (off_lead (fst c) = off_lead (fst c') <-> exists t, In t (c_lead c) /\ In t (c_lead c'));
  gr_same_init : forall c c' t, In c os -> In c' os -> In t (c_init c) -> In t (c_init c') -> c_init c = c_init c';
  gr_same_lead : forall c c' t, In c os -> In c' os -> In t (c_lead c) -> In t (c_lead c') -> c_lead c = c_lead c' }.

Lemma exactly_one_map {A B} (f : A -> B) q l : exactly_one q (map f l) -> exactly_one (fun a => q (f a)) l.
Proof.
  intros (l1 & y & l2 & E & Hq & Ho). apply map_eq_app in E. destruct E as (a1 & a2 & -> & <- & E).
  destruct a2 as [|a a2]; [discriminate|]. cbn [map] in E. injection E as <- <-. exists a1, a, a2. split; [reflexivity|]. split; auto.
  intros z Hz. apply Ho. rewrite <- map_app. now apply in_map.
Qed.

Lemma make_grid init lead isz lsz tc os : make_time_chunks init (LeadArr lead) isz lsz = Ok tc ->
  NoDup init -> NoDup lead -> tc_iter_offsets tc = Ok os -> grid init lead os.
Proof.
  intros Hm Hni Hnl Ho. destruct (partition _ _ _ _ _ Hm) as (ics & lcs & Hit & (Pi1 & Pi2 & _) & (Pl1 & Pl2 & _) & _).
  destruct (offsets_locate _ _ _ _ _ _ Hm Ho) as (Hs & Hloc & _). rewrite Hit in Hs.
  assert (forall c, In c os -> exists I L, snd c = (I, ChunkArr L) /\ In I ics /\ In L lcs) as Hc.
  { intros c Hc. assert (In (snd c) (list_prod ics (map ChunkArr lcs))) as H by (rewrite <- Hs; now apply in_map).
    destruct (snd c) as [I lc]. apply in_prod_iff in H. destruct H as [H1 H2]. apply in_map_iff in H2. destruct H2 as [L [<- HL]]. eauto. }
  assert (forall c, In c os -> In (c_init c) ics /\ In (c_lead c) lcs /\ snd c = (c_init c, ChunkArr (c_lead c))) as Hc'.
  { intros c H. destruct (Hc c H) as (I & L & E & H1 & H2). unfold c_init, c_lead. rewrite E. auto. }
  assert (forall c, In c os -> c_init c <> [] /\ c_lead c <> []) as Hne.
  { intros c H. destruct (Hc' c H) as (H1 & H2 & _). rewrite Forall_forall in Pi2, Pl2. specialize (Pi2 _ H1). specialize (Pl2 _ H2).
    split; intros E; rewrite E in *; simpl in *; lia. }
  assert (NoDup (concat ics)) as Ni by now rewrite Pi1. assert (NoDup (concat lcs)) as Nl by now rewrite Pl1.
  assert (forall c, In c os -> (exists t, nth_error (c_init c) 0 = Some t /\ nth_error init (Z.to_nat (off_init (fst c))) = Some t) /\
      (exists t, nth_error (c_lead c) 0 = Some t /\ nth_error lead (Z.to_nat (off_lead (fst c))) = Some t) /\
      (0 <= off_init (fst c))%Z /\ (0 <= off_lead (fst c))%Z) as Hh.
  { intros [o [I lc]] H. destruct (Hc' _ H) as (_ & _ & E). cbn [snd] in E. injection E as E2. cbn [fst snd] in *.
    destruct lc as [lc|]; [|discriminate]. destruct (Hloc _ _ _ H) as (R1 & R2 & B1 & B2).
    destruct (Hne _ H) as [N1 N2]. unfold c_init, c_lead in *. cbn [fst snd] in *.
    split; [now apply run_head|]. split; [now apply run_head|]. lia. }
  assert (forall c c' t, In c os -> In c' os -> In t (c_init c) -> In t (c_init c') -> c_init c = c_init c') as HsI.
  { intros c c' t H1 H2 T1 T2. apply (share_piece t ics); auto; now apply Hc'. }
  assert (forall c c' t, In c os -> In c' os -> In t (c_lead c) -> In t (c_lead c') -> c_lead c = c_lead c') as HsL.
  { intros c c' t H1 H2 T1 T2. apply (share_piece t lcs); auto; now apply Hc'. }
  assert (forall (l : list Z) i j t, NoDup l -> nth_error l i = Some t -> nth_error l j = Some t -> i = j) as Hinj.
  { intros l i j t Hn H1 H2. rewrite NoDup_nth_error in Hn. apply Hn; [apply nth_error_Some; congruence|congruence]. }
  constructor; auto.
  - intros c H. destruct (Hc' c H) as (_ & _ & E). now rewrite E at 1.
  - intros c H. destruct (Hc' c H) as (H1 & H2 & _). split; intros t Ht; [rewrite <- Pi1|rewrite <- Pl1]; apply in_concat; eauto.
  - intros t l Ht Hl. rewrite <- Pi1 in Ht. rewrite <- Pl1 in Hl.
    assert (exactly_one (fun IL : list Z * lead_chunk => memb t (fst IL) && memb l (match snd IL with ChunkArr l => l | _ => [] end)) (map snd os)) as H.
    { rewrite Hs. apply one_count.
      rewrite (count_prod (fun I => memb t I) (fun lc => memb l (match lc with ChunkArr l => l | _ => [] end))), filter_map_length.
      rewrite (count_pieces t ics), (count_pieces l lcs); auto. }
    apply exactly_one_map in H. exact H.
  - intros c c' H1 H2. destruct (Hh c H1) as ((t & A1 & A2) & _ & B1 & _), (Hh c' H2) as ((t' & A1' & A2') & _ & B1' & _). split.
    + intros E. rewrite E in A2. assert (t = t') as <- by congruence. exists t. split; eapply nth_error_In; eauto.
    + intros [u [U1 U2]]. rewrite (HsI c c' u H1 H2 U1 U2) in A1. assert (t = t') as <- by congruence.
      pose proof (Hinj _ _ _ _ Hni A2 A2'). lia.
  - intros c c' H1 H2. destruct (Hh c H1) as (_ & (t & A1 & A2) & _ & B1), (Hh c' H2) as (_ & (t' & A1' & A2') & _ & B1'). split.
    + intros E. rewrite E in A2. assert (t = t') as <- by congruence. exists t. split; eapply nth_error_In; eauto.
    + intros [u [U1 U2]]. rewrite (HsL c c' u H1 H2 U1 U2) in A1. assert (t = t') as <- by congruence.
      pose proof (Hinj _ _ _ _ Hnl A2 A2'). lia.
Qed.

(** ** Aggregating a slice *)
Lemma in_chunkb_iff I L d l : in_chunkb I L d l = true <-> in_chunk I L d l.
Proof.
  unfold in_chunkb, in_chunk. destruct (String.eqb d "init_time") eqn:E1.
  - apply String.eqb_eq in E1. subst. rewrite memb_In. split; [intros; split; auto; discriminate|]. intros [H _]. auto.
  - apply String.eqb_neq in E1. destruct (String.eqb d "lead_time") eqn:E2.
    + apply String.eqb_eq in E2. subst. rewrite memb_In. split; [intros; split; auto; congruence|]. intros [_ H]. auto.
    + apply String.eqb_neq in E2. split; auto. intros _. split; congruence.
Qed.
Lemma slice_names I L a c : time_slice I L a c -> dnames c = dnames a.
Proof. intros (H & _). unfold dnames. rewrite H. unfold chunk_dims. rewrite map_map. reflexivity. Qed.
Lemma slice_labels I L a c d l : time_slice I L a c -> In l (labels_of (dims c) d) <-> In l (labels_of (dims a) d) /\ in_chunk I L d l.
Proof.
  intros (H & _). rewrite H. unfold labels_of, chunk_dims. rewrite (dget_map_snd (fun d ls => filter (in_chunkb I L d) ls)).
  destruct (dget (dims a) d); [|simpl; tauto]. now rewrite filter_In, in_chunkb_iff.
Qed.
Lemma slice_part I L a c : wf c -> time_slice I L a c -> part_of [] I L a c.
Proof.
  intros Hw Hs. split; auto.
  - intros d. now rewrite (slice_names I L a c).
  - intros d l H. now apply (slice_labels I L a c).
  - intros d l _ H1 H2. apply (slice_labels I L a c); auto.
  - apply Hs.
Qed.
Lemma part_weaken b b' I L x y : incl b b' -> part_of b I L x y -> part_of b' I L x y.
Proof. intros Hi [H1 H2 H3 H4 H5]. split; auto. Qed.

Lemma bin_masks_part B bs st c I L :
  (forall b, In b bs -> time_local B (create_bin_mask b)) -> wf st -> wf c -> time_slice I L st c ->
  forall r, bin_masks bs st = Ok r -> exists r', bin_masks bs c = Ok r' /\
    match r, r' with None, None => True | Some ms, Some ms' => Forall2 (part_of B I L) ms ms' | _, _ => False end.
Proof.
  intros Hb Hw Hc Hs. induction bs as [|b bs IH]; intros r Hr; simpl in *.
  - injection Hr as <-. exists (Some []). split; auto.
  - destruct (create_bin_mask b st) as [m|] eqn:Em; simpl in Hr; [|discriminate].
    destruct (Hb b (or_introl eq_refl) st m Hw Em) as (_ & _ & H). destruct (H I L c Hc Hs) as (m' & Em' & Hp). rewrite Em'. cbn [bind].
    assert (forall d, In d (dnames m) <-> In d (dnames m')) as Hd by apply Hp.
    assert (subsetb (filter (fun d => negb (String.eqb d (bin_dim_name b))) (dnames m')) (dnames c) =
            subsetb (filter (fun d => negb (String.eqb d (bin_dim_name b))) (dnames m)) (dnames st)) as ->.
    { rewrite (slice_names I L st c Hs). apply eq_true_iff_eq. rewrite !subsetb_In. split; intros HH d Hdd; apply HH; apply filter_In; apply filter_In in Hdd; destruct Hdd; split; auto; now apply Hd. }
    destruct (subsetb _ _); [|injection Hr as <-; exists None; auto].
    destruct (bin_masks bs st) as [r0|] eqn:E0; [|discriminate]. destruct (IH (fun b' H' => Hb b' (or_intror H')) r0 eq_refl) as (r0' & E0' & HF).
    rewrite E0'. cbn [bind] in *. injection Hr as <-. destruct r0, r0'; try contradiction; eexists; split; auto. simpl. auto.
Qed.
Lemma weights_part B ws st c I L :
  (forall w, In w ws -> time_local B w) -> wf st -> wf c -> time_slice I L st c ->
  forall r, mapM (fun w => w st) ws = Ok r -> exists r', mapM (fun w => w c) ws = Ok r' /\ Forall2 (part_of B I L) r r'.
Proof.
  intros Hb Hw Hc Hs. induction ws as [|w ws IH]; intros r Hr; simpl in *.
  - injection Hr as <-. exists []. auto.
  - destruct (w st) as [m|] eqn:Em; simpl in Hr; [|discriminate].
    destruct (Hb w (or_introl eq_refl) st m Hw Em) as (_ & _ & H). destruct (H I L c Hc Hs) as (m' & Em' & Hp). rewrite Em'. cbn [bind].
    destruct (mapM (fun w => w st) ws) as [r0|] eqn:E0; [|discriminate]. destruct (IH (fun b' H' => Hb b' (or_intror H')) r0 eq_refl) as (r0' & E0' & HF).
    rewrite E0'. cbn [bind] in *. injection Hr as <-. eexists. split; auto.
Qed.

Section Grid.
  Variables (init lead : list Z) (os : list chunk).
  Hypothesis G : grid init lead os.
  Hypothesis Hos : os <> [].
  Definition cI (c : chunk) : list label := map LZ (c_init c).
  Definition cL (c : chunk) : list label := map LZ (c_lead c).
  Variable g : aggregator.
  Variable B : list string.
  Hypothesis HB : forall d, In d B -> ~ time_dim d.
  Hypothesis Hw : forall w, In w (weigh_by g) -> time_local B w.
  Hypothesis Hb : forall b, In b (bin_by g) -> time_local B (create_bin_mask b).
  Variable st : da.
  Hypothesis Hst : wf st.
  Hypothesis Hti : forall l, In l (labels_of (dims st) "init_time") <-> exists t, l = LZ t /\ In t init.
  Hypothesis Htl : forall l, In l (labels_of (dims st) "lead_time") <-> exists t, l = LZ t /\ In t lead.
  Variable stc : chunk -> da.
  Hypothesis Hsl : forall c, In c os -> wf (stc c) /\ time_slice (cI c) (cL c) st (stc c).

  Definition carrs (c : chunk) : list da :=
    match mapM (fun w => w (stc c)) (weigh_by g), bin_masks (bin_by g) (stc c) with
    | Ok ws, Ok (Some ms) => stc c :: ws ++ ms
    | _, _ => []
    end.

  Lemma agg_none : aggregation_fn g st = Ok None -> forall c, In c os -> aggregation_fn g (stc c) = Ok None.
  Proof.
    intros H c Hc. destruct (Hsl c Hc) as [Wc Sc]. unfold aggregation_fn in *. rewrite (slice_names _ _ _ _ Sc).
    destruct (subsetb (reduce_dims g) (dnames st)); [|reflexivity]. cbn [negb] in *.
    destruct (mapM (fun w => w st) (weigh_by g)) as [ws|] eqn:Ew; [|discriminate].
    destruct (weights_part B _ _ _ _ _ Hw Hst Wc Sc ws Ew) as (ws' & -> & _). cbn [bind] in *.
    destruct (nodupb (map bin_dim_name (bin_by g))); [|discriminate]. cbn [negb] in *.
    destruct (bin_masks (bin_by g) st) as [r|] eqn:Em; [|discriminate].
    destruct (bin_masks_part B _ _ _ _ _ Hb Hst Wc Sc r Em) as (r' & -> & HF). cbn [bind] in *.
    destruct r; [discriminate|]. destruct r'; [contradiction|reflexivity].
  Qed.

  Variables (x : da) (ws ms : list da).
  Hypothesis Hx1 : mapM (fun w => w st) (weigh_by g) = Ok ws.
  Hypothesis Hx2 : bin_masks (bin_by g) st = Ok (Some ms).
  Hypothesis Hx3 : incl (reduce_dims g) (dnames st).
  Hypothesis Hx4 : nodupb (map bin_dim_name (bin_by g)) = true.
  Let arrs := st :: ws ++ ms.

  Lemma chunk_arrs c : In c os -> exists ws' ms',
    mapM (fun w => w (stc c)) (weigh_by g) = Ok ws' /\ bin_masks (bin_by g) (stc c) = Ok (Some ms') /\
    carrs c = stc c :: ws' ++ ms' /\
    aggregation_fn g (stc c) = Ok (Some (da_dot (reduce_dims g) (carrs c))) /\
    Forall2 (part_of B (cI c) (cL c)) arrs (carrs c).
  Proof.
    intros Hc. destruct (Hsl c Hc) as [Wc Sc].
    destruct (weights_part B _ _ _ _ _ Hw Hst Wc Sc ws Hx1) as (ws' & E1 & F1).
    destruct (bin_masks_part B _ _ _ _ _ Hb Hst Wc Sc _ Hx2) as (r & E2 & F2). destruct r as [ms'|]; [|contradiction].
    exists ws', ms'. split; auto. split; auto. assert (carrs c = stc c :: ws' ++ ms') as E by (unfold carrs; now rewrite E1, E2).
    split; auto. split.
    - apply agg_fn_Some. rewrite (slice_names _ _ _ _ Sc). split; auto. split; auto. exists ws', ms'. rewrite E. auto.
    - rewrite E. constructor; [|now apply Forall2_app]. apply (part_weaken []); [intros ? []|]. now apply slice_part.
  Qed.
  Lemma full_local a : In a arrs -> wf a /\ (forall d l, time_dim d -> In d (dnames a) -> In l (labels_of (dims st) d) -> In l (labels_of (dims a) d)).
  Proof.
    intros [<-|Ha]; [auto|]. apply in_app_iff in Ha. destruct Ha as [Ha|Ha].
    - assert (exists w, In w (weigh_by g) /\ w st = Ok a) as (w & Iw & Ew).
      { clear - Hx1 Ha. revert ws Hx1 Ha. induction (weigh_by g) as [|w l IH]; intros ws Hx1 Ha; simpl in Hx1; [injection Hx1 as <-; destruct Ha|].
        destruct (w st) eqn:E; [|discriminate]. destruct (mapM (fun w => w st) l) as [r|]; [|discriminate]. cbn [bind] in Hx1. injection Hx1 as <-.
        destruct Ha as [<-|Ha]; [exists w; split; [now left|auto]|]. destruct (IH r eq_refl Ha) as (w' & ? & ?). exists w'. split; auto. now right. }
      destruct (Hw w Iw st a Hst Ew) as (H1 & H2 & _). auto.
    - apply bin_masks_Some in Hx2. destruct Hx2 as [Hm _].
      assert (exists w, In w (bin_by g) /\ create_bin_mask w st = Ok a) as (w & Iw & Ew).
      { clear - Hm Ha. revert ms Hm Ha. induction (bin_by g) as [|w l IH]; intros ms Hx1 Ha; simpl in Hx1; [injection Hx1 as <-; destruct Ha|].
        destruct (create_bin_mask w st) eqn:E; [|discriminate]. destruct (mapM (fun w => create_bin_mask w st) l) as [r|]; [|discriminate]. cbn [bind] in Hx1. injection Hx1 as <-.
        destruct Ha as [<-|Ha]; [exists w; split; [now left|auto]|]. destruct (IH r eq_refl Ha) as (w' & ? & ?). exists w'. split; auto. now right. }
      destruct (Hb w Iw st a Hst Ew) as (H1 & H2 & _). auto.
  Qed.

  Definition inch (c : chunk) (e : env) : bool := memb (e "init_time") (cI c) && memb (e "lead_time") (cL c).

  Lemma memb_LZ t l : memb (LZ t) (map LZ l) = memb t l.
  Proof.
    apply eq_true_iff_eq. rewrite !memb_In, in_map_iff. split; [intros [u [[= ->] H]]; auto|]. eauto.
  Qed.

  (** Missing points have product 0; labels are covered: to be provided. *)
  Hypothesis Hmissing : forall c e, In c os -> point_of (ijoint arrs) e -> inch c e = true -> ~ point_of (ijoint (carrs c)) e ->
    vprod (map (fun a => get a e) arrs) = Fin 0%R.
  Hypothesis Hcover : forall d l, In d B -> In l (labels_of (ijoint arrs) d) -> exists c, In c os /\ In l (labels_of (ijoint (carrs c)) d).

  Lemma some_chunk : exists c, In c os.
  Proof. clear - Hos. destruct os as [|c r]; [congruence|]. exists c. now left. Qed.
  Lemma st_dims : In "init_time" (dnames st) /\ In "lead_time" (dnames st).
  Proof.
    destruct some_chunk as [c Hc].
    destruct (gr_ne _ _ _ G c) as [N1 N2]; auto. destruct (gr_incl _ _ _ G c) as [I1 I2]; auto.
    destruct (c_init c) as [|t r]; [congruence|]. destruct (c_lead c) as [|u r']; [congruence|].
    split; eapply labels_of_In; [apply Hti; exists t|apply Htl; exists u]; split; auto; [apply I1|apply I2]; now left.
  Qed.

  (** Labels of a chunk's join along a dimension that loses nothing. *)
  Lemma cj_labels_all c d l : In c os -> ~ In d B -> In l (labels_of (ijoint arrs) d) -> in_chunk (cI c) (cL c) d l ->
    In l (labels_of (ijoint (carrs c)) d).
  Proof.
    intros Hc Hd Hl Hi. destruct (chunk_arrs c Hc) as (_ & _ & _ & _ & _ & _ & HF). apply ij_labels in Hl. destruct Hl as [Hex Hl].
    apply ij_labels. clear - HF Hd Hl Hi Hex. split.
    - destruct Hex as [a [Ha Hda]]. induction HF as [|u v la lb P HF IH]; [destruct Ha|]. destruct Ha as [<-|Ha].
      + exists v. split; [now left|]. now apply (po_dims _ _ _ _ _ P).
      + destruct IH as [w [? ?]]; auto; [intros; apply Hl; auto; now right|]. exists w. split; auto. now right.
    - intros b Hbb Hdb. clear Hex. induction HF as [|u v la lb P HF IH]; [destruct Hbb|]. destruct Hbb as [<-|Hbb].
      + apply (po_all _ _ _ _ _ P); auto. apply Hl; [now left|]. now apply (po_dims _ _ _ _ _ P).
      + apply IH; auto. intros. apply Hl; auto. now right.
  Qed.
  Lemma cj_labels_time c d l : In c os -> time_dim d -> In l (labels_of (ijoint (carrs c)) d) <-> In l (labels_of (dims st) d) /\ in_chunk (cI c) (cL c) d l.
  Proof.
    intros Hc Hd. destruct (Hsl c Hc) as [Wc Sc]. split.
    - intros H. apply ij_labels in H. destruct H as [_ H]. apply (slice_labels _ _ st (stc c)); auto. apply H.
      + destruct (chunk_arrs c Hc) as (? & ? & _ & _ & -> & _). now left.
      + rewrite (slice_names _ _ _ _ Sc). destruct st_dims. destruct Hd as [->| ->]; auto.
    - intros [H1 H2]. apply cj_labels_all; auto; [intros F; now apply (HB d F)|]. apply ij_labels. split.
      + exists st. split; [now left|]. eapply labels_of_In; eauto.
      + intros a Ha Hda. destruct (full_local a Ha) as [_ F]. auto.
  Qed.

  Theorem chunks_sum : sums_to (da_dot (reduce_dims g) arrs) (map (fun c => da_dot (reduce_dims g) (carrs c)) os).
  Proof.
    destruct st_dims as [D1 D2].
    apply one_go_sums with (inch := inch); auto.
    - intros a Ha. now apply full_local.
    - intros c a Hc Ha. destruct (chunk_arrs c Hc) as (_ & _ & _ & _ & _ & _ & HF). clear - HF Ha.
      induction HF as [|u v la lb P HF IH]; [destruct Ha|]. destruct Ha as [<-|Ha]; auto. apply P.
    - intros c Hc. destruct (chunk_arrs c Hc) as (_ & _ & _ & _ & _ & _ & HF). clear - HF.
      induction HF as [|u v la lb P HF IH]; constructor; auto. split; [apply P|]. split; [intros; now apply (po_labels _ _ _ _ _ P)|apply P].
    - intros e He. assert (point_of (dims st) e) as Hp.
      { eapply ij_point; [|exact He|now left]. intros a Ha. now apply full_local. }
      rewrite point_of_labels in Hp by apply Hst. pose proof (Hp _ D1) as E1. pose proof (Hp _ D2) as E2.
      apply Hti in E1. apply Htl in E2. destruct E1 as (t & E1 & T1), E2 as (l & E2 & L1).
      pose proof (gr_one _ _ _ G t l T1 L1) as H. unfold inch, cI, cL. rewrite E1, E2.
      destruct H as (l1 & c & l2 & H1 & H2 & H3). exists l1, c, l2. split; auto. rewrite !memb_LZ. split; auto. intros z Hz. rewrite !memb_LZ. auto.
    - intros c e Hc He. destruct (Hsl c Hc) as [Wc Sc]. destruct (chunk_arrs c Hc) as (ws' & ms' & _ & _ & E & _ & HF).
      assert (point_of (dims (stc c)) e) as Hp.
      { eapply ij_point; [|exact He|rewrite E; now left]. intros a Ha. clear - HF Ha.
        induction HF as [|u v la lb P HF IH]; [destruct Ha|]. destruct Ha as [<-|Ha]; auto. apply P. }
      rewrite point_of_labels in Hp by apply Wc. fold (dnames (stc c)) in Hp. rewrite (slice_names _ _ _ _ Sc) in Hp.
      pose proof (Hp _ D1) as E1. pose proof (Hp _ D2) as E2. apply (slice_labels _ _ _ _ _ _ Sc) in E1, E2.
      unfold inch. apply andb_true_iff. rewrite !memb_In. split; [now apply E1|now apply E2].
    - intros d l Hl. destruct (in_dec string_dec d B) as [HdB|HdB]; [now apply Hcover|].
      destruct (memb d excl) eqn:Et.
      + apply excl_time in Et. pose proof Hl as Hl'. apply ij_labels in Hl'. destruct Hl' as [_ Hl'].
        destruct Et as [->| ->].
        * specialize (Hl' st (or_introl eq_refl) D1). apply Hti in Hl'. destruct Hl' as (t & -> & Ht).
          destruct some_chunk as [c0 H0].
          destruct (gr_ne _ _ _ G c0 H0) as [_ N2]. destruct (c_lead c0) as [|l0 r] eqn:E0; [congruence|].
          destruct (gr_one _ _ _ G t l0 Ht) as (l1 & c & l2 & H1 & H2 & H3); [apply (gr_incl _ _ _ G c0 H0); rewrite E0; now left|].
          assert (In c os) as Hc by (rewrite H1; apply in_app_iff; right; now left). exists c. split; auto. apply cj_labels_all; auto.
          apply andb_true_iff in H2. destruct H2 as [H2 _]. apply memb_In in H2. split; [intros _; now apply in_map|discriminate].
        * specialize (Hl' st (or_introl eq_refl) D2). apply Htl in Hl'. destruct Hl' as (t & -> & Ht).
          destruct some_chunk as [c0 H0].
          destruct (gr_ne _ _ _ G c0 H0) as [N2 _]. destruct (c_init c0) as [|l0 r] eqn:E0; [congruence|].
          destruct (gr_one _ _ _ G l0 t) as (l1 & c & l2 & H1 & H2 & H3); [apply (gr_incl _ _ _ G c0 H0); rewrite E0; now left|auto|].
          assert (In c os) as Hc by (rewrite H1; apply in_app_iff; right; now left). exists c. split; auto. apply cj_labels_all; auto.
          apply andb_true_iff in H2. destruct H2 as [_ H2]. apply memb_In in H2. split; [discriminate|intros _; now apply in_map].
      + apply excl_not_time in Et. destruct some_chunk as [c0 H0].
        exists c0. split; auto. apply cj_labels_all; auto. split; intros ->; exfalso; apply Et; [now left|now right].
  Qed.

  Lemma comp_facts c : In c os ->
    wf (da_dot (reduce_dims g) (carrs c)) /\ same_dims (da_dot (reduce_dims g) arrs) (da_dot (reduce_dims g) (carrs c)) /\
    (forall d, time_dim d -> (In d (dnames (da_dot (reduce_dims g) (carrs c))) <-> ~ In d (reduce_dims g))) /\
    (forall d l, time_dim d -> In d (dnames (da_dot (reduce_dims g) (carrs c))) ->
       (In l (labels_of (dims (da_dot (reduce_dims g) (carrs c))) d) <-> in_chunk (cI c) (cL c) d l)).
  Proof.
    intros Hc. destruct (chunk_arrs c Hc) as (ws' & ms' & _ & _ & E & _ & HF).
    assert (forall a, In a (carrs c) -> wf a) as Hcw.
    { clear - HF. intros a Ha. induction HF as [|u v la lb P HF IH]; [destruct Ha|]. destruct Ha as [<-|Ha]; auto. apply P. }
    assert (forall d, In d (map fst (ijoint (carrs c))) <-> In d (map fst (ijoint arrs))) as Hn.
    { intros d. rewrite !ij_names. clear - HF. split; intros [a [Ha Hd]].
      - induction HF as [|u v la lb P HF IH]; [destruct Ha|]. destruct Ha as [<-|Ha]; [exists u; split; [now left|now apply (po_dims _ _ _ _ _ P)]|].
        destruct (IH Ha) as [z [? ?]]. exists z. split; auto. now right.
      - induction HF as [|u v la lb P HF IH]; [destruct Ha|]. destruct Ha as [<-|Ha]; [exists v; split; [now left|now apply (po_dims _ _ _ _ _ P)]|].
        destruct (IH Ha) as [z [? ?]]. exists z. split; auto. now right. }
    destruct st_dims as [D1 D2].
    split; [now apply dot_wf|]. split; [|split].
    - intros d. unfold dnames. rewrite !dims_dot, !keep_names, Hn. tauto.
    - intros d Hd. unfold dnames. rewrite dims_dot, keep_names, Hn, negb_true_iff, memb_false. split; [tauto|]. intros HR. split; auto.
      apply ij_names. exists st. split; [now left|]. destruct Hd as [->| ->]; auto.
    - intros d l Hd Hdn. unfold dnames in Hdn. rewrite dims_dot, keep_names in Hdn. destruct Hdn as [_ Hm]. rewrite dims_dot, labels_keep, Hm, cj_labels_time by auto.
      split; [tauto|]. intros Hi. split; auto. destruct (gr_incl _ _ _ G c Hc) as [I1 I2]. destruct Hd as [->| ->].
      + apply Hti. destruct Hi as [Hi _]. specialize (Hi eq_refl). apply in_map_iff in Hi. destruct Hi as (t & <- & Ht). exists t. auto.
      + apply Htl. destruct Hi as [_ Hi]. specialize (Hi eq_refl). apply in_map_iff in Hi. destruct Hi as (t & <- & Ht). exists t. auto.
  Qed.
End Grid.
