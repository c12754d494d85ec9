(** Discharging the side conditions: time-local weights and bins; bins whose labels depend
    on the chunk. *)
From Coq Require Import String ZArith Bool List Permutation Lia Arith.
Import ListNotations.
From Verif Require Import Prelude Values Model_XArray Spec_XArray Proofs_XArray Model_Tree Spec_Tree Proofs_Tree
  Model_TimeChunks Spec_TimeChunks Proofs_TimeChunks Model_MetricsBase
  Model_Aggregation Spec_Aggregation Spec_Aggregator Proofs_AggState Proofs_Aggregator Proofs_Aggregator2
  Model_Beam Spec_Beam Proofs_Beam Proofs_Beam2 Proofs_Beam3 Proofs_Beam4 Proofs_Beam5 Proofs_Beam6 Proofs_Beam7 Proofs_Beam8.
From Coq Require Import Reals.
Local Open Scope string_scope.
Local Open Scope list_scope.

Lemma safe_both init lead os g B st stc : grid init lead os -> os <> [] -> wf st -> mask_local st ->
  (forall c, In c os -> wf (stc c) /\ time_slice (cI c) (cL c) st (stc c)) ->
  (forall p q, wf p -> (forall c, In c os -> wf (q c) /\ time_slice (cI c) (cL c) p (q c)) -> dims p = dims st ->
     (p = fst (prepare g st) /\ q = (fun c => fst (prepare g (stc c))) \/ p = snd (prepare g st) /\ q = (fun c => snd (prepare g (stc c)))) -> safe os g B p q) ->
  safe os g B (fst (prepare g st)) (fun c => fst (prepare g (stc c))) /\ safe os g B (snd (prepare g st)) (fun c => snd (prepare g (stc c))).
Proof.
  intros G Nos Hst Hml Hsl H. destruct (prepare_wf g st Hst Hml) as [P1 P2]. destruct (prepare_dims g st) as [D1 D2].
  split; apply H; auto; intros c Hc; destruct (Hsl c Hc) as [W S]; destruct (prepare_slice g _ _ st (stc c) Hml Hst W S) as [(_ & ? & ?) (_ & ? & ?)]; auto.
Qed.

Section A.
  Variables (init lead : list Z) (isz lsz : option Z) (tc : time_chunks) (pl tl : loader)
    (metrics : dict string (metric da)) (g : aggregator) (full : dict string (vars da)) (s : state).
  Hypothesis E : chunked_evaluation init lead isz lsz tc pl tl metrics g full s.
  Hypothesis Hw : forall w, In w (weigh_by g) -> time_local [] w.
  Hypothesis Hb : forall b, In b (bin_by g) -> time_local [] (create_bin_mask b).

  Lemma A_safe os : grid init lead os -> map snd os = tc_iter tc -> forall k v st stc, stat full k v = Some st -> (forall c, In c os -> wf (stc c) /\ time_slice (cI c) (cL c) st (stc c)) ->
     safe os g [] (fst (prepare g st)) (fun c => fst (prepare g (stc c))) /\ safe os g [] (snd (prepare g st)) (fun c => snd (prepare g (stc c))).
  Proof.
    intros G Em k v st stc Hk Hsl. destruct (ce_vars _ _ _ _ _ _ _ _ _ _ _ E k v st Hk) as (H1 & H2 & H3).
    destruct os as [|c0 os0] eqn:Eo; [split; intros _ _ ws ms _ _; (split; [intros c e []|intros d l []])|]. rewrite <- Eo in *.
    eapply safe_both; eauto; [rewrite Eo; discriminate|]. intros p q Wp Wq _ _. eapply safe_nil; eauto.
  Qed.
  Theorem pipeline_time_local : (exists out, pipeline_states tc pl tl metrics g out) /\
    forall out, pipeline_states tc pl tl metrics g out -> agrees out s.
  Proof.
    pose proof E as E0. destruct E0. split.
    - eapply (pipeline_runs init lead isz lsz tc) with (B := []); eauto; try apply A_safe; intros d F; destruct F.
    - intros out Ho. eapply (pipeline_direct init lead isz lsz tc) with (B := []); eauto; try apply A_safe; intros d F; destruct F.
  Qed.
End A.

Lemma point_ijoint arrs e : (forall a, In a arrs -> wf a) -> point_of (ijoint arrs) e <-> forall a, In a arrs -> point_of (dims a) e.
Proof.
  intros Hw. split.
  - intros H a Ha. eapply ij_point; [|exact H|exact Ha]. intros b Hbb. now apply Hw.
  - intros H. rewrite point_of_labels by (apply ij_NoDup; intros; now apply Hw). intros d Hd. apply ij_names in Hd. apply ij_labels. split; auto.
    intros a Ha Hda. specialize (H a Ha). rewrite point_of_labels in H by apply (Hw a Ha). now apply H.
Qed.

Lemma vprod_zero l : In (Fin 0%R) l -> (forall x, In x l -> exists r, x = Fin r) -> vprod l = Fin 0%R.
Proof.
  intros Hin Hf. assert (forall m, (forall x, In x m -> exists r, x = Fin r) -> exists r, vprod m = Fin r) as Hfin.
  { induction m as [|x m IH]; intros H; [exists 1%R; reflexivity|]. destruct (H x (or_introl eq_refl)) as [r ->]. destruct IH as [r' E]; [intros; apply H; now right|].
    exists (r * r')%R. change (vprod (Fin r :: m)) with (vmul (Fin r) (vprod m)). rewrite E. reflexivity. }
  induction l as [|x l IH]; [destruct Hin|]. change (vprod (x :: l)) with (vmul x (vprod l)). destruct Hin as [->|Hin].
  - destruct (Hfin l) as [r ->]; [intros; apply Hf; now right|]. cbn. f_equal. apply Rmult_0_l.
  - rewrite IH by (auto; intros; apply Hf; now right). destruct (Hf x (or_introl eq_refl)) as [r ->]. cbn. f_equal. apply Rmult_0_r.
Qed.

Lemma nodupb_NoDup l : nodupb l = true -> NoDup l.
Proof.
  induction l as [|x l IH]; simpl; [constructor|]. rewrite andb_true_iff, negb_true_iff. intros [H1 H2]. constructor; auto. now apply memb_false.
Qed.
Lemma mapM_In {X Y} (f : X -> result Y) l r : mapM f l = Ok r -> forall y, In y r -> exists x, In x l /\ f x = Ok y.
Proof.
  revert r. induction l as [|x l IH]; intros r H y Hy; simpl in H; [injection H as <-; destruct Hy|].
  destruct (f x) as [a|] eqn:Ea; [|discriminate]. destruct (mapM f l) as [r'|] eqn:Er; [|discriminate]. injection H as <-.
  destruct Hy as [<-|Hy]; [exists x; split; [now left|auto]|]. destruct (IH r' eq_refl y Hy) as (x' & ? & ?). exists x'. split; auto. now right.
Qed.
Lemma mapM_defined {X Y} (f : X -> result Y) l r : mapM f l = Ok r -> forall x, In x l -> exists y, In y r /\ f x = Ok y.
Proof.
  revert r. induction l as [|x l IH]; intros r H y Hy; simpl in H; [destruct Hy|].
  destruct (f x) as [a|] eqn:Ea; [|discriminate]. destruct (mapM f l) as [r'|] eqn:Er; [|discriminate]. injection H as <-.
  destruct Hy as [<-|Hy]; [exists a; split; [now left|auto]|]. destruct (IH r' eq_refl y Hy) as (x' & ? & ?). exists x'. split; auto. now right.
Qed.
Section Bb.
  Variables (init lead : list Z) (isz lsz : option Z) (tc : time_chunks) (pl tl : loader)
    (metrics : dict string (metric da)) (g : aggregator) (full : dict string (vars da)) (s : state).
  Hypothesis E : chunked_evaluation init lead isz lsz tc pl tl metrics g full s.
  Hypothesis Hw : forall w, In w (weigh_by g) -> time_local [] w.
  Hypothesis Hb : forall b, In b (bin_by g) -> ~ time_dim (bin_dim_name b) /\ time_local [bin_dim_name b] (create_bin_mask b) /\ zero_where_missing (create_bin_mask b).
  Hypothesis Hv : forall k v st, stat full k v = Some st -> varying_bins (tc_iter tc) g st.
  Let B := map bin_dim_name (bin_by g).

  Lemma time_local_weaken b b' f : incl b b' -> time_local b f -> time_local b' f.
  Proof.
    intros Hi H a x Wa Ex. destruct (H a x Wa Ex) as (H1 & H2 & H3). split; auto. split; auto. intros I L c Wc Sc.
    destruct (H3 I L c Wc Sc) as (y & Ey & P). exists y. split; auto. eapply part_weaken; eauto.
  Qed.
  Lemma B_w w : In w (weigh_by g) -> time_local B w.
  Proof. intros H. eapply time_local_weaken; [|apply Hw; auto]. intros ? []. Qed.
  Lemma B_b b : In b (bin_by g) -> time_local B (create_bin_mask b).
  Proof. intros H. eapply time_local_weaken; [|apply Hb; auto]. intros d [<-|[]]. now apply in_map. Qed.

  Lemma B_one os p q st : grid init lead os -> map snd os = tc_iter tc ->
    varying_bins (tc_iter tc) g st -> wf st -> wf p -> dims p = dims st -> aux p = aux st ->
    (forall e, point_of (dims p) e -> exists r, get p e = Fin r) ->
    (forall c, In c os -> wf (q c) /\ time_slice (cI c) (cL c) p (q c)) -> safe os g B p q.
  Proof.
    intros G Em V Wst Wp Dp Ap Fp Hq R1 R2 ws ms E1 E2.
    apply bin_masks_Some in E2. destruct E2 as [E2 HM].
    assert (forall w, In w (weigh_by g) -> w p = w st) as PW by (intros w Iw; now apply (vb_coords_w _ _ _ V)).
    assert (forall b, In b (bin_by g) -> create_bin_mask b p = create_bin_mask b st) as PB by (intros b Ib; now apply (vb_coords_b _ _ _ V)).
    assert (forall a, In a ws -> exists w, In w (weigh_by g) /\ w p = Ok a) as IW by (intros a Ha; eapply mapM_In; eauto).
    assert (forall a, In a ms -> exists b, In b (bin_by g) /\ create_bin_mask b p = Ok a) as IM by (intros a Ha; destruct (mapM_In _ _ _ E2 a Ha) as (b & ? & ?); eauto).
    assert (forall b a d, In b (bin_by g) -> create_bin_mask b p = Ok a -> In d (dnames a) -> d <> bin_dim_name b -> In d (dnames p)) as HMd.
    { clear - HM E2. intros b a d Ib Ea. revert ms E2 HM. induction (bin_by g) as [|b0 l IH]; intros ms E2 HM; [destruct Ib|]. simpl in E2.
      destruct (create_bin_mask b0 p) as [a0|] eqn:E0; [|discriminate]. destruct (mapM _ l) as [r|] eqn:Er; [|discriminate]. injection E2 as <-.
      inversion HM; subst. destruct Ib as [->|Ib]; [assert (a0 = a) as <- by congruence; auto|]. now apply (IH Ib r). }
    assert (forall a, In a (p :: ws ++ ms) -> wf a) as Wa.
    { intros a Ha. eapply (full_local g B B_w B_b p Wp ws ms E1); eauto. apply bin_masks_Some. auto. }
    assert (forall c, In c os -> exists ws' ms', mapM (fun w => w (q c)) (weigh_by g) = Ok ws' /\ mapM (fun b => create_bin_mask b (q c)) (bin_by g) = Ok ms' /\
       carrs g q c = q c :: ws' ++ ms' /\ forall a, In a (carrs g q c) -> wf a) as HC.
    { intros c Hc. destruct (chunk_arrs os g B B_w B_b p Wp q Hq ws ms E1 (proj2 (bin_masks_Some _ _ _) (conj E2 HM)) R1 R2 c Hc) as (ws' & ms' & A1 & A2 & A3 & _ & HF).
      exists ws', ms'. apply bin_masks_Some in A2. destruct A2 as [A2 _]. repeat (split; [assumption|]).
      clear - HF. intros a Ha. induction HF as [|u v la lb P HF IH]; [destruct Ha|]. destruct Ha as [<-|Ha]; auto. apply P. }
    split.
    - intros c e Hc He Hi Hn. rewrite point_ijoint in He by exact Wa. destruct (HC c Hc) as (ws' & ms' & A1 & A2 & A3 & Wc). rewrite point_ijoint in Hn by exact Wc.
      destruct (Hq c Hc) as [Wqc Sqc].
      assert (forall d, in_chunk (cI c) (cL c) d (e d)) as Hch.
      { intros d. unfold inch in Hi. apply andb_true_iff in Hi. rewrite !memb_In in Hi. destruct Hi. split; intros ->; auto. }
      assert (forall x y, wf x -> part_of [] (cI c) (cL c) x y -> point_of (dims x) e -> point_of (dims y) e) as Hpt.
      { intros x y Wx P Hx. rewrite point_of_labels in Hx by apply Wx. rewrite point_of_labels by apply (po_wf _ _ _ _ _ P). intros d Hd'. apply (po_all _ _ _ _ _ P); auto. apply Hx. now apply (po_dims _ _ _ _ _ P). }
      assert (forall l, (forall a, In a l -> In a (p :: ws ++ ms) -> exists r, get a e = Fin r) -> True) as _ by auto.
      assert (forall a, In a (p :: ws ++ ms) -> exists r, get a e = Fin r) as Hfin.
      { intros a Ha. pose proof (He a Ha) as Hea. destruct Ha as [<-|Ha]; [auto|]. apply in_app_iff in Ha. destruct Ha as [Ha|Ha].
        - destruct (IW a Ha) as (w & Iw & Ew). rewrite PW in Ew by auto. eapply (vb_weights _ _ _ V); eauto.
        - destruct (IM a Ha) as (b & Ib & Eb). rewrite PB in Eb by auto. eapply (vb_masks _ _ _ V); eauto. }
      assert (exists m, In m ms /\ get m e = Fin 0%R) as (m & Im & Em0).
      { destruct (existsb (fun m => match get m e with Fin r => if Req_EM_T r 0 then true else false | _ => false end) ms) eqn:Ex.
        - apply existsb_exists in Ex. destruct Ex as (m & Im & Hm). exists m. split; auto. destruct (get m e); try discriminate. destruct (Req_EM_T r 0); [now subst|discriminate].
        - exfalso. apply Hn. rewrite A3. intros a [<-|Ha]; [|apply in_app_iff in Ha; destruct Ha as [Ha|Ha]].
          + apply (Hpt p); auto; [now apply slice_part|apply He; now left].
          + destruct (mapM_In _ _ _ A1 a Ha) as (w & Iw & Ew).
            destruct (mapM_defined _ _ _ E1 w Iw) as (a0 & Ia0 & Ea0). destruct (Hw w Iw p a0 Wp Ea0) as (W0 & _ & H0). destruct (H0 _ _ _ Wqc Sqc) as (y & Ey & P).
            assert (y = a) as -> by congruence. apply (Hpt a0); auto. apply He. right. apply in_app_iff. now left.
          + destruct (mapM_In _ _ _ A2 a Ha) as (b & Ib & Eb). cbn beta in Eb.
            destruct (mapM_defined _ _ _ E2 b Ib) as (a0 & Ia0 & Ea0). cbn beta in Ea0. destruct (Hb b Ib) as (_ & _ & Z).
            assert (point_of (dims a) e \/ ~ point_of (dims a) e) as [|NP] by (destruct (in_box (dims a) e) eqn:EB; [left; now apply in_box_iff|right; intros F; apply in_box_iff in F; congruence]); auto.
            exfalso. assert (get a0 e = Fin 0%R) as Z0.
            { apply (Z p a0 (cI c) (cL c) (q c) a e); auto. apply He. right. apply in_app_iff. now right. }
            assert (existsb (fun m => match get m e with Fin r => if Req_EM_T r 0 then true else false | _ => false end) ms = true); [|congruence].
            apply existsb_exists. exists a0. split; auto. rewrite Z0. destruct (Req_EM_T 0 0); congruence. }
      apply vprod_zero.
      + rewrite <- Em0. apply (in_map (fun a => get a e)). right. apply in_app_iff. now right.
      + intros x Hx. apply in_map_iff in Hx. destruct Hx as (a & <- & Ha). auto.
    - intros d l HdB Hl. apply in_map_iff in HdB. destruct HdB as (b & <- & Ib). set (d := bin_dim_name b) in *.
      pose proof (labels_of_In _ _ _ Hl) as Hd0. apply ij_names in Hd0. destruct Hd0 as (a & Ha & Hda).
      destruct (vb_dims _ _ _ V b Ib) as [V1 V2]. fold d in V1, V2.
      assert (~ In d (dnames p)) as V1' by (unfold dnames in *; now rewrite Dp).
      assert (forall b' a', In b' (bin_by g) -> create_bin_mask b' p = Ok a' -> In d (dnames a') -> b' = b) as Huni.
      { intros b' a' Ib' Ea' Hd'. assert (bin_dim_name b' = d) as En.
        { destruct (string_dec d (bin_dim_name b')); auto. exfalso. apply V1'. now apply (HMd b' a'). }
        apply nodupb_NoDup in R2. clear - R2 En Ib Ib'. unfold d in En. induction (bin_by g) as [|b0 r IH]; [destruct Ib|]. simpl in R2. inversion R2; subst.
        destruct Ib as [->|Ib], Ib' as [->|Ib']; auto; exfalso; apply H1; [rewrite <- En|rewrite En]; now apply in_map. }
      assert (In l (labels_of (dims a) d)) as Hla by (apply ij_labels in Hl; now apply Hl).
      assert (create_bin_mask b p = Ok a) as Eb.
      { destruct Ha as [<-|Ha]; [contradiction|]. apply in_app_iff in Ha. destruct Ha as [Ha|Ha].
        - exfalso. destruct (IW a Ha) as (w & Iw & Ew). rewrite PW in Ew by auto. now apply (V2 w a).
        - destruct (IM a Ha) as (b' & Ib' & Eb'). now rewrite (Huni b' a Ib' Eb' Hda) in Eb'. }
      assert (create_bin_mask b st = Ok a) as Ebs by (rewrite <- PB; auto).
      destruct (vb_met _ _ _ V b Ib a l Ebs Hla) as (I & L & Hin & Hmet). rewrite <- Em in Hin. apply in_map_iff in Hin. destruct Hin as (c & Ec & Hc).
      exists c. split; auto. destruct (HC c Hc) as (ws' & ms' & A1 & A2 & A3 & Wc). destruct (Hq c Hc) as [Wqc Sqc].
      assert (cI c = map LZ I /\ cL c = map LZ L) as [EI EL] by (unfold cI, cL, c_init, c_lead; rewrite Ec; auto).
      set (qs := mkDa (dims (q c)) (get st) (aux (q c))).
      assert (wf qs) as Wqs.
      { destruct Wqc as (X1 & X2 & _), Wst as (_ & _ & X3). split; [exact X1|]. split; [exact X2|]. intros e e' He. apply X3. intros d' Hd'. apply He.
        unfold qs, dnames. cbn [dims]. destruct Sqc as (SS & _). rewrite SS. unfold chunk_dims. rewrite map_map. cbn [fst]. rewrite Dp. exact Hd'. }
      assert (time_slice (map LZ I) (map LZ L) st qs) as Sqs.
      { destruct Sqc as (SS1 & SS2 & _). rewrite <- EI, <- EL. split; [|split].
        - unfold qs. cbn [dims]. now rewrite SS1, Dp. - unfold qs. cbn [aux]. now rewrite SS2, Ap. - intros; reflexivity. }
      assert (create_bin_mask b qs = create_bin_mask b (q c)) as EQ by (now apply (vb_coords_b _ _ _ V)).
      destruct (mapM_defined _ _ _ A2 b Ib) as (y & Iy & Ey). cbn beta in Ey.
      pose proof (Hmet qs y Wqs Sqs (eq_trans EQ Ey)) as Hly. fold d in Hly.
      apply ij_labels. split.
      + exists y. split; [rewrite A3; right; apply in_app_iff; now right|]. eapply labels_of_In; eauto.
      + rewrite A3. intros a' Ha' Hd'. destruct Ha' as [<-|Ha'].
        * exfalso. apply V1'. now rewrite <- (slice_names _ _ _ _ Sqc).
        * apply in_app_iff in Ha'. destruct Ha' as [Ha'|Ha'].
          -- exfalso. destruct (mapM_In _ _ _ A1 a' Ha') as (w & Iw & Ew). destruct (mapM_defined _ _ _ E1 w Iw) as (a0 & Ia0 & Ea0).
             destruct (Hw w Iw p a0 Wp Ea0) as (_ & _ & H0). destruct (H0 _ _ _ Wqc Sqc) as (y' & Ey' & P). assert (y' = a') as -> by congruence.
             apply (V2 w a0); auto; [now rewrite <- PW|]. now apply (po_dims _ _ _ _ _ P).
          -- destruct (mapM_In _ _ _ A2 a' Ha') as (b' & Ib' & Eb'). cbn beta in Eb'. destruct (mapM_defined _ _ _ E2 b' Ib') as (a0 & Ia0 & Ea0). cbn beta in Ea0.
             destruct (Hb b' Ib') as (_ & TL & _). destruct (TL p a0 Wp Ea0) as (_ & _ & H0). destruct (H0 _ _ _ Wqc Sqc) as (y' & Ey' & P). assert (y' = a') as -> by congruence.
             assert (b' = b) as -> by (apply (Huni b' a0); auto; now apply (po_dims _ _ _ _ _ P)). assert (a' = y) as -> by congruence. exact Hly.
  Qed.

  Lemma B_safe os : grid init lead os -> map snd os = tc_iter tc -> forall k v st stc, stat full k v = Some st -> (forall c, In c os -> wf (stc c) /\ time_slice (cI c) (cL c) st (stc c)) ->
     safe os g B (fst (prepare g st)) (fun c => fst (prepare g (stc c))) /\ safe os g B (snd (prepare g st)) (fun c => snd (prepare g (stc c))).
  Proof.
    intros G Em k v st stc Hk Hsl. destruct (ce_vars _ _ _ _ _ _ _ _ _ _ _ E k v st Hk) as (H1 & H2 & H3). pose proof (Hv k v st Hk) as V.
    assert (os <> []) as Nos.
    { intros ->. destruct (ce_ne _ _ _ _ _ _ _ _ _ _ _ E) as [N1 N2]. destruct init as [|t r]; [congruence|]. destruct lead as [|l r']; [congruence|].
      destruct (gr_one _ _ _ G t l) as (l1 & c & l2 & F & _); try now left. now destruct l1. }
    destruct (prepare_aux g st (vb_spans _ _ _ V)) as [X1 X2].
    eapply safe_both; eauto. intros p q Wp Wq Dp Hp. eapply B_one; eauto.
    - destruct Hp as [[-> _]|[-> _]]; auto.
    - intros e He. rewrite Dp in He. destruct Hp as [[-> _]|[-> _]].
      + rewrite prepare_get. destruct (counted g st e) eqn:Ec; [now apply (vb_finite _ _ _ V)|eauto].
      + rewrite prepare_mask. unfold b2v. destruct (counted g st e); eauto.
  Qed.
  Theorem pipeline_varying_bins : (exists out, pipeline_states tc pl tl metrics g out) /\
    forall out, pipeline_states tc pl tl metrics g out -> agrees out s.
  Proof.
    assert (forall d, In d B -> ~ time_dim d) as HBt by (intros d Hd; apply in_map_iff in Hd; destruct Hd as (b & <- & Ib); now apply Hb).
    pose proof E as E0. destruct E0. split.
    - eapply (pipeline_runs init lead isz lsz tc) with (B := B); eauto; first [apply B_w|apply B_b|apply B_safe].
    - intros out Ho. eapply (pipeline_direct init lead isz lsz tc) with (B := B); eauto; first [apply B_w|apply B_b|apply B_safe].
  Qed.
End Bb.
