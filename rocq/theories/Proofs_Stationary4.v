(** The stationary bootstrap of all elements of one variable. *)
From Coq Require Import String ZArith List Bool Reals Lia Lra.
Import ListNotations.
From Verif Require Import Prelude Values Model_XArray Spec_XArray Proofs_XArray Spec_Reduce Proofs_Reduce Model_Tree Model_MetricsBase Model_Aggregation
  Model_Ensemble Proofs_Ensemble Proofs_Ensemble2 Proofs_Deterministic Proofs_Beam9 Proofs_AggState
  Model_Baseline Model_Bootstrap Spec_Bootstrap Props_Bootstrap Model_Resample Spec_Resample Proofs_Resample Props_Resample Proofs_Baseline Proofs_TTest Props_Slices Model_Autodiff
  Model_Stationary Spec_Stationary Proofs_Stationary Proofs_Stationary2 Proofs_Stationary3.
Local Open Scope R_scope.
Local Open Scope list_scope.

(** ** Slices *)
Definition cut (D : list string) (idx : list nat) (k : string) (ls : list label) : list label :=
  match dget (combine D idx) k with Some i => match nth_error ls i with Some l => [l] | None => [] end | None => ls end.
Lemma dget_slice D idx a k : dget (dims (slice_arg D idx a)) k = option_map (cut D idx k) (dget (dims a) k).
Proof.
  unfold slice_arg, cut. cbn [dims]. induction (dims a) as [|[n m] ds IH]; [reflexivity|]. cbn [map dget fst snd].
  destruct (dget (combine D idx) n) as [i|] eqn:E; cbn [dget fst]; destruct (eq_dec k n) as [->|]; auto; cbn [option_map]; now rewrite E.
Qed.
Lemma names_slice D idx a : dnames (slice_arg D idx a) = dnames a.
Proof. unfold dnames, slice_arg. cbn [dims]. rewrite map_map. apply map_ext. intros [n m]. cbn. now destruct (dget (combine D idx) n). Qed.
Lemma wf_slice D idx a : wf a -> wf (slice_arg D idx a).
Proof.
  intros (W1 & W2 & W3). split; [|split].
  - now rewrite names_slice.
  - intros k ls I. unfold slice_arg in I. cbn [dims] in I. apply in_map_iff in I. destruct I as ([n m] & E & I). cbn [fst snd] in E.
    destruct (dget (combine D idx) n) as [i|]; injection E as <- <-; [|now apply (W2 n)]. destruct (nth_error m i); constructor; [intros []|constructor].
  - rewrite names_slice. exact W3.
Qed.
Lemma labelled_slice D idx lab a : labelled lab a -> labelled (fun k => cut D idx k (lab k)) (slice_arg D idx a).
Proof. intros L k l. rewrite dget_slice. destruct (dget (dims a) k) as [m|] eqn:E; [|discriminate]. cbn [option_map]. intros [= <-]. now rewrite (L _ _ E). Qed.
Lemma combine_None (D : list string) (idx : list nat) k : ~ In k D -> dget (combine D idx) k = None.
Proof. intros N. destruct (dget (combine D idx) k) eqn:E; auto. apply dget_In in E. apply in_combine_l in E. contradiction. Qed.
Lemma unit_slice_arg D idx d ls a : ~ In d D -> unit_array d ls a -> unit_array d ls (slice_arg D idx a).
Proof. intros N [W E]. split; [now apply wf_slice|]. rewrite dget_slice, E. cbn [option_map]. unfold cut. now rewrite combine_None. Qed.
Lemma along_slice D idx a d e ls : ~ In d D -> dget (dims a) d = Some ls -> along (slice_arg D idx a) d e = along a d e.
Proof.
  intros N E. unfold along, labels_of. rewrite dget_slice, E. cbn [option_map]. unfold cut. rewrite combine_None by auto. reflexivity.
Qed.
Lemma index_tuple_of (D : list string) (lab : string -> list label) (e : env) : (forall k, In k D -> In (e k) (lab k)) ->
  index_tuple (map (fun k => length (lab k)) D) (map (fun k => index_of (e k) (lab k)) D).
Proof.
  unfold index_tuple. induction D as [|k D IH]; intros H; cbn [map]; constructor; [|apply IH; intros; apply H; now right].
  assert (In (e k) (lab k)) as I by (apply H; now left). generalize (lab k), (e k), I. clear. intros l x I. induction l as [|y l IH]; [destruct I|]. cbn [index_of length].
  destruct (eq_dec x y); [lia|]. destruct I as [->|I]; [congruence|]. apply IH in I. lia.
Qed.
Lemma nth_index_of (l : list label) x : In x l -> nth_error l (index_of x l) = Some x.
Proof. intros I. induction l as [|y l IH]; [destruct I|]. cbn [index_of]. destruct (eq_dec x y) as [->|]; [reflexivity|]. cbn. apply IH. destruct I; congruence. Qed.
Lemma dget_combine_map (D : list string) (f : string -> nat) k : In k D -> dget (combine D (map f D)) k = Some (f k).
Proof. induction D as [|x D IH]; [intros []|]. cbn [map combine dget]. destruct (eq_dec k x) as [->|]; [auto|]. intros [->|I]; [congruence|auto]. Qed.

Lemma cut_in D lab idx k : index_tuple (map (fun x => length (lab x)) D) idx -> In k D -> exists l, cut D idx k (lab k) = [l] /\ In l (lab k).
Proof.
  unfold index_tuple, cut. revert idx. induction D as [|x D IH]; intros idx H I; [destruct I|]. cbn [map] in H. inversion H as [|i n idx' sh Hi HF]; subst.
  cbn [combine dget]. destruct (eq_dec k x) as [->|].
  - destruct (nth_error (lab x) i) as [l|] eqn:E; [|apply nth_error_None in E; lia]. exists l. split; auto. eapply nth_error_In; eauto.
  - apply IH; auto. destruct I; congruence.
Qed.

Section Slices.
  Variable d : string.
  Variable r : nat.
  Variable given : option R.
  Variable resolution : option R.
  Variable size : nat.
  Variable arch : list val -> result (option R).
  Variable draw : nat -> (nat -> list R) * (nat -> list Z).
  Hypothesis Nd : d <> REPLICATE_DIM.

  Lemma slices_spec (T : table) ls lab m F var D t s R0 s' ps :
    proper_table T ->
    (forall name v0 ws w, entry T name v0 (ws, w) -> unit_array d ls ws /\ unit_array d ls w) ->
    (forall name ws w, entry T name var (ws, w) -> labelled lab ws /\ labelled lab w /\ ~ In REPLICATE_DIM (dnames ws) /\ ~ In REPLICATE_DIM (dnames w)) ->
    pointwise_metric m F -> cache_ok draw s -> dget (dims t) d = Some ls ->
    NoDup D -> ~ In d D -> ~ In REPLICATE_DIM D -> (forall k, In k D -> dget (dims t) k = Some (lab k)) ->
    Forall2 (fun n p => entry T n var p) (keys (statistics m)) ps -> ps <> [] ->
    (forall k, In k D <-> exists p, In p ps /\ k <> d /\ (In k (dnames (fst p)) \/ In k (dnames (snd p)))) ->
    results_by_slice d r given resolution size arch draw m var D t (nested_map fst T) (nested_map snd T) s = Ok (R0, s') ->
    cache_ok draw s' /\
    (forall k l, In l (labels_of (dims R0) k) <-> (In k D /\ In l (lab k)) \/ (k = REPLICATE_DIM /\ In l (positions r))) /\
    forall e k, (forall x, In x D -> In (e x) (lab x)) -> (k < r)%nat -> (0 < length ls)%nat -> proper_draws (length ls) r draw ->
      exists b rows idx, optimal_block_length d given resolution arch (slice_arg D idx t) = Ok b /\
        (forall x, In x D -> cut D idx x (lab x) = [e x]) /\
        drawn_once draw (length ls) b rows /\
        get R0 (upd e REPLICATE_DIM (LZ (Z.of_nat k))) =
        F (map (fun p => vdiv (drawn_total (along (fst p) d e) (draws_of rows k)) (drawn_total (along (snd p) d e) (draws_of rows k))) ps).
  Proof.
    intros PT U LB PW C Dt ND NdD NR LT FP NP HD H. unfold results_by_slice in H.
    destruct (all_sizes D _ []) as [sizes|] eqn:Es in H; [|discriminate]. cbn [bind] in H.
    apply all_sizes_Ok in Es. destruct Es as (_ & Es & _).
    assert (mapM (fun k => match dget sizes k with Some n => Ok n | None => Err ValueError end) D = Ok (map (fun k => length (lab k)) D)) as Em.
    { assert (forall k, In k D -> dget sizes k = Some (length (lab k))) as K. { intros k I. apply (Es t k); auto. now left. }
      clear -K. induction D as [|k D IH]; [reflexivity|]. cbn [mapM map]. rewrite (K k) by (now left). cbn [bind]. rewrite IH; [reflexivity|]. intros x I. apply K. now right. }
    rewrite Em in H. cbn [bind] in H. set (shape := map (fun k => length (lab k)) D) in *.
    destruct (C54_every_index_once shape) as (_ & IX & _).
    destruct (mapM_state _ (ndindex shape) s) as [[results s1]|] eqn:Er in H; [|discriminate]. cbn [bind fst snd] in H.
    assert (results <> [] /\ R0 = combine_by_coords results /\ s1 = s') as (NE & -> & ->) by (destruct results; [discriminate|]; injection H as <- <-; split; [discriminate|auto]). clear H.
    (* one slice *)
    assert (forall idx s1 v s2, cache_ok draw s1 ->
        (do st <- map_nested (fun x => Ok (slice_arg D idx x)) (nested_map fst T);
         do sw <- map_nested (fun x => Ok (slice_arg D idx x)) (nested_map snd T);
         results_for_metric_scalar d r given resolution size arch draw m var (slice_arg D idx t) st sw s1) = Ok (v, s2) ->
        cache_ok draw s2 /\ exists b rows,
          optimal_block_length d given resolution arch (slice_arg D idx t) = Ok b /\ drawn_once draw (length ls) b rows /\
          wf v /\ labelled (with_replicates r (fun k => cut D idx k (lab k))) v /\
          (forall k, In k (dnames v) <-> k = REPLICATE_DIM \/ In k D) /\
          forall e k, point_of (dims v) e -> e REPLICATE_DIM = LZ (Z.of_nat k) -> (forall i, In i (draws_of rows k) -> (i < length ls)%nat) ->
            get v e = F (map (fun p => vdiv (drawn_total (along (fst p) d e) (draws_of rows k)) (drawn_total (along (snd p) d e) (draws_of rows k))) ps)) as One.
    { intros idx sa v sb Ca H.
      set (sl := fun p : da * da => (slice_arg D idx (fst p), slice_arg D idx (snd p))).
      rewrite (map_nested_table _ T fst (fun p => fst (sl p))) in H by reflexivity. cbn [bind] in H.
      rewrite (map_nested_table _ T snd (fun p => snd (sl p))) in H by reflexivity. cbn [bind] in H.
      rewrite <- (nested_map_compose sl fst T), <- (nested_map_compose sl snd T) in H.
      assert (forall n v0 ws w, entry (nested_map sl T) n v0 (ws, w) -> exists ws0 w0, entry T n v0 (ws0, w0) /\ ws = slice_arg D idx ws0 /\ w = slice_arg D idx w0) as EN.
      { intros n v0 ws w He. apply entry_unmap in He. destruct He as ([ws0 w0] & He & E). exists ws0, w0. unfold sl in E. cbn [fst snd] in E. injection E as -> ->. auto. }
      destruct (scalar_spec d r given resolution size arch draw Nd (nested_map sl T) ls (fun k => cut D idx k (lab k)) m F var (slice_arg D idx t) sa v sb) as (Cb & b & rows & ps' & Eb & O & FP' & Wv & Lv & Nv & G); auto.
      - now apply proper_nested.
      - intros n v0 ws w He. destruct (EN _ _ _ _ He) as (ws0 & w0 & He0 & -> & ->). destruct (U _ _ _ _ He0). split; now apply unit_slice_arg.
      - intros n ws w He. destruct (EN _ _ _ _ He) as (ws0 & w0 & He0 & -> & ->). destruct (LB _ _ _ He0) as (L1 & L2 & R1 & R2). rewrite !names_slice. repeat split; auto; now apply labelled_slice.
      - rewrite dget_slice, Dt. cbn [option_map]. unfold cut. now rewrite combine_None.
      - split; [exact Cb|]. exists b, rows. split; [exact Eb|]. split; [exact O|]. split; [exact Wv|]. split; [exact Lv|].
        assert (ps' = map sl ps) as ->.
        { clear -FP FP'. revert ps' FP'. induction FP as [|n p ns ps Hp FP IH]; intros ps' FP'; inversion FP' as [|n' p' ns' ps2 Hp' FP2]; subst; [reflexivity|]. cbn [map]. f_equal; [|now apply IH].
          destruct Hp as (vs & G1 & G2). pose proof (entry_map sl T n var p (ex_intro _ vs (conj G1 G2))) as He. destruct He as (vs1 & J1 & J2). destruct Hp' as (vs2 & K1 & K2). congruence. }
        split.
        + intros k. rewrite Nv. split.
          * intros (p & I & J). apply in_map_iff in I. destruct I as (q & <- & I). unfold sl in J. cbn [fst snd] in J. rewrite !names_slice in J. destruct J as [J|J]; [now left|]. right. apply HD. eauto.
          * intros [->|I].
            -- destruct ps as [|p ps]; [congruence|]. exists (sl p). split; [now left|now left].
            -- apply HD in I. destruct I as (p & I & J). exists (sl p). split; [now apply in_map|]. right. unfold sl. cbn [fst snd]. rewrite !names_slice. exact J.
        + intros e k P Ek B. rewrite (G e k P Ek B), map_map. f_equal. apply map_ext_in. intros p I. unfold sl. cbn [fst snd].
          assert (exists n, entry T n var p) as [n Hn]. { clear -FP I. induction FP as [|n p0 ns ps0 H FP IH]; [destruct I|]. destruct I as [<-|I]; eauto. }
          destruct p as [ws w]. cbn [fst snd]. destruct (U _ _ _ _ Hn) as [[_ U1] [_ U2]]. rewrite !(along_slice D idx _ d e ls) by auto. reflexivity. }
    destruct (mapM_state_inv (cache_ok draw) _ (fun idx s1 v s2 Cs E => proj1 (One idx s1 v s2 Cs E)) _ _ _ _ C Er) as [C' FR]. split; [exact C'|].
    assert (forall v, In v results -> exists idx b rows, index_tuple shape idx /\
          optimal_block_length d given resolution arch (slice_arg D idx t) = Ok b /\ drawn_once draw (length ls) b rows /\
          wf v /\ labelled (with_replicates r (fun k => cut D idx k (lab k))) v /\
          (forall k, In k (dnames v) <-> k = REPLICATE_DIM \/ In k D) /\
          forall e k, point_of (dims v) e -> e REPLICATE_DIM = LZ (Z.of_nat k) -> (forall i, In i (draws_of rows k) -> (i < length ls)%nat) ->
            get v e = F (map (fun p => vdiv (drawn_total (along (fst p) d e) (draws_of rows k)) (drawn_total (along (snd p) d e) (draws_of rows k))) ps)) as RV.
    { intros v I. assert (exists idx sa sb, In idx (ndindex shape) /\ cache_ok draw sa /\ (do st <- map_nested (fun x => Ok (slice_arg D idx x)) (nested_map fst T);
         do sw <- map_nested (fun x => Ok (slice_arg D idx x)) (nested_map snd T);
         results_for_metric_scalar d r given resolution size arch draw m var (slice_arg D idx t) st sw sa) = Ok (v, sb)) as (idx & sa & sb & Ii & Ca & E).
      { clear -FR I. induction FR as [|idx v0 l rs (sa & sb & Ca & E) FR IH]; [destruct I|]. destruct I as [<-|I].
        - exists idx, sa, sb. split; [now left|auto].
        - destruct (IH I) as (idx' & sa' & sb' & J & K). exists idx', sa', sb'. split; [now right|exact K]. }
      destruct (One idx sa v sb Ca E) as (_ & b & rows & K). exists idx, b, rows. split; [now apply IX|exact K]. }
    assert (forall idx, index_tuple shape idx -> exists v, In v results /\ wf v /\ labelled (with_replicates r (fun k => cut D idx k (lab k))) v /\ (forall k, In k (dnames v) <-> k = REPLICATE_DIM \/ In k D)) as RI.
    { intros idx Hi. apply IX in Hi. assert (exists v sa sb, In v results /\ cache_ok draw sa /\ (do st <- map_nested (fun x => Ok (slice_arg D idx x)) (nested_map fst T);
         do sw <- map_nested (fun x => Ok (slice_arg D idx x)) (nested_map snd T);
         results_for_metric_scalar d r given resolution size arch draw m var (slice_arg D idx t) st sw sa) = Ok (v, sb)) as (v & sa & sb & Iv & Ca & E).
      { clear -FR Hi. induction FR as [|idx0 v0 l rs (sa & sb & Ca & E) FR IH]; [destruct Hi|]. destruct Hi as [<-|Hi].
        - exists v0, sa, sb. split; [now left|auto].
        - destruct (IH Hi) as (v & sa' & sb' & J & K). exists v, sa', sb'. split; [now right|exact K]. }
      destruct (One idx sa v sb Ca E) as (_ & b & rows & _ & _ & W & L & N & _). exists v. auto. }
    assert (forall v k, In k (dnames v) -> forall lab', labelled lab' v -> dget (dims v) k = Some (lab' k)) as DG.
    { intros v k I lab' L. unfold dnames in I. apply keys_dget in I. destruct I as [l E]. now rewrite E, (L _ _ E). }
    split.
    - intros k l. cbn [combine_by_coords dims]. fold (joint (map dims results) []). rewrite labels_joint. unfold labels_of at 1. cbn [dget]. split.
      + intros [[]|(ds & J & K)]. apply in_map_iff in J. destruct J as (v & <- & J). destruct (RV v J) as (idx & b & rows & Ti & _ & _ & _ & L & N & _).
        unfold labels_of in K. destruct (dget (dims v) k) as [l0|] eqn:E; [|destruct K]. pose proof (proj1 (N k) (dget_Some_keys _ _ E)) as [->|Ik].
        * right. split; auto. rewrite (L _ _ E) in K. exact K.
        * left. split; auto. rewrite (L _ _ E) in K. unfold with_replicates in K. destruct (eqb k REPLICATE_DIM) eqn:Q; [apply eqb_true_iff in Q; congruence|].
          destruct (cut_in D lab idx k Ti Ik) as (l1 & Ec & I1). rewrite Ec in K. destruct K as [<-|[]]. exact I1.
      + intros [[Ik Il]|[-> Il]]; right.
        * destruct results as [|v0 results0] eqn:ER; [congruence|]. rewrite <- ER in *. destruct (RV v0) as (idx0 & _ & _ & T0 & _); [rewrite ER; now left|].
          set (e0 := fun x => if eqb x k then l else match cut D idx0 x (lab x) with [y] => y | _ => LZ 0 end).
          assert (forall x, In x D -> In (e0 x) (lab x)) as E0.
          { intros x Ix. unfold e0. destruct (eqb x k) eqn:Q; [apply eqb_true_iff in Q; now subst|]. destruct (cut_in D lab idx0 x T0 Ix) as (y & -> & Iy). exact Iy. }
          destruct (RI _ (index_tuple_of D lab e0 E0)) as (v & Iv & Wv & L & N). exists (dims v). split; [now apply in_map|].
          unfold labels_of. rewrite (DG v k (proj2 (N k) (or_intror Ik)) _ L). unfold with_replicates. destruct (eqb k REPLICATE_DIM) eqn:Q; [apply eqb_true_iff in Q; congruence|].
          unfold cut. rewrite (dget_combine_map D (fun k => index_of (e0 k) (lab k)) k Ik), nth_index_of by (now apply E0). unfold e0. rewrite eqb_refl. now left.
        * destruct results as [|v0 results0]; [congruence|]. destruct (RV v0 (or_introl eq_refl)) as (idx0 & _ & _ & T0 & _ & _ & _ & L & N & _).
          exists (dims v0). split; [now left|]. unfold labels_of. rewrite (DG v0 REPLICATE_DIM (proj2 (N _) (or_introl eq_refl)) _ L). unfold with_replicates. now rewrite eqb_refl.
    - intros e k He Hk Hn Pd. set (e' := upd e REPLICATE_DIM (LZ (Z.of_nat k))).
      cbn [combine_by_coords get]. destruct (find (fun a => in_box (dims a) e') results) as [v|] eqn:Fd.
      + apply find_some in Fd. destruct Fd as [Iv Pv]. apply in_box_iff in Pv. destruct (RV v Iv) as (idx & b & rows & Ti & Eb & O & _ & L & N & G).
        exists b, rows, idx. split; [exact Eb|]. split.
        { intros x Ix. destruct (cut_in D lab idx x Ti Ix) as (l & Ec & _). rewrite Ec. f_equal. pose proof (DG v x (proj2 (N x) (or_intror Ix)) _ L) as Dx. apply dget_In in Dx. apply Pv in Dx.
          unfold with_replicates in Dx. destruct (eqb x REPLICATE_DIM) eqn:Q; [apply eqb_true_iff in Q; congruence|]. rewrite Ec in Dx. destruct Dx as [->|[]]. unfold e'. apply upd_other. intros ->. now rewrite eqb_refl in Q. }
        split; [exact O|]. destruct (once_range r draw _ _ _ O Pd Hn k Hk) as [_ B]. rewrite (G e' k Pv); [|apply upd_same|exact B].
        f_equal. apply map_ext_in. intros p I.
        assert (exists n, entry T n var p) as [n Hn']. { clear -FP I. induction FP as [|n p0 ns ps0 H FP IH]; [destruct I|]. destruct I as [<-|I]; eauto. }
        destruct p as [ws w]. cbn [fst snd]. destruct (U _ _ _ _ Hn') as [[W1 _] [W2 _]]. destruct (LB _ _ _ Hn') as (_ & _ & R1 & R2).
        assert (forall x, wf x -> ~ In REPLICATE_DIM (dnames x) -> along x d e' = along x d e) as AE.
        { intros x W Rx. unfold along. apply map_ext. intros l. apply W. intros y Hy. unfold e'. destruct (string_dec y d) as [->|Ny]; [now rewrite !upd_same|]. rewrite upd_other by exact Ny. rewrite upd_other by (intros ->; contradiction). symmetry. now apply upd_other. }
        now rewrite !AE.
      + exfalso. destruct (RI _ (index_tuple_of D lab e He)) as (v & Iv & Wv & L & N). apply (find_none _ _ Fd) in Iv. cbv beta in Iv.
        assert (point_of (dims v) e') as P; [|apply in_box_iff in P; congruence]. intros x l Ix.
        assert (In x (dnames v)) as Nx by (unfold dnames; apply in_map_iff; exists (x, l); auto).
        assert (dget (dims v) x = Some l) as El by (apply In_dget; [apply Wv|exact Ix]).
        rewrite (L _ _ El). unfold with_replicates. destruct (eqb x REPLICATE_DIM) eqn:Q.
          * apply eqb_true_iff in Q. subst x. unfold e'. rewrite upd_same. unfold positions. apply in_map_iff. exists k. split; [reflexivity|apply in_seq; lia].
          * assert (In x D) as ID by (apply N in Nx; destruct Nx as [->|]; auto; now rewrite eqb_refl in Q).
            unfold cut. rewrite (dget_combine_map D (fun k => index_of (e k) (lab k)) x ID), nth_index_of by (now apply He). left. unfold e'. symmetry. apply upd_other. intros ->. now rewrite eqb_refl in Q.
  Qed.
End Slices.
