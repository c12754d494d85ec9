(** Summing the chunks of a key, then concatenating the keys, is summing all chunks. *)
From Coq Require Import String ZArith Bool List Permutation Lia Arith.
Import ListNotations.
From Verif Require Import Prelude Values Model_XArray Spec_XArray Proofs_XArray Model_Tree Spec_Tree Proofs_Tree
  Model_TimeChunks Spec_TimeChunks Proofs_TimeChunks Model_MetricsBase
  Model_Aggregation Spec_Aggregation Spec_Aggregator Proofs_AggState Proofs_Aggregator Model_Beam Spec_Beam Proofs_Beam Proofs_Beam2 Proofs_Beam3.
From Coq Require Import Reals.
Local Open Scope string_scope.
Local Open Scope list_scope.

Lemma exactly_one_keys {K Y} (R : K -> Y -> Prop) (q : Y -> bool) ks zs k0 :
  Forall2 R ks zs -> NoDup ks -> In k0 ks ->
  (forall k z, In k ks -> In z zs -> R k z -> (q z = true <-> k = k0)) -> exactly_one q zs.
Proof.
  intros HF. induction HF as [|k z ks zs Hkz HF IH]; intros Hn Hin Hq; [destruct Hin|].
  inversion Hn as [|? ? Hnk Hn']; subst. destruct Hin as [->|Hin].
  - exists [], z, zs. split; [reflexivity|]. split; [apply (Hq k0 z); simpl; auto|]. simpl. intros w Hw.
    assert (exists k, In k ks /\ R k w) as (k & Hk & HR).
    { clear - HF Hw. induction HF as [|k' z' ks zs H HF IH]; [destruct Hw|]. destruct Hw as [<-|Hw]; [exists k'; simpl; auto|].
      destruct (IH Hw) as (k & ? & ?). exists k. simpl. auto. }
    destruct (q w) eqn:E; auto. exfalso. apply Hnk. rewrite <- (proj1 (Hq k w (or_intror Hk) (or_intror Hw) HR) E). exact Hk.
  - destruct IH as (l1 & y & l2 & -> & H1 & H2); auto.
    { intros. apply Hq; simpl; auto. }
    exists (z :: l1), y, l2. split; [reflexivity|]. split; auto. intros w [<-|Hw]; auto.
    destruct (q z) eqn:E; auto. exfalso. apply Hnk. rewrite (proj1 (Hq k z (or_introl eq_refl) (or_introl eq_refl) Hkz) E). exact Hin.
Qed.

Lemma perm_group {A K} `{EqDec K} (f : A -> K) (l : list A) ks : NoDup ks -> (forall a, In a l -> In (f a) ks) ->
  Permutation (concat (map (fun k => filter (fun a => if eq_dec (f a) k then true else false) l) ks)) l.
Proof.
  intros Hn. induction l as [|a l IH]; intros Hin.
  - clear. induction ks; simpl; auto.
  - assert (forall ks, NoDup ks -> 
      Permutation (concat (map (fun k => filter (fun b => if eq_dec (f b) k then true else false) (a :: l)) ks))
        ((if in_dec eq_dec (f a) ks then [a] else []) ++ concat (map (fun k => filter (fun b => if eq_dec (f b) k then true else false) l) ks))) as Hgo.
    { clear. intros ks. induction ks as [|k ks IHk]; intros Hn; [simpl; constructor|]. inversion Hn as [|? ? Hk Hn']; subst.
      cbn [map concat]. cbn [filter]. specialize (IHk Hn'). destruct (in_dec eq_dec (f a) (k :: ks)) as [Hi|Hi].
      - destruct (eq_dec (f a) k) as [Ek|Ek].
        + destruct (in_dec eq_dec (f a) ks); [subst; contradiction|]. simpl. constructor. apply Permutation_app_head. exact IHk.
        + destruct (in_dec eq_dec (f a) ks) as [_|F]; [|destruct Hi; [congruence|contradiction]].
          simpl in *. etransitivity; [apply Permutation_app_head; exact IHk|]. symmetry. apply Permutation_middle.
      - destruct (eq_dec (f a) k) as [Ek|Ek]; [exfalso; apply Hi; left; congruence|].
        destruct (in_dec eq_dec (f a) ks); [exfalso; apply Hi; now right|]. simpl in *. apply Permutation_app_head. exact IHk. }
    etransitivity; [apply Hgo; auto|]. destruct (in_dec eq_dec (f a) ks) as [|F]; [|exfalso; apply F, Hin; now left].
    simpl. constructor. apply IH. intros. apply Hin. now right.
Qed.

Section Groups.
  Variables (init lead : list Z) (os : list chunk).
  Hypothesis G : grid init lead os.
  Hypothesis Hos : os <> [].
  Variable comp : chunk -> da.
  Variables ki kl : bool.
  Variable mk : option Z -> option Z -> key.
  Hypothesis mk_inj : forall a b a' b', mk a b = mk a' b' -> a = a' /\ b = b'.
  Definition keyf (c : chunk) : key :=
    mk (if ki then Some (off_init (fst c)) else None) (if kl then Some (off_lead (fst c)) else None).
  Hypothesis Hki : forall c, In c os -> (ki = true <-> In "init_time" (dnames (comp c))).
  Hypothesis Hkl : forall c, In c os -> (kl = true <-> In "lead_time" (dnames (comp c))).
  Hypothesis Hwf : forall c, In c os -> wf (comp c).
  Hypothesis Hsame : forall c c', In c os -> In c' os -> same_dims (comp c) (comp c').
  Hypothesis Hlab : forall c d l, In c os -> time_dim d -> In d (dnames (comp c)) ->
    (In l (labels_of (dims (comp c)) d) <-> in_chunk (cI c) (cL c) d l).
  Hypothesis Hfull : forall c d, In c os -> ~ time_dim d -> In d (dnames (comp c)) -> exists c' l, In c' os /\ In l (labels_of (dims (comp c')) d).
  Variables (ks : list key) (zs : list da).
  Hypothesis Hks : NoDup ks.
  Hypothesis Hkin : forall k, In k ks <-> exists c, In c os /\ keyf c = k.
  Definition grp (k : key) : list chunk := filter (fun c => if eq_dec (keyf c) k then true else false) os.
  Hypothesis Hz : Forall2 (fun k z => sums_to z (map comp (grp k))) ks zs.

  Lemma grp_In k c : In c (grp k) <-> In c os /\ keyf c = k.
  Proof. unfold grp. rewrite filter_In. destruct (eq_dec (keyf c) k); split; intros [? ?]; split; auto; discriminate. Qed.

  Lemma z_grp z : In z zs -> exists k, In k ks /\ sums_to z (map comp (grp k)).
  Proof.
    clear - Hz. intros H. induction Hz as [|k' z' ks zs H' HF IH]; [destruct H|].
    destruct H as [<-|H]; [exists k'; simpl; auto|]. destruct (IH HF H) as (k & ? & ?). exists k. simpl; auto.
  Qed.
  Lemma z_label z k d l : sums_to z (map comp (grp k)) -> In l (labels_of (dims z) d) <-> exists c, In c os /\ keyf c = k /\ In l (labels_of (dims (comp c)) d).
  Proof.
    intros (_ & _ & H & _). rewrite H. split.
    - intros [b [Hb Hl]]. apply in_map_iff in Hb. destruct Hb as [c [<- Hc]]. apply grp_In in Hc. destruct Hc. eauto.
    - intros [c (H1 & H2 & H3)]. exists (comp c). split; auto. apply in_map, grp_In. auto.
  Qed.
  Lemma z_name z c d : In z zs -> In c os -> In d (dnames z) <-> In d (dnames (comp c)).
  Proof.
    intros Hzz Hc. destruct (z_grp z Hzz) as (k & Hk & _ & H & _). rewrite H. split.
    - intros [b [Hb Hl]]. apply in_map_iff in Hb. destruct Hb as [c' [<- Hc']]. apply grp_In in Hc'. destruct Hc'. now apply (Hsame c c').
    - intros Hd. apply Hkin in Hk. destruct Hk as (c0 & H0 & E0). exists (comp c0). split; [apply in_map, grp_In; auto|]. now apply (Hsame c c0).
  Qed.

  Theorem groups_sum : sums_to (combine_data_arrays_by_coords zs) (map comp os).
  Proof.
    assert (exists c, In c os) as [c0 H0] by (clear - Hos; destruct os as [|c r]; [congruence|]; exists c; now left).
    assert (sums_to (combine_data_arrays_by_coords zs) zs) as Hcc.
    { apply concat_sums.
      - intros z H. now destruct (z_grp z H) as (k & _ & ? & _).
      - intros a b Ha Hb d. now rewrite (z_name a c0), (z_name b c0).
      - intros z d Hzz Ht Hd. destruct (z_grp z Hzz) as (k & Hk & Hs). apply Hkin in Hk. destruct Hk as (c & Hc & E).
        assert (exists l, In l (labels_of (dims (comp c)) d)) as [l Hl].
        { rewrite (z_name z c) in Hd by auto. destruct (gr_ne _ _ _ G c Hc) as [N1 N2]. destruct Ht as [->| ->].
          - destruct (c_init c) as [|t r] eqn:Ec; [congruence|]. exists (LZ t). apply Hlab; auto; [now left|]. split; [|discriminate]. intros _. unfold cI. rewrite Ec. now left.
          - destruct (c_lead c) as [|t r] eqn:Ec; [congruence|]. exists (LZ t). apply Hlab; auto; [now right|]. split; [discriminate|]. intros _. unfold cL. rewrite Ec. now left. }
        intros F. assert (In l (labels_of (dims z) d)) as X by (apply (z_label z k d l Hs); eauto). rewrite F in X. destruct X.
      - intros d Hd (z & Hzz & Hdz). rewrite (z_name z c0) in Hdz by auto. destruct (Hfull c0 d H0 Hd Hdz) as (c' & l & Hc' & Hl).
        assert (In (keyf c') ks) as Hk by (apply Hkin; eauto).
        assert (exists z', In z' zs /\ sums_to z' (map comp (grp (keyf c')))) as (z' & Hz' & Hs').
        { clear - Hz Hk. induction Hz as [|k' z' ks zs H HF IH]; [destruct Hk|]. destruct Hk as [<-|Hk]; [exists z'; simpl; auto|]. destruct (IH HF Hk) as (z & ? & ?). exists z; simpl; auto. }
        exists z', l. split; auto. apply (z_label z' (keyf c') d l Hs'). eauto.
      - intros e He.
        pose proof (J_NoDup zs (fun z H => match z_grp z H with ex_intro _ k (conj _ (conj w _)) => w end)) as HJ.
        rewrite point_of_labels in He by exact HJ.
        assert (forall d, time_dim d -> In d (dnames (comp c0)) -> exists c, In c os /\ in_chunk (cI c) (cL c) d (e d)) as Hin.
        { intros d Ht Hd. assert (exists z, In z zs) as [z Hzz].
          { assert (In (keyf c0) ks) as X by (apply Hkin; eauto). clear - Hz X. inversion Hz; subst; [destruct X|]. eexists. now left. }
          assert (In (e d) (labels_of (fold_left (merge_dims union_labels) (map dims zs) []) d)) as X.
          { apply He. apply J_names. exists z. split; auto. now apply (z_name z c0). }
          apply J_labels in X. destruct X as (z1 & Hz1 & Hl). destruct (z_grp z1 Hz1) as (k & _ & Hs). apply (z_label z1 k d _ Hs) in Hl.
          destruct Hl as (c & Hc & _ & Hl). exists c. split; auto. apply Hlab in Hl; auto. now apply (Hsame c0 c). }
        (* the chunk owning the point *)
        assert (exists cs, In cs os /\ (ki = true -> In (e "init_time") (cI cs)) /\ (kl = true -> In (e "lead_time") (cL cs))) as (cs & Hcs & Hci & Hcl).
        {
          assert (exists t, In t init /\ (ki = true -> e "init_time" = LZ t)) as (t & Ht & Et).
          { destruct ki eqn:Ek.
            - destruct (Hin "init_time") as (c & Hc & [Hi _]); [now left|now apply (Hki c0 H0)|]. specialize (Hi eq_refl). apply in_map_iff in Hi. destruct Hi as (t & Et & Ht).
              exists t. split; auto. now apply (gr_incl _ _ _ G c Hc).
            - destruct (gr_ne _ _ _ G c0 H0) as [N1 _]. destruct (c_init c0) as [|t r] eqn:Ec; [congruence|]. exists t. split; [|discriminate].
              apply (gr_incl _ _ _ G c0 H0). rewrite Ec. now left. }
          assert (exists t, In t lead /\ (kl = true -> e "lead_time" = LZ t)) as (u & Hu & Eu).
          { destruct kl eqn:Ek.
            - destruct (Hin "lead_time") as (c & Hc & [_ Hi]); [now right|now apply (Hkl c0 H0)|]. specialize (Hi eq_refl). apply in_map_iff in Hi. destruct Hi as (v & Ev & Hv).
              exists v. split; auto. now apply (gr_incl _ _ _ G c Hc).
            - destruct (gr_ne _ _ _ G c0 H0) as [_ N1]. destruct (c_lead c0) as [|v r] eqn:Ec; [congruence|]. exists v. split; [|discriminate].
              apply (gr_incl _ _ _ G c0 H0). rewrite Ec. now left. }
          destruct (gr_one _ _ _ G t u Ht Hu) as (l1 & cs & l2 & E & Hq & _). apply andb_true_iff in Hq. rewrite !memb_In in Hq. destruct Hq as [Q1 Q2].
          exists cs. split; [rewrite E; apply in_app_iff; right; now left|]. split; intros Hk; [rewrite Et by auto|rewrite Eu by auto]; now apply in_map. }
        apply exactly_one_keys with (R := fun k z => sums_to z (map comp (grp k))) (ks := ks) (k0 := keyf cs); auto; [apply Hkin; eauto|].
        intros k z Hk Hzz Hs. unfold tbox. rewrite in_box_iff, point_of_labels by (apply keep_NoDup; destruct (z_grp z Hzz) as (? & _ & [X _] & _); exact X).
        apply Hkin in Hk. destruct Hk as (c & Hc & Ek). split.
        + intros Hp.
          assert (forall d, time_dim d -> In d (dnames (comp c0)) -> exists c', In c' os /\ keyf c' = k /\ in_chunk (cI c') (cL c') d (e d)) as Hgo.
          { intros d Ht Hd. assert (In (e d) (labels_of (dims z) d)) as X.
            { assert (memb d excl = true) as M by now apply excl_time. specialize (Hp d). rewrite keep_names, labels_keep, M in Hp. apply Hp. split; auto. now apply (z_name z c0). }
            apply (z_label z k d _ Hs) in X. destruct X as (c' & Hc' & E' & Hl). exists c'. split; [exact Hc'|]. split; [exact E'|]. apply Hlab in Hl; auto. now apply (Hsame c0 c'). }
          rewrite <- Ek. unfold keyf in *. f_equal.
          * destruct ki eqn:Eki; auto. f_equal. destruct (Hgo "init_time") as (c' & Hc' & E' & [Hi _]); [now left|now apply (Hki c0 H0)|]. specialize (Hi eq_refl).
            rewrite <- Ek in E'. apply mk_inj in E'. destruct E' as [E' _]. injection E' as E'. rewrite <- E'.
            specialize (Hci eq_refl). apply in_map_iff in Hi. destruct Hi as (t & Et & Ht). rewrite <- Et in Hci. apply in_map_iff in Hci. destruct Hci as (t' & [= ->] & Ht').
            apply (gr_off_init _ _ _ G c' cs Hc' Hcs). eauto.
          * destruct kl eqn:Ekl; auto. f_equal. destruct (Hgo "lead_time") as (c' & Hc' & E' & [_ Hi]); [now right|now apply (Hkl c0 H0)|]. specialize (Hi eq_refl).
            rewrite <- Ek in E'. apply mk_inj in E'. destruct E' as [_ E']. injection E' as E'. rewrite <- E'.
            specialize (Hcl eq_refl). apply in_map_iff in Hi. destruct Hi as (t & Et & Ht). rewrite <- Et in Hcl. apply in_map_iff in Hcl. destruct Hcl as (t' & [= ->] & Ht').
            apply (gr_off_lead _ _ _ G c' cs Hc' Hcs). eauto.
        + intros -> d. rewrite keep_names, labels_keep. intros [Hd Hm]. rewrite Hm. apply excl_time in Hm. rewrite (z_name z cs) in Hd by auto.
          apply (z_label z (keyf cs) d _ Hs). exists cs. split; auto. split; auto. apply Hlab; auto.
          destruct Hm as [->| ->]; split; try discriminate; intros _; [apply Hci|apply Hcl]; [now apply (Hki cs)|now apply (Hkl cs)].
      - intros ->. inversion Hz; subst. assert (In (keyf c0) []) as X by (apply Hkin; eauto). destruct X. }
    eapply sums_to_perm; [|eapply sums_to_nested with (ls := map (fun k => map comp (grp k)) ks); [|exact Hcc]].
    - rewrite <- (map_map (fun k => grp k) (map comp)), <- concat_map. apply Permutation_map. apply (perm_group keyf os ks Hks).
      intros c Hc. apply Hkin. eauto.
    - clear - Hz. induction Hz; simpl; constructor; auto.
  Qed.
End Groups.
