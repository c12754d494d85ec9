(** Proofs about combining_sum and AggregationState.sum (C05, C06). *)
From Coq Require Import String List Bool Lia Arith Permutation.
Import ListNotations.
From Verif Require Import Prelude Values Model_XArray Spec_XArray Proofs_XArray Model_Tree Spec_Tree Proofs_Tree Model_Aggregation Spec_Aggregation.
From Coq Require Import Reals.
Local Open Scope R_scope.
Local Open Scope list_scope.

Lemma combining_sum_eq arrs : combining_sum arrs = comb_sum arrs.
Proof. reflexivity. Qed.

Lemma contributes_zx a e v : contributes a e v <-> v = zx a e.
Proof.
  unfold contributes, zx. destruct (in_box (dims a) e) eqn:E.
  - apply in_box_iff in E. split; [intros [H _]; auto|intros ->; split; tauto].
  - assert (~ point_of (dims a) e) by (rewrite <- in_box_iff; congruence).
    split; [intros [_ H']; auto|intros ->; split; tauto].
Qed.

(** [a] is the zero-extended sum of [l]. *)
Definition sums_to (a : da) (l : list da) : Prop :=
  wf a /\
  (forall d, In d (dnames a) <-> exists b, In b l /\ In d (dnames b)) /\
  (forall d x, In x (labels_of (dims a) d) <-> exists b, In b l /\ In x (labels_of (dims b) d)) /\
  (forall e, zx a e = vsum (map (fun b => zx b e) l)).

Lemma sums_to_comb l :
  (forall a, In a l -> wf a) -> (forall a b, In a l -> In b l -> same_dims a b) -> sums_to (comb_sum l) l.
Proof.
  intros Hw Hs. split; [now apply wf_comb_sum|]. destruct (comb_sum_names_labels l) as [H1 H2].
  split; auto. split; auto. intros e. now apply zx_comb_sum.
Qed.
Lemma sums_to_perm a l l' : Permutation l l' -> sums_to a l -> sums_to a l'.
Proof.
  intros Hp (H0 & H1 & H2 & H3). split; auto.
  assert (forall b, In b l <-> In b l') as Hin by (intros b; split; apply Permutation_in; [|apply Permutation_sym]; auto).
  split; [|split].
  - intros d. rewrite H1. split; intros [b [Hb Hd]]; exists b; split; auto; now apply Hin.
  - intros d x. rewrite H2. split; intros [b [Hb Hd]]; exists b; split; auto; now apply Hin.
  - intros e. rewrite H3. apply vsum_perm. now apply Permutation_map.
Qed.
Lemma sums_to_single a : wf a -> sums_to a [a].
Proof.
  intros Ha. split; auto. split; [|split].
  - intros d. split; [exists a; simpl; auto|]. intros [b [[<-|[]] Hb]]. auto.
  - intros d x. split; [exists a; simpl; auto|]. intros [b [[<-|[]] Hb]]. auto.
  - intros e. simpl. now rewrite vadd_0_r.
Qed.
Lemma sums_to_nested a bs ls : Forall2 sums_to bs ls -> sums_to a bs -> sums_to a (concat ls).
Proof.
  intros HF (H0 & H1 & H2 & H3). split; auto. split; [|split].
  - intros d. rewrite H1. clear - HF. induction HF as [|b l bs ls Hb HF IH]; simpl.
    + split; intros [? [[] _]].
    + split.
      * intros [c [[<-|Hc] Hd]].
        -- destruct Hb as (_ & Hb & _). apply Hb in Hd. destruct Hd as [z [? ?]]. exists z. rewrite in_app_iff. auto.
        -- destruct IH as [IH _]. destruct IH as [z [? ?]]; eauto. exists z. rewrite in_app_iff. auto.
      * intros [c [Hc Hd]]. apply in_app_iff in Hc. destruct Hc as [Hc|Hc].
        -- exists b. split; auto. destruct Hb as (_ & Hb & _). apply Hb. eauto.
        -- destruct IH as [_ IH]. destruct IH as [z [? ?]]; eauto.
  - intros d x. rewrite H2. clear - HF. induction HF as [|b l bs ls Hb HF IH]; simpl.
    + split; intros [? [[] _]].
    + split.
      * intros [c [[<-|Hc] Hd]].
        -- destruct Hb as (_ & _ & Hb & _). apply Hb in Hd. destruct Hd as [z [? ?]]. exists z. rewrite in_app_iff. auto.
        -- destruct IH as [IH _]. destruct IH as [z [? ?]]; eauto. exists z. rewrite in_app_iff. auto.
      * intros [c [Hc Hd]]. apply in_app_iff in Hc. destruct Hc as [Hc|Hc].
        -- exists b. split; auto. destruct Hb as (_ & _ & Hb & _). apply Hb. eauto.
        -- destruct IH as [_ IH]. destruct IH as [z [? ?]]; eauto.
  - intros e. rewrite H3. clear - HF. induction HF as [|b l bs ls Hb HF IH]; simpl; [reflexivity|].
    rewrite map_app, vsum_app, IH. f_equal. apply Hb.
Qed.
Lemma sums_to_unique a b l : sums_to a l -> sums_to b l -> da_equiv a b.
Proof.
  intros (A0 & A1 & A2 & A3) (B0 & B1 & B2 & B3). apply da_equiv_zx; auto.
  - intros d. now rewrite A1, B1.
  - intros d x. now rewrite A2, B2.
  - intros e _. now rewrite A3, B3.
Qed.
Lemma sums_to_equiv a b l : wf b -> da_equiv b a -> sums_to a l -> sums_to b l.
Proof.
  intros Hb He (A0 & A1 & A2 & A3). split; auto. destruct (He) as (E1 & E2 & E3). split; [|split].
  - intros d. now rewrite E1. - intros d x. now rewrite E2.
  - intros e. now rewrite (zx_equiv b a).
Qed.
Lemma sums_to_same_dims a l b : sums_to a l -> In b l -> (forall c, In c l -> same_dims b c) -> same_dims a b.
Proof.
  intros (_ & H & _) Hb Hs d. rewrite H. split; [|eauto].
  intros [c [Hc Hd]]. now apply (Hs c Hc).
Qed.

(** ** map_structure succeeds on structurally compatible trees *)
Section Total.
  Context {A B : Type} (func : list (tree A) -> result B) (rebuild : list (string * B) -> tree B).
  Lemma mapM_total {X Y} (f : X -> result Y) l : (forall x, In x l -> exists y, f x = Ok y) -> exists r, mapM f l = Ok r.
  Proof.
    induction l as [|x l IH]; intros H; simpl; [eauto|].
    destruct (H x (or_introl eq_refl)) as [y ->]. destruct IH as [r ->]; [intros; apply H; now right|]. simpl. eauto.
  Qed.
  Lemma covers_key (s : tree A) kvs k t : covers s (Dict kvs) -> dget kvs k = Some t -> exists s', child s k = Ok s'.
  Proof.
    intros Hc Hk. destruct (Hc [] _ eq_refl) as [kvs' Hs]. injection Hs as ->.
    assert (at_path (Dict kvs) [Key k] = Some t) as Hp by (simpl; now rewrite Hk).
    specialize (Hc _ _ Hp). simpl in *. unfold dgetE. destruct (dget kvs' k); [eauto|].
    destruct t; destruct Hc; discriminate.
  Qed.
  Theorem map_total t : forall rest,
    plain t -> (forall s, In s rest -> covers s t) ->
    (forall p a others, at_path t p = Some (Leaf a) ->
       Forall2 (fun s o => at_path s p = Some o) rest others -> exists b, func (Leaf a :: others) = Ok b) ->
    exists r, map_first func rebuild t rest = Ok r.
  Proof.
    induction t as [a|kvs IH|ts IH|kvs] using tree_ind'; intros rest Hp Hc Hf.
    - simpl. destruct (Hf [] a rest eq_refl) as [b ->]; [|simpl; eauto].
      clear. induction rest; constructor; auto.
    - rewrite map_first_Dict. apply plain_Dict in Hp. destruct Hp as [Hnd Hp]. rewrite Forall_forall in IH, Hp.
      assert (forall l, (forall kv, In kv l -> In kv kvs) -> exists r, go_dict func rebuild rest l = Ok r) as Q.
      { induction l as [|[k t] l IHl]; intros Hsub; simpl; [eauto|].
        assert (In (k, t) kvs) as Hin by (apply Hsub; now left).
        assert (dget kvs k = Some t) as Hk by now apply In_dget.
        destruct (mapM_total (fun s => child s k) rest) as [others Ho].
        { intros s Hs. eapply covers_key; eauto. }
        rewrite Ho. simpl. apply mapM_Ok_Forall2 in Ho.
        destruct (IH (k, t) Hin others (Hp (k, t) Hin)) as [b Hb].
        - intros s' Hs'.
          assert (exists s, In s rest /\ child s k = Ok s') as [s [Hs1 Hs2]].
          { clear - Ho Hs'. induction Ho; simpl in *; [tauto|]. destruct Hs' as [->|Hs']; [eauto|]. destruct (IHHo Hs') as [z [? ?]]; eauto. }
          eapply covers_child; eauto.
        - intros p a oo Ha Hoo. apply (Hf (Key k :: p) a oo); [simpl; now rewrite Hk|].
          eapply Forall2_compose; [|exact Ho|exact Hoo]. intros s o c Hs Ho'. now rewrite (child_at _ _ _ _ Hs).
        - cbn [snd] in Hb; rewrite Hb. simpl. fold (go_dict func rebuild rest).
          destruct IHl as [r ->]; [intros; apply Hsub; now right|]. simpl. eauto. }
      destruct (Q kvs) as [r ->]; auto. simpl. eauto.
    - rewrite map_first_Seq. apply plain_Seq in Hp. rewrite Forall_forall in IH, Hp.
      assert (exists lists, rest = map Seq lists) as [lists ->].
      { clear - Hc. induction rest as [|s rest IHr]; [now exists []|].
        destruct IHr as [ls ->]; [intros; apply Hc; now right|].
        destruct (Hc s (or_introl eq_refl) [] _ eq_refl) as [x Hx]. injection Hx as ->. now exists (x :: ls). }
      assert (mapM seq_items (map Seq lists) = Ok lists) as ->.
      { clear. induction lists as [|l ls IHl]; simpl; [reflexivity|]. now rewrite IHl. }
      simpl.
      assert (exists r, go_seq func rebuild ts lists = Ok r) as [r ->]; [|simpl; eauto].
      revert lists Hc Hf. induction ts as [|t ts IHt]; intros lists Hc Hf; simpl; [eauto|].
      destruct (heads_tails lists) as [[hs tl]|] eqn:E; [|eauto].
      destruct (heads_tails_spec _ _ _ E) as (Hl & Hl1 & Hl2).
      assert (Forall2 (fun s h => at_path s [Idx 0] = Some h) (map Seq lists) hs) as F0.
      { destruct (nth_error_ht _ _ _ 0%nat E) as [N _]. clear - N. induction N; simpl; constructor; auto.
        simpl. simpl in H. destruct x; congruence. }
      destruct (IH t (or_introl eq_refl) hs) as [b ->].
      { apply Hp. now left. }
      { intros h Hh p u Hu. 
        assert (exists s, In s (map Seq lists) /\ at_path s [Idx 0] = Some h) as (s & Hs1 & Hs2).
        { clear - F0 Hh. induction F0; simpl in *; [tauto|]. destruct Hh as [->|Hh]; [eauto|]. destruct (IHF0 Hh) as [z [? ?]]; eauto. }
        specialize (Hc s Hs1 (Idx 0 :: p) u Hu).
        destruct s as [| |x|]; try (cbn in Hs2; discriminate). destruct x as [|x0 x]; cbn in Hs2; [discriminate|]. cbn in Hc.
        injection Hs2 as ->. exact Hc. }
      { intros p a oo Ha Hoo. apply (Hf (Idx 0 :: p) a oo Ha).
        eapply Forall2_compose; [|exact F0|exact Hoo]. intros s h c Hs Hh.
        destruct s as [| |x|]; try (cbn in Hs; discriminate). destruct x as [|x0 x]; cbn in Hs; [discriminate|]. injection Hs as ->. exact Hh. }
      simpl.
      destruct (IHt (fun x Hx => IH x (or_intror Hx)) (fun x Hx => Hp x (or_intror Hx)) tl) as [r ->].
      { intros s Hs p u Hu. apply in_map_iff in Hs. destruct Hs as [xs [<- Hxs]].
        assert (exists s0, In (s0 :: xs) lists) as [s0 Hs0].
        { rewrite Hl. destruct (In_nth_error _ _ Hxs) as [n Hn].
          destruct (nth_error hs n) as [s0|] eqn:Et.
          - exists s0. apply in_map_iff. exists (s0, xs). split; auto.
            clear - Hn Et. revert tl n Hn Et. induction hs as [|h hs IH]; intros [|x tl] [|n]; simpl; try discriminate.
            + intros [= ->] [= ->]. now left.
            + intros H1 H2. right. eauto.
          - apply nth_error_None in Et. assert (n < length tl)%nat by (apply nth_error_Some; congruence). lia. }
        destruct p as [|[k|n] p]; simpl in Hu.
        - injection Hu as <-. eexists. reflexivity.
        - discriminate.
        - apply (Hc (Seq (s0 :: xs)) (in_map Seq _ _ Hs0) (Idx (S n) :: p) u Hu). }
      { intros p a oo Ha Hoo. destruct p as [|[k|n] p]; simpl in Ha; try discriminate.
        apply (Hf (Idx (S n) :: p) a oo Ha).
        destruct (nth_error_ht _ _ _ n E) as [_ N].
        clear - N Hoo. revert oo Hoo. induction N as [|x x' l l' Hx N IHN]; intros oo Hoo; inversion Hoo as [|? ? ? ? Ho1 Ho2]; subst; cbn [map]; constructor; auto.
        cbn [at_path] in *. rewrite Hx. exact Ho1. }
      simpl. eauto.
    - destruct Hp.
  Qed.
End Total.

Lemma same_shape_paths {A B} (t : tree A) (r : tree B) : plain t -> same_shape t r -> forall p,
  match at_path t p, at_path r p with
  | None, None => True
  | Some (Leaf _), Some (Leaf _) => True
  | Some (Dict _), Some (Dict _) => True
  | Some (Seq x), Some (Seq y) => length x = length y
  | _, _ => False
  end.
Proof.
  revert r. induction t as [a|kvs IH|ts IH|kvs] using tree_ind'; intros r Hp Hs p.
  - inversion Hs; subst. destruct p as [|[|] p]; simpl; auto.
  - inversion Hs as [|? kvs' Hi|]; subst. destruct p as [|[k|n] p]; simpl; auto.
    apply plain_Dict in Hp. destruct Hp as [_ Hp]. clear Hs.
    revert kvs' Hi. induction kvs as [|[k' t] kvs IHk]; intros kvs' Hi; inversion Hi; subst; simpl; auto.
    inversion IH; subst. inversion Hp; subst. simpl in *.
    destruct (eq_dec k k'); [match goal with H : forall r, plain t -> _ |- _ => apply H; assumption end|]. apply IHk; assumption.
  - inversion Hs as [| |? ts' Hi]; subst. apply plain_Seq in Hp. destruct p as [|[k|n] p]; simpl; auto.
    + clear - Hi. induction Hi; simpl; auto.
    + clear Hs. revert n ts' Hi. induction ts as [|t ts IHt]; intros n ts' Hi; inversion Hi; subst; [destruct n; simpl; auto|].
      inversion IH; subst. inversion Hp; subst. destruct n; cbn [nth_error]; [match goal with H : forall r, plain t -> _ |- _ => apply H; assumption end|]. apply IHt; assumption.
  - destruct Hp.
Qed.

(** ** Tree sums *)
Definition C (a b : da) : Prop := wf a /\ wf b /\ same_dims a b.

Lemma C_sym a b : C a b -> C b a.
Proof. intros (H1 & H2 & H3). repeat split; try apply H2; try apply H1; apply H3. Qed.
Lemma C_trans a b c : C a b -> C b c -> C a c.
Proof. intros (H1 & H2 & H3) (G1 & G2 & G3). split; auto. split; auto. intros d. split; intros Hd; [apply G3, H3|apply H3, G3]; auto. Qed.
Lemma tree_rel_sym {A} (R : A -> A -> Prop) t u : (forall a b, R a b -> R b a) -> tree_rel R t u -> tree_rel R u t.
Proof.
  intros HR H p. specialize (H p). destruct (at_path t p) as [[]|], (at_path u p) as [[]|]; auto.
Qed.
Lemma tree_rel_trans {A} (R : A -> A -> Prop) t u v : (forall a b c, R a b -> R b c -> R a c) -> tree_rel R t u -> tree_rel R u v -> tree_rel R t v.
Proof.
  intros HR H G p. specialize (H p). specialize (G p).
  destruct (at_path t p) as [[]|], (at_path u p) as [[]|], (at_path v p) as [[]|]; simpl in *; eauto; try tauto. congruence.
Qed.
Lemma tree_rel_covers {A} (R : A -> A -> Prop) t u : tree_rel R t u -> covers u t.
Proof.
  intros H p x Hx. specialize (H p). rewrite Hx in H.
  destruct x; destruct (at_path u p) as [[]|]; try tauto; eauto.
Qed.

Lemma arrays_leaves (l : list da) : arrays (map Leaf l) = Ok l.
Proof. induction l; simpl; [reflexivity|]. now rewrite IHl. Qed.

Lemma others_leaves t rest p a others :
  (forall s, In s rest -> tree_rel C t s) -> at_path t p = Some (Leaf a) ->
  Forall2 (fun s o => at_path s p = Some o) rest others -> others = map Leaf (map (leaf_at p) rest).
Proof.
  intros Hr Ha HF. induction HF as [|s o rest others Hs HF IH]; simpl; [reflexivity|].
  rewrite <- IH by (intros; apply Hr; now right). f_equal.
  pose proof (Hr s (or_introl eq_refl) p) as H. rewrite Ha, Hs in H. destruct o; try tauto.
  unfold leaf_at. now rewrite Hs.
Qed.

Lemma tree_sum_spec t rest :
  plain t -> (forall s, In s rest -> tree_rel C t s) ->
  exists r, tree_sum (t :: rest) = Ok r /\ same_shape t r /\
    forall p a, at_path t p = Some (Leaf a) -> at_path r p = Some (Leaf (comb_sum (map (leaf_at p) (t :: rest)))).
Proof.
  intros Hp Hr. unfold tree_sum. cbn [map_structure].
  assert (forall s, In s rest -> covers s t) as Hc by (intros s Hs; eapply tree_rel_covers; eauto).
  destruct (map_total (fun ss => do a <- arrays ss; Ok (combining_sum a)) rebuild_ds t rest Hp Hc) as [r Hm].
  { intros p a others Ha HF. rewrite (others_leaves _ _ _ _ _ Hr Ha HF). simpl. rewrite arrays_leaves. simpl. eauto. }
  exists r. split; [exact Hm|]. split; [eapply map_shape; eauto|].
  intros p a Ha. destruct (map_leafwise _ _ _ _ _ Hp Hc Hm) as [HL _].
  destruct (HL p a Ha) as (others & b & HF & Hb & Hr'). rewrite Hr'.
  rewrite (others_leaves _ _ _ _ _ Hr Ha HF) in Hb. simpl in Hb. rewrite arrays_leaves in Hb. simpl in Hb.
  injection Hb as <-. cbn [map]. unfold leaf_at at 2. rewrite Ha. reflexivity.
Qed.

(** Abstract value of a non-empty list of compatible trees. *)
Definition tsums (r : tree da) (ts : list (tree da)) : Prop :=
  plain r /\ (forall t, In t ts -> tree_rel C t r) /\
  (forall p t, In t ts -> (exists a, at_path t p = Some (Leaf a)) -> sums_to (leaf_at p r) (map (leaf_at p) ts)).

Lemma plain_shape {A B} (t : tree A) (r : tree B) : plain t -> same_shape t r -> plain r.
Proof.
  revert r. induction t as [a|kvs IH|ts IH|kvs] using tree_ind'; intros r Hp Hs.
  - inversion Hs; subst. exact I.
  - inversion Hs as [|? kvs' Hi|]; subst. apply plain_Dict in Hp. destruct Hp as [Hn Hp]. apply plain_Dict.
    assert (map fst kvs' = map fst kvs) as ->.
    { clear - Hi. induction Hi; simpl; congruence. }
    split; auto. clear Hs Hn. revert kvs' Hi. induction kvs as [|[k t] kvs IHk]; intros kvs' Hi; inversion Hi; subst; constructor;
    inversion IH; subst; inversion Hp; subst; simpl in *; auto.
  - inversion Hs as [| |? ts' Hi]; subst. apply plain_Seq in Hp. apply plain_Seq.
    clear Hs. revert ts' Hi. induction ts as [|t ts IHt]; intros ts' Hi; inversion Hi; subst; constructor;
    inversion IH; subst; inversion Hp; subst; auto.
  - destruct Hp.
Qed.

Lemma tree_sum_tsums ts : ts <> [] -> (forall t, In t ts -> plain t) ->
  (forall t u, In t ts -> In u ts -> tree_rel C t u) ->
  exists r, tree_sum ts = Ok r /\ tsums r ts.
Proof.
  destruct ts as [|t rest]; [congruence|]. intros _ Hp Hr.
  assert (plain t) as Hpt by (apply Hp; now left).
  destruct (tree_sum_spec t rest Hpt) as (r & Hm & Hsh & Hl).
  { intros s Hs. apply Hr; simpl; auto. }
  assert (forall p a, at_path t p = Some (Leaf a) -> sums_to (comb_sum (map (leaf_at p) (t :: rest))) (map (leaf_at p) (t :: rest))) as HS.
  { intros p a Ha.
    assert (forall s, In s (t :: rest) -> C a (leaf_at p s)) as HC.
    { intros s Hs. specialize (Hr t s (or_introl eq_refl) Hs p). rewrite Ha in Hr. unfold leaf_at.
      destruct (at_path s p) as [[]|]; try tauto. }
    apply sums_to_comb.
    - intros x Hx. apply in_map_iff in Hx. destruct Hx as [s [<- Hs]]. now apply HC.
    - intros x y Hx Hy. apply in_map_iff in Hx. destruct Hx as [s [<- Hs]]. apply in_map_iff in Hy. destruct Hy as [u [<- Hu]].
      destruct (HC s Hs) as (_ & _ & E1), (HC u Hu) as (_ & _ & E2). intros d. split; intros Hd; [apply E2, E1|apply E1, E2]; auto. }
  assert (tree_rel C t r) as Htr.
  { intros p. pose proof (same_shape_paths _ _ Hpt Hsh p) as Q.
    destruct (at_path t p) as [[a| | |]|] eqn:Et; destruct (at_path r p) as [[b| | |]|] eqn:Er; try tauto.
    pose proof (Hl p a Et) as Hl'. rewrite Er in Hl'. injection Hl' as ->. pose proof (HS p a Et) as Hs.
    assert (forall s, In s (t :: rest) -> C a (leaf_at p s)) as HC.
    { intros s Hs'. specialize (Hr t s (or_introl eq_refl) Hs' p). rewrite Et in Hr. unfold leaf_at.
      destruct (at_path s p) as [[]|]; try tauto. }
    split; [apply (HC t); now left|]. split; [apply Hs|].
    assert (leaf_at p t = a) as La by (unfold leaf_at; now rewrite Et).
    intros d. symmetry. eapply (sums_to_same_dims _ _ a Hs).
    - simpl. now left.
    - intros c Hc. apply in_map_iff in Hc. destruct Hc as [s [<- Hs']]. now apply HC. }
  exists r. split; [exact Hm|]. split; [now apply (plain_shape t)|]. split.
  - intros s Hs. apply (tree_rel_trans C s t r C_trans); auto. apply Hr; simpl; auto.
  - intros p s Hs [a Ha].
    assert (exists a', at_path t p = Some (Leaf a')) as [a' Ha'].
    { specialize (Hr t s (or_introl eq_refl) Hs p). rewrite Ha in Hr. destruct (at_path t p) as [[]|]; try tauto. eauto. }
    unfold leaf_at at 1. rewrite (Hl p a' Ha'). now apply (HS p a').
Qed.

Lemma tsums_perm r l l' : Permutation l l' -> tsums r l -> tsums r l'.
Proof.
  intros Hp (H0 & H1 & H2). split; auto.
  assert (forall b, In b l' -> In b l) as Hin by (intros b; apply Permutation_in, Permutation_sym; auto).
  split; [intros; apply H1; auto|]. intros p t Ht Ha.
  eapply sums_to_perm; [apply Permutation_map; exact Hp|]. eapply H2; eauto.
Qed.
Lemma tsums_single t : plain t -> tree_rel C t t -> tsums t [t].
Proof.
  intros Hp Hr. split; auto. split; [intros ? [<-|[]]; auto|].
  intros p u [<-|[]] [a Ha]. simpl. apply sums_to_single.
  specialize (Hr p). unfold leaf_at. rewrite Ha in *. apply Hr.
Qed.
Lemma tsums_nested r rs ls : Forall2 tsums rs ls -> (forall l, In l ls -> l <> []) -> tsums r rs -> tsums r (concat ls).
Proof.
  intros HF Hne (H0 & H1 & H2). split; auto. split.
  - intros t Ht. apply in_concat in Ht. destruct Ht as [l [Hl Ht]].
    assert (exists r', In r' rs /\ tsums r' l) as (r' & Hr' & Hs').
    { clear - HF Hl. induction HF; simpl in *; [tauto|]. destruct Hl as [->|Hl]; [eauto|]. destruct (IHHF Hl) as [z [? ?]]; eauto. }
    apply (tree_rel_trans C t r' r C_trans); [now apply Hs'|now apply H1].
  - intros p t Ht Ha.
    assert (forall r', In r' rs -> exists a, at_path r' p = Some (Leaf a)) as Hall.
    { intros r' Hr'. apply in_concat in Ht. destruct Ht as [l [Hl Ht]].
      assert (exists r2, In r2 rs /\ tsums r2 l) as (r2 & Hr2 & Hs2).
      { clear - HF Hl. induction HF; simpl in *; [tauto|]. destruct Hl as [->|Hl]; [eauto|]. destruct (IHHF Hl) as [z [? ?]]; eauto. }
      destruct Ha as [a Ha]. destruct Hs2 as (_ & Hs2 & _). specialize (Hs2 t Ht p). rewrite Ha in Hs2.
      pose proof (H1 r2 Hr2 p) as G2. pose proof (H1 r' Hr' p) as G'.
      destruct (at_path r2 p) as [[]|]; try tauto. destruct (at_path r p) as [[]|]; try tauto.
      destruct (at_path r' p) as [[]|]; try tauto. eauto. }
    rewrite concat_map. eapply sums_to_nested with (bs := map (leaf_at p) rs).
    + clear - HF Hne Hall. induction HF as [|r' l rs ls Hl HF IH]; simpl; constructor.
      * destruct l as [|t l]; [exfalso; apply (Hne []); simpl; auto|].
        destruct Hl as (_ & L1 & L2). apply (L2 p t); [now left|].
        specialize (L1 t (or_introl eq_refl) p). destruct (Hall r' (or_introl eq_refl)) as [a Ha]. rewrite Ha in L1.
        destruct (at_path t p) as [[]|]; try tauto. eauto.
      * apply IH; intros; [apply Hne|apply Hall]; simpl; auto.
    + destruct rs as [|r' rs]; [inversion HF; subst; destruct Ht|].
      apply (H2 p r'); [now left|apply Hall; now left].
Qed.
Lemma tsums_unique r r' l : l <> [] -> tsums r l -> tsums r' l -> tree_rel da_equiv r r'.
Proof.
  intros Hne (A0 & A1 & A2) (B0 & B1 & B2) p. destruct l as [|t l]; [congruence|].
  pose proof (A1 t (or_introl eq_refl) p) as HA. pose proof (B1 t (or_introl eq_refl) p) as HB.
  destruct (at_path t p) as [[a| |x|]|] eqn:Et; destruct (at_path r p) as [[b| | |]|] eqn:Er; try tauto;
  destruct (at_path r' p) as [[c| | |]|] eqn:Er'; try tauto; try congruence.
  pose proof (A2 p t (or_introl eq_refl) (ex_intro _ a Et)) as SA.
  pose proof (B2 p t (or_introl eq_refl) (ex_intro _ a Et)) as SB.
  unfold leaf_at at 1 in SA. unfold leaf_at at 1 in SB. rewrite Er in SA. rewrite Er' in SB.
  eapply sums_to_unique; eauto.
Qed.

(** ** States *)
Definition tr (p : tree da * tree da) : tree da := Seq [fst p; snd p].
Definition stree (s : state) : list (tree da) := match s with Some p => [tr p] | None => [] end.

Lemma plain_tr p : plain (tr p) <-> plain (fst p) /\ plain (snd p).
Proof. simpl. tauto. Qed.
Lemma tree_rel_tr (R : da -> da -> Prop) p q : tree_rel R (tr p) (tr q) <-> tree_rel R (fst p) (fst q) /\ tree_rel R (snd p) (snd q).
Proof.
  split.
  - intros H. split; intros r; [apply (H (Idx 0 :: r))|apply (H (Idx 1 :: r))].
  - intros [H1 H2] r. destruct r as [|[k|[|[|n]]] r]; cbn; auto; [apply H1|apply H2|]. destruct n; simpl; auto.
Qed.

Definition ssums (s : state) (l : list (tree da * tree da)) : Prop :=
  match s with
  | None => l = []
  | Some p => l <> [] /\ tsums (tr p) (map tr l)
  end.

Section Expr.
  Fixpoint expr_ind' (P : sum_expr -> Prop) (HA : forall s, P (Atom s)) (HS : forall es, Forall P es -> P (SumOf es)) (e : sum_expr) : P e :=
    match e with
    | Atom s => HA s
    | SumOf es => HS es ((fix go l : Forall P l := match l with [] => Forall_nil _ | e' :: l' => Forall_cons e' (expr_ind' P HA HS e') (go l') end) es)
    end.
End Expr.

Lemma eval_SumOf es : eval (SumOf es) = do ss <- mapM eval es; state_sum ss.
Proof.
  simpl. f_equal. induction es; simpl; [reflexivity|]. now rewrite IHes.
Qed.
Lemma atoms_SumOf es : atoms (SumOf es) = flat_map atoms es.
Proof. simpl. induction es; simpl; [reflexivity|]. now rewrite IHes. Qed.

Lemma state_sum_spec ss ls :
  Forall2 ssums ss ls ->
  (forall p q, In p (concat ls) -> In q (concat ls) -> tree_rel C (tr p) (tr q)) ->
  exists s, state_sum ss = Ok s /\ ssums s (concat ls).
Proof.
  intros HF Hc.
  set (nz := nonzero_states ss).
  assert (exists ls', concat ls' = concat ls /\ (forall l, In l ls' -> l <> []) /\ Forall2 (fun p l => ssums (Some p) l) nz ls') as (ls' & E & Hne & HF').
  { subst nz. clear Hc. induction HF as [|s l ss ls Hs HF IH]; [exists []; repeat split; simpl; auto; try tauto; constructor|].
    destruct IH as (ls' & E & Hne & HF').
    destruct s as [p|]; simpl.
    - exists (l :: ls'). simpl. rewrite E. split; auto. split; [|constructor; auto].
      intros l' [<-|Hl']; [apply Hs|auto].
    - simpl in Hs. subst l. exists ls'. auto. }
  assert (state_sum ss = match nz with [] => Ok zero | ps =>
      do r <- tree_sum (map (fun p => Seq [fst p; snd p]) ps);
      match r with Seq [x; y] => Ok (Some (x, y)) | _ => Err ValueError end end) as EQ by (unfold state_sum; fold nz; destruct nz; reflexivity).
  rewrite EQ. clear EQ. destruct nz as [|p0 nz'].
  { inversion HF'; subst. simpl in E. exists zero. split; auto. simpl. auto. }
  set (ps := p0 :: nz') in *.
  assert (forall r1, In r1 ps -> exists l2, In l2 ls' /\ ssums (Some r1) l2) as Hfind.
  { intros r1 Hr1. clear - HF' Hr1. induction HF'; simpl in *; [tauto|].
    destruct Hr1 as [->|Hr1]; [eauto|]. destruct (IHHF' Hr1) as [z [? ?]]; eauto. }
  destruct (tree_sum_tsums (map tr ps)) as (r & Hr & Hts).
  { subst ps. discriminate. }
  { intros t Ht. apply in_map_iff in Ht. destruct Ht as [p [<- Hp]].
    destruct (Hfind p Hp) as (l2 & _ & Hs2). apply Hs2. }
  { intros t u Ht Hu. apply in_map_iff in Ht. destruct Ht as [p [<- Hp]]. apply in_map_iff in Hu. destruct Hu as [q [<- Hq]].
    destruct (Hfind p Hp) as (lp & Hlp & Hnp & Hsp). destruct (Hfind q Hq) as (lq & Hlq & Hnq & Hsq).
    destruct lp as [|x lp]; [congruence|]. destruct lq as [|y lq]; [congruence|].
    destruct Hsp as (_ & Hsp & _), Hsq as (_ & Hsq & _).
    apply (tree_rel_trans C _ (tr x) _ C_trans); [apply tree_rel_sym; [exact C_sym|apply Hsp; now left]|].
    apply (tree_rel_trans C _ (tr y) _ C_trans); [|apply Hsq; now left].
    apply Hc; rewrite <- E; apply in_concat; [exists (x :: lp)|exists (y :: lq)]; simpl; auto. }
  change (map (fun p => Seq [fst p; snd p]) ps) with (map tr ps). rewrite Hr. simpl.
  assert (exists x y, r = Seq [x; y]) as (x & y & ->).
  { destruct Hts as (_ & H1 & _). specialize (H1 (tr p0)). subst ps. simpl in H1. specialize (H1 (or_introl eq_refl) []).
    simpl in H1. destruct r as [| |[|x [|y [|]]]|]; try tauto; try discriminate. eauto. }
  exists (Some (x, y)). split; [reflexivity|]. rewrite <- E. simpl. split.
  - inversion HF'; subst. simpl. destruct y0; [|discriminate]. exfalso. eapply Hne; [now left|reflexivity].
  - rewrite concat_map. eapply tsums_nested; [|  |exact Hts].
    + clear - HF'. induction HF'; simpl; constructor; auto. apply H.
    + intros l Hl. apply in_map_iff in Hl. destruct Hl as [l' [<- Hl']]. specialize (Hne l' Hl'). destruct l'; simpl; congruence.
Qed.

Theorem eval_spec e :
  (forall p, In p (atoms e) -> plain (fst p) /\ plain (snd p)) ->
  (forall p q, In p (atoms e) -> In q (atoms e) -> compatible (Some p) (Some q)) ->
  exists s, eval e = Ok s /\ ssums s (atoms e).
Proof.
  assert (forall p q, compatible (Some p) (Some q) -> tree_rel C (tr p) (tr q)) as HC.
  { intros [p1 p2] [q1 q2] H. now apply tree_rel_tr. }
  induction e as [s|es IH] using expr_ind'; intros Hp Hc.
  - exists s. split; auto. destruct s as [p|]; simpl; [|reflexivity]. split; [discriminate|]. simpl in *.
    apply tsums_single; [apply plain_tr, Hp; now left|apply HC, Hc; simpl; auto].
  - rewrite eval_SumOf. rewrite atoms_SumOf in *.
    assert (exists ss, mapM eval es = Ok ss /\ Forall2 ssums ss (map atoms es)) as (ss & Hss & HF).
    { clear HC. induction es as [|e es IHe]; simpl; [exists []; split; auto|].
      inversion IH as [|? ? IH1 IH2]; subst.
      destruct IH1 as (s & -> & Hs); [intros; apply Hp; simpl; rewrite in_app_iff; auto|intros; apply Hc; simpl; rewrite in_app_iff; auto|].
      destruct (IHe IH2) as (ss & -> & HF); [intros; apply Hp; simpl; rewrite in_app_iff; auto|intros; apply Hc; simpl; rewrite in_app_iff; auto|].
      simpl. exists (s :: ss). split; auto. }
    rewrite Hss. simpl. rewrite flat_map_concat_map. apply state_sum_spec; auto.
    intros p q Hp' Hq'. apply HC, Hc; rewrite flat_map_concat_map; auto.
Qed.

Theorem eval_bracket_perm e1 e2 :
  (forall p, In p (atoms e1) -> plain (fst p) /\ plain (snd p)) ->
  (forall p q, In p (atoms e1) -> In q (atoms e1) -> compatible (Some p) (Some q)) ->
  Permutation (atoms e1) (atoms e2) ->
  exists s1 s2, eval e1 = Ok s1 /\ eval e2 = Ok s2 /\ state_equiv s1 s2.
Proof.
  intros Hp Hc HP.
  assert (forall p, In p (atoms e2) -> In p (atoms e1)) as Hin by (intros p; apply Permutation_in, Permutation_sym; auto).
  destruct (eval_spec e1 Hp Hc) as (s1 & E1 & S1).
  destruct (eval_spec e2) as (s2 & E2 & S2); [intros; apply Hp; auto|intros; apply Hc; auto|].
  exists s1, s2. split; auto. split; auto.
  destruct s1 as [p1|], s2 as [p2|]; simpl in S1, S2.
  - destruct S1 as [N1 S1], S2 as [N2 S2].
    apply (tsums_perm _ _ (map tr (atoms e2))) in S1; [|now apply Permutation_map].
    assert (tree_rel da_equiv (tr p1) (tr p2)) as H.
    { eapply tsums_unique; eauto. destruct (atoms e2); simpl; congruence. }
    apply tree_rel_tr in H. destruct p1, p2. exact H.
  - destruct S1 as [N1 _]. rewrite S2 in HP. apply Permutation_sym, Permutation_nil in HP. congruence.
  - destruct S2 as [N2 _]. rewrite S1 in HP. apply Permutation_nil in HP. congruence.
  - exact I.
Qed.

Theorem sum_value_spec ps s :
  ps <> [] ->
  (forall p, In p ps -> plain (fst p) /\ plain (snd p)) ->
  (forall p q, In p ps -> In q ps -> compatible (Some p) (Some q)) ->
  state_sum (map Some ps) = Ok s ->
  exists x y, s = Some (x, y) /\
   (forall q p, In p ps ->
     (forall a, at_path (fst p) q = Some (Leaf a) -> exists b, at_path x q = Some (Leaf b) /\ da_equiv b (combining_sum (map (fun p => leaf_at q (fst p)) ps))) /\
     (forall a, at_path (snd p) q = Some (Leaf a) -> exists b, at_path y q = Some (Leaf b) /\ da_equiv b (combining_sum (map (fun p => leaf_at q (snd p)) ps)))).
Proof.
  intros Hne Hp Hc Hs.
  destruct (state_sum_spec (map Some ps) (map (fun p => [p]) ps)) as (s' & Es & Hss).
  { assert (forall l, (forall p, In p l -> In p ps) -> Forall2 ssums (map Some l) (map (fun p => [p]) l)) as Q; [|apply Q; auto].
    induction l as [|p l IH]; intros Hsub; simpl; constructor; [|apply IH; intros; apply Hsub; now right].
    simpl. split; [discriminate|].
    assert (In p ps) as Hin by (apply Hsub; now left).
    apply tsums_single; [now apply plain_tr, Hp|]. destruct p as [p1 p2]. apply tree_rel_tr. apply (Hc _ _ Hin Hin). }
  { assert (concat (map (fun p => [p]) ps) = ps) as -> by (clear; induction ps; simpl; congruence).
    intros [p1 p2] [q1 q2] Hp' Hq'. apply tree_rel_tr. apply (Hc _ _ Hp' Hq'). }
  assert (concat (map (fun p => [p]) ps) = ps) as E by (clear; induction ps; simpl; congruence).
  rewrite E in Hss. rewrite Hs in Es. injection Es as <-.
  destruct s as [[x y]|]; [|simpl in Hss; congruence]. exists x, y. split; auto.
  destruct Hss as (_ & _ & Hrel & Hleaf).
  assert (forall i q p (f : tree da * tree da -> tree da), (forall p, nth_error [fst p; snd p] i = Some (f p)) -> In p ps ->
      forall a, at_path (f p) q = Some (Leaf a) -> exists b, at_path (f (x, y)) q = Some (Leaf b) /\ da_equiv b (combining_sum (map (fun p => leaf_at q (f p)) ps))) as Q.
  { intros i q p f Hf Hin a Ha.
    assert (forall p, at_path (tr p) (Idx i :: q) = at_path (f p) q) as Hat by (intros p'; cbn; now rewrite Hf).
    pose proof (Hleaf (Idx i :: q) (tr p) (in_map tr _ _ Hin) (ex_intro _ a (eq_trans (Hat p) Ha))) as HS.
    specialize (Hrel (tr p) (in_map tr _ _ Hin) (Idx i :: q)). rewrite !Hat, Ha in Hrel.
    destruct (at_path (f (x, y)) q) as [[b| | |]|] eqn:Eb; try tauto. exists b. split; auto.
    unfold leaf_at at 1 in HS. rewrite (Hat (x, y)), Eb in HS. rewrite map_map in HS.
    assert (map (fun p0 => leaf_at (Idx i :: q) (tr p0)) ps = map (fun p0 => leaf_at q (f p0)) ps) as EM.
    { apply map_ext. intros p'. unfold leaf_at. now rewrite Hat. }
    assert (forall u, In u ps -> C (leaf_at q (f u)) a) as G.
    { intros u Hu. pose proof (Hc u p Hu Hin) as GG. destruct u as [p1 p2], p as [p3 p4]. destruct GG as [G1 G2].
      assert (tree_rel C (f (p1, p2)) (f (p3, p4))) as G.
      { pose proof (Hf (p1, p2)) as F1. pose proof (Hf (p3, p4)) as F2. destruct i as [|[|i]]; simpl in *; try (injection F1 as <-; injection F2 as <-; assumption). destruct i; discriminate. }
      specialize (G q). rewrite Ha in G. unfold leaf_at. destruct (at_path (f (p1, p2)) q) as [[]|]; try tauto. }
    rewrite EM in HS. eapply sums_to_unique; [exact HS|]. apply sums_to_comb.
    - intros z Hz. apply in_map_iff in Hz. destruct Hz as [p' [<- Hp']]. apply (G p' Hp').
    - intros z w Hz Hw. apply in_map_iff in Hz. destruct Hz as [p' [<- Hp']]. apply in_map_iff in Hw. destruct Hw as [p'' [<- Hp'']].
      pose proof (C_trans _ _ _ (G p' Hp') (C_sym _ _ (G p'' Hp''))) as (_ & _ & R). exact R. }
  intros q p Hin. split; [apply (Q 0%nat q p fst); auto|apply (Q 1%nat q p snd); auto].
Qed.

Lemma comb_sum_value arrs e :
  exists vs, Forall2 (fun a v => contributes a e v) arrs vs /\ get (combining_sum arrs) e = vsum vs.
Proof.
  exists (map (fun a => zx a e) arrs). split.
  - induction arrs; simpl; constructor; auto. now apply contributes_zx.
  - apply comb_sum_get.
Qed.
Lemma vsum_NaN_inv l : (forall v, In v l -> isfin v = true \/ v = NaN) -> vsum l = NaN -> In NaN l.
Proof.
  induction l as [|v l IH]; intros Hl; simpl; [discriminate|].
  destruct (Hl v (or_introl eq_refl)) as [Hv| ->]; [|auto]. destruct v; try discriminate.
  intros HN. right. apply IH; [intros; apply Hl; now right|]. 
  destruct (vsum l) eqn:E; try discriminate HN; auto.
Qed.
Lemma comb_sum_no_new_NaN arrs e :
  (forall a, In a arrs -> point_of (dims a) e -> isfin (get a e) = true \/ get a e = NaN) ->
  get (combining_sum arrs) e = NaN -> exists a, In a arrs /\ point_of (dims a) e /\ get a e = NaN.
Proof.
  intros Hf HN. change (get (comb_sum arrs) e = NaN) in HN. rewrite comb_sum_get in HN. apply vsum_NaN_inv in HN.
  - apply in_map_iff in HN. destruct HN as [a [Ha Hin]]. exists a. split; auto.
    unfold zx in Ha. destruct (in_box (dims a) e) eqn:E; [|discriminate]. apply in_box_iff in E. auto.
  - intros v Hv. apply in_map_iff in Hv. destruct Hv as [a [<- Ha]]. unfold zx.
    destruct (in_box (dims a) e) eqn:E; [|now left]. apply in_box_iff in E. auto.
Qed.
