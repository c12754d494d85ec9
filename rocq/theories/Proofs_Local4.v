(** Bins by the values of a coordinate that occur (ByExactCoord, ByTimeUnit): their labels depend on the chunk. *)
From Coq Require Import String ZArith QArith Qround Qcanon Bool List Lia.
Import ListNotations.
From Verif Require Import Prelude Values Model_XArray Spec_XArray Proofs_XArray Model_Deterministic Model_Aggregation Spec_Aggregator Model_TimeChunks Model_Beam Spec_Beam
  Model_Calendar Model_Binning Spec_Binning Proofs_Binning Proofs_Binning2 Proofs_Binning3 Proofs_Binning4 Proofs_Local Proofs_Local2.
From Coq Require Import Reals.
Local Open Scope string_scope.
Local Open Scope list_scope.

Lemma vectorized_dims fmt ds f d g m : vectorized_coord_mask fmt (ds, f) d g = Ok m ->
  dims m = (d, glob_labels g ++ map (bin_label fmt g) (uniq ds f)) :: ds /\ ~ In d (map fst ds).
Proof.
  unfold vectorized_coord_mask, stack_parts. cbn [fst snd]. destruct (memb d (map fst ds)) eqn:E; [discriminate|]. intros [= <-]. apply memb_false in E. split; auto.
  cbn [dims]. f_equal. f_equal. rewrite bits_fst. fold (uniq ds f). destruct g; cbn [app glob_labels map fst].
  - f_equal. rewrite !map_map. reflexivity.
  - rewrite map_map. reflexivity.
Qed.
Lemma chunk_point I L ds e : point_of (chunk_dims I L ds) e <-> point_of ds e /\ forall k, In k (map fst ds) -> in_chunk I L k (e k).
Proof.
  split.
  - intros P. split.
    + intros k ls Ik. assert (In (k, filter (in_chunkb I L k) ls) (chunk_dims I L ds)) as H by (apply chunk_In; eauto). apply P in H. apply filter_In in H. apply H.
    + intros k Hk. apply in_map_iff in Hk. destruct Hk as ([k' ls] & <- & Ik). cbn [fst]. assert (In (k', filter (in_chunkb I L k') ls) (chunk_dims I L ds)) as H by (apply chunk_In; eauto).
      apply P in H. apply filter_In in H. apply in_chunkb_iff, H.
  - intros [P Q] k ls Ik. apply chunk_In in Ik. destruct Ik as (ls0 & I0 & ->). apply filter_In. split; [apply (P k ls0 I0)|]. apply in_chunkb_iff, Q. apply (in_map fst _ _ I0).
Qed.
Lemma upd_id e d : forall k, upd e d (e d) k = e k.
Proof. intros k. unfold upd. destruct (string_dec k d) as [->|]; reflexivity. Qed.

Section Dynamic.
  Variables (fmt : label -> string) (k : err) (name d : string) (g : bool) (u : label -> label) (F : da -> result da).
  Hypothesis Hd : ~ time_dim d.
  Hypothesis NL : forall ls, NoDup ls -> (forall l, In l ls -> exists l0, l = u l0) -> NoDup (glob_labels g ++ map (bin_label fmt g) ls).
  Hypothesis HF : forall st x, F st = Ok x -> exists c, get_coord k st name = Ok c /\ vectorized_coord_mask fmt (fst c, fun e => u (snd c e)) d g = Ok x.
  Hypothesis HFc : forall I L st c x y, time_slice I L st c -> F st = Ok x -> (do q <- get_coord k c name; vectorized_coord_mask fmt (fst q, fun e => u (snd q e)) d g) = Ok y -> F c = Ok y.

  Lemma dyn_view a x : wf a -> F a = Ok x -> exists ds f, get_coord k a name = Ok (ds, f) /\ coord_ok a name ds f /\
     vectorized_coord_mask fmt (ds, fun e => u (f e)) d g = Ok x.
  Proof.
    intros Wa H. apply HF in H. destruct H as ([ds f] & Ec & H). cbn [fst snd] in H. exists ds, f. split; auto. split; auto. apply get_coord_Ok in Ec. apply (coord_array_ok _ _ _ _ Wa Ec).
  Qed.
  Lemma dyn_labels ds f : NoDup (glob_labels g ++ map (bin_label fmt g) (uniq ds (fun e => u (f e)))).
  Proof. apply NL; [apply NoDup_nodup|]. intros l Il. unfold uniq in Il. apply nodup_In, in_map_iff in Il. destruct Il as (e & <- & _). eauto. Qed.

  Lemma uniq_chunk I L ds f l : NoDup (map fst ds) -> only ds f -> In l (uniq (chunk_dims I L ds) f) -> In l (uniq ds f).
  Proof.
    intros N O Il. assert (only (chunk_dims I L ds) f) as O' by (intros e e' He; apply O; rewrite <- (chunk_names I L); auto).
    apply (uniq_In (chunk_dims I L ds) f l) in Il; auto; [|rewrite chunk_names; auto]. destruct Il as (e & P & E). apply uniq_In; auto. exists e. split; auto. apply chunk_point in P. apply P.
  Qed.

  Lemma dyn_values a x ds f e : wf a -> coord_ok a name ds f -> vectorized_coord_mask fmt (ds, fun e => u (f e)) d g = Ok x ->
    (forall l, In l (uniq ds (fun e => u (f e))) -> e d = bin_label fmt g l -> shows (get x e) (u (f e) = l)) /\
    (g = true -> e d = LS "global" -> get x e = Fin 1%R) /\ wf x /\ (forall e, point_of (dims x) e -> get x e = Fin 0%R \/ get x e = Fin 1%R).
  Proof.
    intros Wa C H. assert (only ds (fun e => u (f e))) as O by (apply (only_fun ds f u), C).
    destruct (vectorized_spec fmt a ds _ d g x Wa (co_sub _ _ _ _ C) (co_nodup _ _ _ _ C) O H) as (_ & V). destruct (V (dyn_labels ds f)) as (M & S & G).
    split; [|split; [|split; [apply M|apply M]]].
    - intros l Il E. specialize (S l e Il). unfold in_bin in S. rewrite <- E in S. replace (get x e) with (get x (upd e d (e d))); auto. apply M. intros k' _. apply upd_id.
    - intros Eg E. specialize (G Eg e). unfold in_bin in G. rewrite <- E in G. rewrite <- G. apply M. intros k' _. symmetry. apply upd_id.
  Qed.

  Lemma dynamic_local : time_local [d] F.
  Proof.
    intros a x Wa Ha. destruct (dyn_view a x Wa Ha) as (ds & f & Ec & C & H). pose proof (vectorized_dims _ _ _ _ _ _ H) as (Dx & Nd).
    destruct (dyn_values a x ds f env0 Wa C H) as (_ & _ & Wx & _). split; auto. split.
    { intros k' l T Ik Il. unfold dnames in Ik. rewrite Dx in Ik. cbn [map fst] in Ik. destruct Ik as [<-|Ik]; [contradiction|].
      apply in_map_iff in Ik. destruct Ik as ([k'' ls] & <- & Ik). cbn [fst] in *. unfold labels_of in *.
      assert (dget (dims a) k'' = Some ls) as Ga by (destruct Wa as (N & _); apply In_dget; auto; apply (co_sub _ _ _ _ C); auto).
      rewrite Ga in Il. rewrite (@In_dget string (list label) _ (dims x) k'' ls); auto; [apply Wx|rewrite Dx; right; auto]. }
    intros I L c Wc S.
    assert (~ In d (map fst (chunk_dims I L ds))) as Nd' by (rewrite chunk_names; auto).
    destruct (proj2 (vectorized_ok fmt (chunk_dims I L ds) (fun e => u (f e)) d g) Nd') as [y Hy].
    pose proof (get_coord_chunk _ _ _ _ _ _ _ _ S Ec) as Ecc. exists y. split.
    { apply (HFc I L a c x y S Ha). rewrite Ecc. exact Hy. }
    pose proof (vectorized_dims _ _ _ _ _ _ Hy) as (Dy & _).
    pose proof (coord_array_ok _ _ _ _ Wc (proj1 (get_coord_Ok _ _ _ _) Ecc)) as Cc.
    assert (forall k', labels_of (dims y) k' = if eq_dec k' d then glob_labels g ++ map (bin_label fmt g) (uniq (chunk_dims I L ds) (fun e => u (f e))) else filter (in_chunkb I L k') (labels_of ds k')) as Ly.
    { intros k'. unfold labels_of. rewrite Dy. cbn [dget]. destruct (eq_dec k' d); auto. rewrite chunk_dget. destruct (dget ds k'); reflexivity. }
    assert (forall k', labels_of (dims x) k' = if eq_dec k' d then glob_labels g ++ map (bin_label fmt g) (uniq ds (fun e => u (f e))) else labels_of ds k') as Lx.
    { intros k'. unfold labels_of. rewrite Dx. cbn [dget]. destruct (eq_dec k' d); auto. }
    assert (only ds (fun e => u (f e))) as O by (apply (only_fun ds f u), C).
    split.
    - apply (dyn_values c y _ f env0 Wc Cc Hy).
    - intros k'. unfold dnames. rewrite Dx, Dy. cbn [map fst]. rewrite chunk_names. reflexivity.
    - intros k' l. rewrite Ly, Lx. destruct (eq_dec k' d) as [->|].
      + intros Il. split; [|unfold in_chunk, time_dim in *; split; intros ->; exfalso; apply Hd; auto].
        apply in_app_iff in Il. apply in_app_iff. destruct Il as [Il|Il]; [left; auto|right]. apply in_map_iff in Il. apply in_map_iff. destruct Il as (l0 & E & Il). exists l0. split; auto.
        apply (uniq_chunk I L); auto. apply C.
      + rewrite filter_In, in_chunkb_iff. tauto.
    - intros k' l Nk. rewrite Ly, Lx. destruct (eq_dec k' d) as [->|]; [exfalso; apply Nk; left; auto|]. rewrite filter_In, in_chunkb_iff. tauto.
    - intros e P. assert (In (e d) (glob_labels g ++ map (bin_label fmt g) (uniq (chunk_dims I L ds) (fun e => u (f e))))) as Id by (apply P; rewrite Dy; left; auto).
      destruct (dyn_values a x ds f e Wa C H) as (Vx & Gx & _). destruct (dyn_values c y _ f e Wc Cc Hy) as (Vy & Gy & _).
      apply in_app_iff in Id. destruct Id as [Id|Id].
      + destruct g eqn:Eg; [|destruct Id]. destruct Id as [Id|[]]. rewrite Gx, Gy; auto.
      + apply in_map_iff in Id. destruct Id as (l & E & Il). symmetry in E. specialize (Vy l Il E).
        assert (In l (uniq ds (fun e => u (f e)))) as Il' by (apply (uniq_chunk I L); auto; apply C). specialize (Vx l Il' E). exact (shows_fun _ _ _ _ (iff_refl _) Vy Vx).
  Qed.

  Lemma dynamic_zero : zero_where_missing F.
  Proof.
    intros a x I L c y e Wa Wc Ha S Hc P T NP. destruct (dyn_view a x Wa Ha) as (ds & f & Ec & C & H). pose proof (vectorized_dims _ _ _ _ _ _ H) as (Dx & Nd).
    destruct (dyn_view c y Wc Hc) as (ds' & f' & Ec' & C' & H'). pose proof (get_coord_chunk _ _ _ _ _ _ _ _ S Ec) as Ecc. rewrite Ec' in Ecc. injection Ecc as -> ->.
    pose proof (vectorized_dims _ _ _ _ _ _ H') as (Dy & _).
    destruct (dyn_values a x ds f e Wa C H) as (Vx & Gx & _).
    assert (point_of ds e) as Pd by (intros k' ls Ik; apply P; rewrite Dx; right; auto).
    assert (point_of (chunk_dims I L ds) e) as Pc.
    { apply chunk_point. split; auto. intros k' Ik. assert (forall t, time_dim t -> t = k' -> in_chunk I L k' (e k')) as Q. { intros t Ht <-. apply T; auto. unfold dnames. rewrite Dx. right. auto. }
      split; intros Ek; [apply (Q "init_time")|apply (Q "lead_time")]; unfold time_dim; auto. }
    assert (~ In (e d) (glob_labels g ++ map (bin_label fmt g) (uniq (chunk_dims I L ds) (fun e => u (f e))))) as Nl.
    { intros Il. apply NP. intros k' ls Ik. rewrite Dy in Ik. destruct Ik as [[= <- <-]|Ik]; auto. }
    assert (In (e d) (glob_labels g ++ map (bin_label fmt g) (uniq ds (fun e => u (f e))))) as Id by (apply P; rewrite Dx; left; auto).
    apply in_app_iff in Id. destruct Id as [Id|Id]; [exfalso; apply Nl, in_app_iff; auto|]. apply in_map_iff in Id. destruct Id as (l & E & Il). symmetry in E.
    destruct (Vx l Il E) as [[E1 _]|[_ Z]]; auto. exfalso. apply Nl, in_app_iff. right. apply in_map_iff. exists l. split; auto.
    apply (uniq_In (chunk_dims I L ds) (fun e => u (f e)) l).
    - rewrite chunk_names. apply C.
    - intros e1 e2 He. apply (only_fun ds f u (co_only _ _ _ _ C)). rewrite <- (chunk_names I L). auto.
    - exists e. auto.
  Qed.
  Lemma dynamic_finite a x e : wf a -> F a = Ok x -> point_of (dims x) e -> exists r, get x e = Fin r.
  Proof.
    intros Wa Ha P. destruct (dyn_view a x Wa Ha) as (ds & f & Ec & C & H). destruct (dyn_values a x ds f e Wa C H) as (_ & _ & _ & Z). destruct (Z e P) as [-> | ->]; eauto.
  Qed.
End Dynamic.

Lemma exact_coord_local fmt name : ~ time_dim name ->
  time_local [name] (create_bin_mask (ByExactCoord fmt name false)) /\ zero_where_missing (create_bin_mask (ByExactCoord fmt name false)).
Proof.
  intros Hd. set (F := create_bin_mask (ByExactCoord fmt name false)).
  assert (forall st x, F st = Ok x -> exists c, get_coord KeyError st name = Ok c /\ vectorized_coord_mask fmt (fst c, fun e => snd c e) name false = Ok x) as HF.
  { intros st x H. unfold F, ByExactCoord in H. cbn [create_bin_mask] in H. destruct (memb name (dnames st)); [discriminate|]. destruct (get_coord KeyError st name) as [c|]; [|discriminate]. exists c. split; auto. }
  assert (forall I L st c x y, time_slice I L st c -> F st = Ok x -> (do q <- get_coord KeyError c name; vectorized_coord_mask fmt (fst q, fun e => snd q e) name false) = Ok y -> F c = Ok y) as HFc.
  { intros I L st c x y S H. unfold F, ByExactCoord in *. cbn [create_bin_mask] in *. destruct (memb name (dnames st)) eqn:E; [discriminate|].
    assert (memb name (dnames c) = false) as ->. { apply memb_false. apply memb_false in E. destruct S as (Dc & _). unfold dnames. rewrite Dc, chunk_names. exact E. }
    destruct (get_coord KeyError c name) as [q|]; auto. }
  assert (forall ls : list label, NoDup ls -> (forall l, In l ls -> exists l0 : label, l = l0) -> NoDup (glob_labels false ++ map (bin_label fmt false) ls)) as NL.
  { intros ls N _. cbn [glob_labels app]. rewrite (map_ext _ (fun l => l)) by reflexivity. rewrite map_id. exact N. }
  split; [apply (dynamic_local fmt KeyError name name false (fun l => l) F Hd NL HF HFc)|apply (dynamic_zero fmt KeyError name name false (fun l => l) F NL HF)].
Qed.

Lemma time_unit_local fmt delta unit dim g : ~ time_dim (dim ++ "_" ++ unit)%string ->
  (g = true -> forall u, extract_time_unit delta unit = Ok u -> forall t t', (fmt (u t) = fmt (u t') -> u t = u t') /\ fmt (u t) <> "global") ->
  time_local [(dim ++ "_" ++ unit)%string] (create_bin_mask (ByTimeUnit fmt delta unit dim g)) /\ zero_where_missing (create_bin_mask (ByTimeUnit fmt delta unit dim g)).
Proof.
  intros Hd Hf. set (F := create_bin_mask (ByTimeUnit fmt delta unit dim g)).
  destruct (extract_time_unit delta unit) as [u|] eqn:Eu.
  2:{ assert (forall a x, F a <> Ok x) as NF. { intros a x H. unfold F, ByTimeUnit in H. cbn [create_bin_mask] in H. destruct (get_coord KeyError a dim); [|discriminate]. cbn [bind] in H. rewrite Eu in H. discriminate. }
      split; [intros a x _ H|intros a x I L c y e0 _ _ H]; exfalso; apply (NF a x H). }
  assert (forall st x, F st = Ok x -> exists c, get_coord KeyError st dim = Ok c /\ vectorized_coord_mask fmt (fst c, fun e => u (time_value (snd c e))) (dim ++ "_" ++ unit)%string g = Ok x) as HF.
  { intros st x H. unfold F, ByTimeUnit in H. cbn [create_bin_mask] in H. destruct (get_coord KeyError st dim) as [c|]; [|discriminate]. cbn [bind] in H. rewrite Eu in H. exists c. split; auto. }
  assert (forall I L st c x y, time_slice I L st c -> F st = Ok x -> (do q <- get_coord KeyError c dim; vectorized_coord_mask fmt (fst q, fun e => u (time_value (snd q e))) (dim ++ "_" ++ unit)%string g) = Ok y -> F c = Ok y) as HFc.
  { intros I L st c x y S H. unfold F, ByTimeUnit in *. cbn [create_bin_mask] in *. destruct (get_coord KeyError c dim) as [q|]; auto. cbn [bind]. rewrite Eu. auto. }
  assert (forall t, g = true -> bin_label fmt g (u t) = LS (fmt (u t))) as BL.
  { intros t ->. unfold bin_label, cast_str. destruct (u t) eqn:Et; auto. exfalso. clear -Et Eu. unfold extract_time_unit in Eu.
    repeat match type of Eu with (if ?b then _ else _) = _ => destruct b end; try discriminate; injection Eu as <-; discriminate. }
  assert (forall ls : list label, NoDup ls -> (forall l, In l ls -> exists l0 : label, l = u (time_value l0)) -> NoDup (glob_labels g ++ map (bin_label fmt g) ls)) as NL.
  { intros ls N R. destruct (bool_dec g true) as [Eg|Eg].
    - pose proof (Hf Eg u eq_refl) as Hu. replace (glob_labels g) with [LS "global"] by (rewrite Eg; reflexivity). cbn [app]. constructor.
      + rewrite in_map_iff. intros (l & E & Il). destruct (R l Il) as [l0 ->]. rewrite BL in E by auto. injection E as E. apply (proj2 (Hu (time_value l0) 0%Z)), E.
      + clear -N R Hu BL Eg. induction N as [|l ls Nl N IH]; cbn [map]; constructor.
        * rewrite in_map_iff. intros (l' & E & Il). destruct (R l (or_introl eq_refl)) as [l0 ->]. destruct (R l' (or_intror Il)) as [l1 ->].
          rewrite !BL in E by auto. injection E as E. apply Hu in E. rewrite <- E in Nl. contradiction.
        * apply IH. intros l' Il. apply R. right. auto.
    - destruct g; [congruence|]. cbn [glob_labels app]. rewrite (map_ext _ (fun l => l)) by reflexivity. rewrite map_id. exact N. }
  split; [apply (dynamic_local fmt KeyError dim (dim ++ "_" ++ unit)%string g (fun l => u (time_value l)) F Hd NL HF HFc)|apply (dynamic_zero fmt KeyError dim (dim ++ "_" ++ unit)%string g (fun l => u (time_value l)) F NL HF)].
Qed.
