(** C40: several loaders with constant latencies. *)
From Coq Require Import String ZArith List Bool Permutation Lia.
Import ListNotations.
From Verif Require Import Prelude Values Model_XArray Spec_XArray Proofs_XArray Model_MetricsBase Model_TimeChunks Model_Deterministic
  Model_Loaders Model_Latency Spec_Loaders Proofs_Loaders Proofs_Loaders2 Proofs_Latency Proofs_Beam9 Proofs_AggState Props_Loaders Props_LoadChunk Props_Latency.
Local Open Scope Z_scope.
Local Open Scope string_scope.
Local Open Scope list_scope.

(** The loader [w] has, for the query [t], the run [n] available. *)
Definition offers (w : wrapped_loader) (t n : Z) : Prop := latest_issued (wl_nominal w) (wl_latency w) t n.

Section Multi.
Variable argsort : list (Z * Z) -> list nat.
Hypothesis Hsort : argsort_ok argsort.

Lemma argsort_head l i r : argsort l = i :: r -> (i < length l)%nat /\ forall j, (j < length l)%nat -> lex_le (nth i l (0, 0)) (nth j l (0, 0)).
Proof.
  intros E. destruct (Hsort l) as [P S]. assert (In i (seq 0 (length l))) as Ii by (apply (Permutation_in i P); rewrite E; left; auto). apply in_seq in Ii. split; [lia|]. intros j Hj.
  assert (In j (argsort l)) as Ij by (apply (Permutation_in j (Permutation_sym P)); apply in_seq; lia). apply In_nth_error in Ij. destruct Ij as [k Ek].
  apply (S 0%nat k (0, 0) i j); auto; [rewrite E; reflexivity|lia].
Qed.
Lemma argsort_nil l : argsort l = [] -> l = [].
Proof. intros E. destruct (Hsort l) as [P _]. rewrite E in P. apply Permutation_nil in P. destruct l; [reflexivity|discriminate]. Qed.

Lemma get_data_loader_Ok loaders t w : get_data_loader argsort loaders t = Ok w ->
  In w loaders /\ exists n, offers w t n /\
    forall w', In w' loaders -> exists n', offers w' t n' /\ lex_le (seconds (t - n), seconds (- wl_latency w)) (seconds (t - n'), seconds (- wl_latency w')).
Proof.
  unfold get_data_loader. destruct (mapM _ loaders) as [ks|] eqn:Ek; [|discriminate]. cbn [bind]. destruct (argsort ks) as [|i r] eqn:Ea; [discriminate|]. destruct (nth_error loaders i) as [w0|] eqn:Ew; [|discriminate]. intros [= <-].
  split; [apply (nth_error_In _ _ Ew)|]. destruct (argsort_head _ _ _ Ea) as [Li Hmin].
  assert (forall j wj, nth_error loaders j = Some wj -> (j < length ks)%nat /\ exists n, offers wj t n /\ nth j ks (0, 0) = (seconds (t - n), seconds (- wl_latency wj))) as Q.
  { clear - Ek. revert ks Ek. induction loaders as [|w1 ws IH]; intros ks Ek j wj Ej; [destruct j; discriminate|]. cbn [mapM] in Ek. destruct (get_available_init_time (wl_nominal w1) (wl_latency w1) t) as [n|] eqn:En; [|discriminate]. cbn [bind] in Ek.
    destruct (mapM _ ws) as [r|]; [|discriminate]. cbn [bind] in Ek. injection Ek as <-. destruct j as [|j].
    - cbn in Ej. injection Ej as <-. split; [cbn; lia|]. exists n. split; [apply available_Ok, En|reflexivity].
    - destruct (IH r eq_refl j wj Ej) as [A B]. split; [cbn; lia|exact B]. }
  destruct (Q i w0 Ew) as (_ & n & On & En). exists n. split; auto. intros w' Iw. apply In_nth_error in Iw. destruct Iw as [j Ej]. destruct (Q j w' Ej) as (Lj & n' & On' & En'). exists n'. split; auto. rewrite <- En, <- En'. apply Hmin, Lj.
Qed.
Lemma offers_fun w t n n' : offers w t n -> offers w t n' -> n = n'.
Proof. intros (A & B & C) (A' & B' & C'). pose proof (C _ A' B'). pose proof (C' _ A B). lia. Qed.

(** ** C40 *)
(** The loader chosen for a query has the latest run available among all loaders; among loaders with
    that run, the largest latency (times and latencies in whole seconds). *)
Theorem C40_freshest_loader : forall loaders t w,
  whole_second t -> (forall w, In w loaders -> whole_second (wl_latency w) /\ forall n, In n (wl_nominal w) -> whole_second n) ->
  get_data_loader argsort loaders t = Ok w ->
  In w loaders /\ exists n, offers w t n /\
    forall w' n', In w' loaders -> offers w' t n' -> n' <= n /\ (n' = n -> wl_latency w' <= wl_latency w).
Proof.
  intros loaders t w [st Et] Hs H. destruct (get_data_loader_Ok _ _ _ H) as (Iw & n & On & Hmin). split; auto. exists n. split; auto. intros w' n' Iw' On'. destruct (Hmin w' Iw') as (n2 & On2 & Lx). assert (n2 = n') as -> by (eapply offers_fun; eauto).
  destruct (Hs w Iw) as [[sl El] Hn]. destruct (Hs w' Iw') as [[sl' El'] Hn']. destruct (Hn n (proj1 On)) as [sn Esn]. destruct (Hn' n' (proj1 On')) as [sn' Esn'].
  assert (forall x, seconds (x * 1000000000) = x) as Sx by (intros x; unfold seconds; apply Z.div_mul; lia).
  unfold lex_le in Lx. cbn [fst snd] in Lx. replace (t - n) with ((st - sn) * 1000000000) in Lx by lia. replace (t - n') with ((st - sn') * 1000000000) in Lx by lia.
  replace (- wl_latency w) with ((- sl) * 1000000000) in Lx by lia. replace (- wl_latency w') with ((- sl') * 1000000000) in Lx by lia. rewrite !Sx in Lx. split; [lia|]. intros ->. assert (sn = sn') by lia. lia.
Qed.
(** In general the chosen run is less than a second older than the latest. *)
Theorem C40_freshest_up_to_a_second : forall loaders t w, get_data_loader argsort loaders t = Ok w ->
  In w loaders /\ exists n, offers w t n /\ forall w' n', In w' loaders -> offers w' t n' -> n' < n + 1000000000.
Proof.
  intros loaders t w H. destruct (get_data_loader_Ok _ _ _ H) as (Iw & n & On & Hmin). split; auto. exists n. split; auto. intros w' n' Iw' On'. destruct (Hmin w' Iw') as (n2 & On2 & Lx). assert (n2 = n') as -> by (eapply offers_fun; eauto).
  unfold lex_le, seconds in Lx. cbn [fst snd] in Lx. assert ((t - n) / 1000000000 <= (t - n') / 1000000000) as Hd by lia.
  pose proof (Z.div_mod (t - n) 1000000000 ltac:(lia)). pose proof (Z.div_mod (t - n') 1000000000 ltac:(lia)). pose proof (Z.mod_pos_bound (t - n) 1000000000 ltac:(lia)). pose proof (Z.mod_pos_bound (t - n') 1000000000 ltac:(lia)). lia.
Qed.
(** A loader is found exactly if there are loaders and every one of them has an issued run: a single
    loader without one makes the query fail with ValueError, even if others could serve it. *)
Theorem C40_every_loader_must_have_issued_a_run : forall loaders t,
  ((exists w, get_data_loader argsort loaders t = Ok w) <-> loaders <> [] /\ forall w, In w loaders -> exists n, offers w t n) /\
  (loaders = [] -> get_data_loader argsort loaders t = Err IndexError) /\
  (forall w, In w loaders -> (forall n, ~ offers w t n) -> get_data_loader argsort loaders t = Err ValueError).
Proof.
  intros loaders t. assert (loaders = [] -> get_data_loader argsort loaders t = Err IndexError) as Hnil.
  { intros ->. unfold get_data_loader. cbn [mapM bind]. destruct (argsort []) as [|i r] eqn:E; [reflexivity|]. destruct (argsort_head _ _ _ E) as [L _]. cbn in L. lia. }
  assert (forall w, In w loaders -> (forall n, ~ offers w t n) -> get_data_loader argsort loaders t = Err ValueError) as Herr.
  { intros w Iw Hn. unfold get_data_loader. assert (forall w e, In w loaders -> (do n <- get_available_init_time (wl_nominal w) (wl_latency w) t; Ok (seconds (t - n), seconds (- wl_latency w))) = Err e -> e = ValueError) as He.
    { intros w' e _ E. destruct (get_available_init_time _ _ _) as [n|e'] eqn:En; [discriminate|]. cbn [bind] in E. injection E as <-. apply available_Err in En. apply En. }
    rewrite (mapM_error _ loaders ValueError He); [reflexivity|]. exists w, ValueError. split; auto. destruct (get_available_init_time (wl_nominal w) (wl_latency w) t) as [n|e] eqn:En.
    - apply available_Ok in En. exfalso. apply (Hn n En).
    - apply available_Err in En. destruct En as [-> _]. reflexivity. }
  split; [|split; auto]. split.
  - intros [w H]. split; [intros E; rewrite (Hnil E) in H; discriminate|]. intros w' Iw'. destruct (get_data_loader_Ok _ _ _ H) as (_ & n & _ & Hm). destruct (Hm w' Iw') as (n' & On' & _). eauto.
  - intros [Ne H]. unfold get_data_loader. destruct (mapM_total (fun w => do n <- get_available_init_time (wl_nominal w) (wl_latency w) t; Ok (seconds (t - n), seconds (- wl_latency w))) loaders) as [ks Ek].
    { intros w Iw. destruct (H w Iw) as [n On]. apply available_Ok in On. rewrite On. cbn [bind]. eauto. }
    rewrite Ek. cbn [bind]. destruct (argsort ks) as [|i r] eqn:Ea.
    + apply argsort_nil in Ea. subst ks. pose proof (mapM_Ok_length _ _ Ek) as Hl. destruct loaders; [congruence|discriminate].
    + destruct (argsort_head _ _ _ Ea) as [Li _]. pose proof (mapM_Ok_length _ _ Ek) as Hl. destruct (nth_error loaders i) as [w|] eqn:Ew; [eauto|]. apply nth_error_None in Ew. lia.
Qed.

(** The answers are put together query by query: the result has exactly the queried init times, each
    once, and for the query t the values of the chunk of the loader chosen for t (NaN where it has
    no such point). *)
Theorem C40_queries_answered_once : forall loaders inits leads reference out, NoDup inits ->
  (forall w t c v r, In w loaders -> In t inits -> wrapped_load_chunk w [t] leads reference = Ok c -> dget c v = Some r -> wf r /\ dget (dims r) "init_time" = Some [LZ t]) ->
  MultipleConstantLatencyWrapper argsort loaders "init_time" inits leads reference = Ok out ->
  forall v b, dget out v = Some b ->
    wf b /\ dget (dims b) "init_time" = Some (map LZ inits) /\
    forall t, In t inits -> exists w c r, get_data_loader argsort loaders t = Ok w /\ wrapped_load_chunk w [t] leads reference = Ok c /\ dget c v = Some r /\
      forall e, e "init_time" = LZ t -> (point_of (dims r) e -> get b e = get r e) /\ (~ point_of (dims r) e -> get b e = NaN).
Proof.
  intros loaders inits leads reference out N Hg H v b G. unfold MultipleConstantLatencyWrapper in H. destruct (mapM _ inits) as [chunks|] eqn:Ec; [|discriminate]. cbn [bind] in H. apply mapM_Ok_Forall2 in Ec.
  assert (Forall2 (fun t c => (exists w, get_data_loader argsort loaders t = Ok w /\ wrapped_load_chunk w [t] leads reference = Ok c) /\ forall v r, dget c v = Some r -> wf r /\ dget (dims r) "init_time" = Some [LZ t]) inits chunks) as F.
  { assert (forall t c, In t inits -> (do w <- get_data_loader argsort loaders t; wrapped_load_chunk w [t] leads reference) = Ok c ->
      (exists w, get_data_loader argsort loaders t = Ok w /\ wrapped_load_chunk w [t] leads reference = Ok c) /\ forall v r, dget c v = Some r -> wf r /\ dget (dims r) "init_time" = Some [LZ t]) as Q.
    { intros t c It E. destruct (get_data_loader argsort loaders t) as [w|] eqn:Ew; [|discriminate]. cbn [bind] in E. split; [eauto|]. intros v' r Gr. apply (Hg w t c v' r); auto. apply (get_data_loader_Ok _ _ _ Ew). }
    clear - Ec Q. induction Ec as [|t c ts cs Hc _ IH]; constructor; [apply Q; [left|]; auto|]. apply IH. intros; apply Q; auto. right. auto. }
  destruct (concat_queries _ _ _ _ N F H) as (first & _ & _ & Q). destruct (Q v b G) as (W & D & _ & _ & V). split; auto. split; auto. intros t It. destruct (V t It) as (c & r & _ & (w & Ew & Hc) & Gr & _ & _ & Hv). exists w, c, r. auto.
Qed.
(** Loaders of gridded data without processing and interpolation: every query t is answered by the
    latest run n of all loaders issued by t, at the same valid times. *)
Theorem C40_served_by_the_freshest_run : forall loaders inits leads reference out, NoDup inits -> NoDup leads ->
  (forall t, In t inits -> whole_second t) ->
  (forall w, In w loaders -> gridded (wl_source w) /\ wl_concat w = "init_time" /\ cfg_process (wl_config w) = None /\ cfg_interpolation (wl_config w) = None /\
     whole_second (wl_latency w) /\ forall n, In n (wl_nominal w) -> whole_second n) ->
  MultipleConstantLatencyWrapper argsort loaders "init_time" inits (Some (ChunkArr leads)) reference = Ok out ->
  forall v b, dget out v = Some b ->
    wf b /\ dget (dims b) "init_time" = Some (map LZ inits) /\
    forall t, In t inits -> exists w n raw a, In w loaders /\ offers w t n /\
      (forall w' n', In w' loaders -> offers w' t n' -> n' <= n) /\
      wl_source w [n] (Some (ChunkArr (map (fun l => l + (t - n)) leads))) = Ok raw /\ dget raw v = Some a /\ served_by t n a b.
Proof.
  intros loaders inits leads reference out Ni Nl Ht Hw H v b G.
  assert (forall w t c v r, In w loaders -> In t inits -> wrapped_load_chunk w [t] (Some (ChunkArr leads)) reference = Ok c -> dget c v = Some r ->
    exists n raw a r0, offers w t n /\ wl_source w [n] (Some (ChunkArr (map (fun l => l + (t - n)) leads))) = Ok raw /\ dget raw v = Some a /\
      wf r /\ dget (dims r) "init_time" = Some [LZ t] /\ dims r = dims r0 /\ get r = get r0 /\ wf r0 /\ (forall e e' l, at_time e t l -> at_time e' n (l + (t - n)) -> same_except ["init_time"; "lead_time"] e e' -> (point_of (dims r0) e <-> point_of (dims a) e')) /\ served_by t n a r0) as Q.
  { intros w t c v' r Iw It Hc Gr. destruct (Hw w Iw) as (Gw & Cw & Pw & Iw' & _). unfold wrapped_load_chunk in Hc. rewrite Cw in Hc. apply C43_stages_in_order in Hc. destruct Hc as (c1 & c2 & c3 & E1 & E2 & E3 & F1 & F2). rewrite Pw in E2. rewrite Iw' in E3. cbn in E2, E3. injection E2 as <-. injection E3 as <-.
    assert (NoDup [t]) as N1 by (repeat constructor; intros []).
    assert (exists r0, dget c1 v' = Some r0 /\ dims r = dims r0 /\ get r = get r0) as (r0 & G0 & Ed & Eg).
    { destruct (cfg_nan_mask (wl_config w)); [rewrite (F2 eq_refl) in Gr|rewrite (F1 eq_refl) in Gr; eauto]. rewrite dget_mask in Gr. destruct (dget c1 v') as [r0|] eqn:G0; [|discriminate]. injection Gr as <-. exists r0. auto. }
    destruct (wrapper_spec _ _ _ _ _ _ Gw N1 Nl E1) as [_ WQ]. destruct (WQ v' r0 G0) as (W & D1 & D2 & K & V). destruct (V t (or_introl eq_refl)) as (n & raw & a & L & Er & Ga & Sv).
    exists n, raw, a, r0. split; auto. split; auto. split; auto. split; [|split; [rewrite Ed; exact D1|split; [auto|split; [auto|split; [auto|split; [|exact Sv]]]]]].
    - destruct W as (A & B & C). unfold wf, dnames in *. rewrite Ed, Eg. auto.
    - intros e e' l At Bt Es. assert (NoDup (map (fun l => l + (t - n)) leads)) as N2 by (apply FinFun.Injective_map_NoDup; auto; intros u0 w0; lia). destruct (Gw _ _ _ _ _ Er N2 Ga) as (Wa & A1 & A2).
      apply (served_point' t n leads a r0 e e' l); auto. intros k K1 K2. apply K; auto. intros t2 n2 raw2 a2 [<-|[]] L2 Er2 Ga2. assert (n2 = n) as -> by (eapply (offers_fun w); eauto). congruence. }
  assert (forall w t c v r, In w loaders -> In t inits -> wrapped_load_chunk w [t] (Some (ChunkArr leads)) reference = Ok c -> dget c v = Some r -> wf r /\ dget (dims r) "init_time" = Some [LZ t]) as Hg.
  { intros w t c v' r Iw It Hc Gr. destruct (Q w t c v' r Iw It Hc Gr) as (n & raw & a & r0 & _ & _ & _ & W & D & _). auto. }
  destruct (C40_queries_answered_once _ _ _ _ _ Ni Hg H v b G) as (W & D & V). split; auto. split; auto. intros t It. destruct (V t It) as (w & c & r & Ew & Hc & Gr & Hv).
  assert (forall w, In w loaders -> whole_second (wl_latency w) /\ forall n, In n (wl_nominal w) -> whole_second n) as Hws by (intros w' Iw'; destruct (Hw w' Iw') as (_ & _ & _ & _ & X & Y); auto).
  destruct (C40_freshest_loader loaders t w (Ht t It) Hws Ew) as (Iw & n & On & Hmax). destruct (Q w t c v r Iw It Hc Gr) as (n' & raw & a & r0 & On' & Er & Ga & Wr & Dr & Ed & Eg & W0 & Pl & Sv). assert (n' = n) as -> by (eapply offers_fun; eauto).
  exists w, n, raw, a. split; auto. split; auto. split; [intros w' n' Iw' On2; apply (Hmax w' n' Iw' On2)|]. split; auto. split; auto. intros e e' l At Bt Es. destruct (Hv e (proj1 At)) as [V1 V2].
  destruct (Sv e e' l At Bt Es) as [S1 S2]. rewrite Ed, Eg in *. 
  split; intros Hp.
  - destruct (in_box (dims r0) e) eqn:Eb; [apply in_box_iff in Eb; rewrite (V1 Eb); apply S1, Hp|]. exfalso. apply (Pl e e' l At Bt Es) in Hp. apply in_box_iff in Hp. congruence.
  - destruct (in_box (dims r0) e) eqn:Eb; [apply in_box_iff in Eb; rewrite (V1 Eb); apply S2, Hp|]. apply V2. intros X. apply in_box_iff in X. congruence.
Qed.
End Multi.

(** ** A concrete argsort: insertion sort of the positions *)
Definition lex_leb (x y : Z * Z) : bool := Z.ltb (fst x) (fst y) || (Z.eqb (fst x) (fst y) && Z.leb (snd x) (snd y)).
Fixpoint insert_by (l : list (Z * Z)) (i : nat) (js : list nat) : list nat :=
  match js with
  | [] => [i]
  | j :: js' => if lex_leb (nth i l (0, 0)) (nth j l (0, 0)) then i :: js else j :: insert_by l i js'
  end.
Definition insertion_argsort (l : list (Z * Z)) : list nat := fold_right (insert_by l) [] (seq 0 (length l)).
Lemma lex_leb_iff x y : lex_leb x y = true <-> lex_le x y.
Proof. unfold lex_leb, lex_le. rewrite orb_true_iff, andb_true_iff, Z.ltb_lt, Z.eqb_eq, Z.leb_le. tauto. Qed.
Lemma insert_perm l i js : Permutation (insert_by l i js) (i :: js).
Proof. induction js as [|j js IH]; cbn; [constructor; constructor|]. destruct (lex_leb _ _); [reflexivity|]. rewrite IH. apply perm_swap. Qed.
Definition ordered (l : list (Z * Z)) (js : list nat) : Prop := forall i j x y, nth_error js i = Some x -> nth_error js j = Some y -> (i <= j)%nat -> lex_le (nth x l (0, 0)) (nth y l (0, 0)).
Lemma lex_refl x : lex_le x x. Proof. unfold lex_le. lia. Qed.
Lemma ordered_cons l i js : (forall j, In j js -> lex_le (nth i l (0, 0)) (nth j l (0, 0))) -> ordered l js -> ordered l (i :: js).
Proof.
  intros H O [|a] [|b] x y; cbn; intros Ex Ey L; try lia.
  - injection Ex as <-. injection Ey as <-. apply lex_refl.
  - injection Ex as <-. apply H. apply (nth_error_In _ _ Ey).
  - apply (O a b); auto. lia.
Qed.
Lemma ordered_tail l i js : ordered l (i :: js) -> ordered l js /\ forall j, In j js -> lex_le (nth i l (0, 0)) (nth j l (0, 0)).
Proof.
  intros O. split; [intros a b x y Ex Ey L; apply (O (S a) (S b)); auto; lia|]. intros j I. apply In_nth_error in I. destruct I as [k E]. apply (O 0%nat (S k)); auto. lia.
Qed.
Lemma insert_ordered l i js : ordered l js -> ordered l (insert_by l i js).
Proof.
  induction js as [|j js IH]; intros O; cbn.
  - apply ordered_cons; [intros j []|exact O].
  - destruct (lex_leb _ _) eqn:E.
    + apply lex_leb_iff in E. apply ordered_cons; auto. apply ordered_tail in O. intros k [<-|I]; auto. destruct O as [_ O]. pose proof (O k I). unfold lex_le in *. lia.
    + apply ordered_tail in O. destruct O as [O1 O2]. apply ordered_cons; [|apply IH, O1]. intros k I. apply (Permutation_in _ (insert_perm l i js)) in I. destruct I as [<-|I]; auto.
      assert (~ lex_le (nth i l (0, 0)) (nth j l (0, 0))) as X by (rewrite <- lex_leb_iff; congruence). unfold lex_le in *. lia.
Qed.
Lemma insertion_argsort_ok : argsort_ok insertion_argsort.
Proof.
  intros l. unfold insertion_argsort. generalize (seq 0 (length l)) as js. intros js. split.
  - induction js as [|j js IH]; cbn; [constructor|]. rewrite insert_perm. constructor. exact IH.
  - intros i j k x y Ex Ey L ->. revert i j x y Ex Ey L. change (ordered l (fold_right (insert_by l) [] js)). induction js as [|j js IH]; cbn; [intros [|?] ? ? ?; discriminate|apply insert_ordered, IH].
Qed.

(** Two loaders: one of six-hourly runs with three hours latency, one of twelve-hourly runs without
    latency.  At 12 h the second is taken, at 18 h the first. *)
Definition ex_cfg : loader_config := mkCfg None None false false.
Definition ex_w1 (src : source) : wrapped_loader := mkWrapped [0; h6; 2 * h6] ex_latency "init_time" src ex_cfg.
Definition ex_w2 (src : source) : wrapped_loader := mkWrapped [0; 2 * h6] 0 "init_time" src ex_cfg.
Example C40_second_loader_is_fresher : forall src1 src2, get_data_loader insertion_argsort [ex_w1 src1; ex_w2 src2] (2 * h6) = Ok (ex_w2 src2).
Proof. intros src1 src2. vm_compute. reflexivity. Qed.
Example C40_larger_latency_among_equal_runs : forall src1 src2, get_data_loader insertion_argsort [ex_w2 src2; ex_w1 src1] (3 * h6) = Ok (ex_w1 src1).
Proof. intros src1 src2. vm_compute. reflexivity. Qed.
Example C40_example : exists out b, MultipleConstantLatencyWrapper insertion_argsort [ex_w1 (PredictionsFromXarray ex_runs); ex_w2 (PredictionsFromXarray ex_runs)] "init_time" [2 * h6; 3 * h6] (Some (ChunkArr [0; h6])) None = Ok out /\ dget out "t" = Some b /\
  wf b /\ dget (dims b) "init_time" = Some [LZ (2 * h6); LZ (3 * h6)].
Proof.
  assert (loads (MultipleConstantLatencyWrapper insertion_argsort [ex_w1 (PredictionsFromXarray ex_runs); ex_w2 (PredictionsFromXarray ex_runs)] "init_time" [2 * h6; 3 * h6] (Some (ChunkArr [0; h6])) None) "t" = Some ["init_time"; "lead_time"]) as L by (vm_compute; reflexivity).
  destruct (MultipleConstantLatencyWrapper _ _ _ _ _ _) as [out|] eqn:E; [|discriminate L]. unfold loads in L. destruct (dget out "t") as [b|] eqn:G; [|discriminate L].
  assert (NoDup [2 * h6; 3 * h6]) as N1 by (repeat constructor; cbn; unfold h6; intuition discriminate).
  destruct (C40_served_by_the_freshest_run insertion_argsort insertion_argsort_ok [ex_w1 (PredictionsFromXarray ex_runs); ex_w2 (PredictionsFromXarray ex_runs)] [2 * h6; 3 * h6] [0; h6] None out N1 ex_nodup) with (v := "t") (b := b) as (W & D & _).
  - intros t [<-|[<-|[]]]; [exists (2 * 6 * 3600)|exists (3 * 6 * 3600)]; vm_compute; reflexivity.
  - intros w [<-|[<-|[]]]; (split; [apply predictions_gridded, ex_forecasts|]); (split; [reflexivity|split; [reflexivity|split; [reflexivity|split]]]).
    + exists (3 * 3600). vm_compute. reflexivity.
    + intros n [<-|[<-|[<-|[]]]]; [exists 0|exists (6 * 3600)|exists (2 * 6 * 3600)]; vm_compute; reflexivity.
    + exists 0. reflexivity.
    + intros n [<-|[<-|[]]]; [exists 0|exists (2 * 6 * 3600)]; vm_compute; reflexivity.
  - exact E.
  - exact G.
  - exists out, b. auto.
Qed.
(** Half a second does not count: of two runs in the same second the older one with the larger
    latency is taken. *)
Example C40_half_a_second : forall src1 src2, get_data_loader insertion_argsort
    [mkWrapped [1500000000] 0 "init_time" src1 ex_cfg; mkWrapped [1100000000] 1000000000 "init_time" src2 ex_cfg] 2900000000 =
  Ok (mkWrapped [1100000000] 1000000000 "init_time" src2 ex_cfg).
Proof. intros src1 src2. vm_compute. reflexivity. Qed.
(** A loader without an issued run makes the query fail although the other could answer it. *)
Example C40_one_loader_too_early : forall src1 src2, get_data_loader insertion_argsort [ex_w1 src1; ex_w2 src2] 3600000000000 = Err ValueError.
Proof. intros src1 src2. vm_compute. reflexivity. Qed.

Print Assumptions C40_freshest_loader.
Print Assumptions C40_freshest_up_to_a_second.
Print Assumptions C40_every_loader_must_have_issued_a_run.
Print Assumptions C40_queries_answered_once.
Print Assumptions C40_served_by_the_freshest_run.
