(** C65: the replicates of the stationary bootstrap. *)
From Coq Require Import String ZArith List Bool Lia Permutation Reals Lra.
Import ListNotations.
From Verif Require Import Prelude Values Model_XArray Spec_XArray Proofs_XArray Spec_Reduce Proofs_Reduce Model_Tree Model_MetricsBase Model_Aggregation
  Model_Ensemble Proofs_Ensemble Proofs_Ensemble2 Proofs_Deterministic Proofs_Beam9 Proofs_AggState Model_Deterministic
  Model_Baseline Model_Bootstrap Spec_Bootstrap Props_Bootstrap Model_Resample Spec_Resample Proofs_Resample Props_Resample Proofs_Baseline Proofs_TTest Props_Slices Model_Autodiff
  Spec_Autodiff Proofs_Autodiff Model_Stationary Spec_Stationary Proofs_Stationary Proofs_Stationary2 Proofs_Stationary3 Proofs_Stationary4 Proofs_Stationary5 Props_Stationary.
Local Open Scope R_scope.
Local Open Scope string_scope.
Local Open Scope list_scope.

Lemma mapM_named_dget {A B} (f : A -> result B) (l : dict string A) r k a :
  mapM (fun x => do y <- f (snd x); Ok (fst x, y)) l = Ok r -> dget l k = Some a -> exists b, dget r k = Some b /\ f a = Ok b.
Proof.
  revert r. induction l as [|[n x] l IH]; intros r H G; [discriminate|]. cbn [mapM fst snd] in H. destruct (f x) as [y|] eqn:E; [|discriminate]. cbn [bind] in H.
  destruct (mapM _ l) as [r'|] eqn:M; [|discriminate]. cbn [bind] in H. injection H as <-. cbn [dget] in *. destruct (eq_dec k n); [injection G as <-; eauto|eauto].
Qed.
Lemma dget_mapped {A B} (f : string * A -> B) (l : dict string A) k a : dget l k = Some a -> dget (map (fun x => (fst x, f x)) l) k = Some (f (k, a)).
Proof. induction l as [|[n x] l IH]; [discriminate|]. cbn [map dget fst]. destruct (eq_dec k n) as [->|]; [intros [= ->]; reflexivity|auto]. Qed.
Lemma Forall2_imp {A B} (P Q : A -> B -> Prop) l l' : (forall a b, P a b -> Q a b) -> Forall2 P l l' -> Forall2 Q l l'.
Proof. intros H. induction 1; constructor; auto. Qed.

Section Whole.
  Variable d : string.
  Variable r : nat.
  Variable given : option R.
  Variable resolution : option R.
  Variable size : nat.
  Variable arch : list val -> result (option R).
  Variable draw : nat -> (nat -> list R) * (nat -> list Z).
  Variable linearize : (state -> result metric_arrays) -> state -> state -> result metric_arrays.
  Hypothesis Nd : d <> REPLICATE_DIM.

  (** Cache invariant through one variable, whatever the metric. *)
  Lemma scalar_cache m var t stats weights s v s' : cache_ok draw s ->
    results_for_metric_scalar d r given resolution size arch draw m var t stats weights s = Ok (v, s') -> cache_ok draw s'.
  Proof.
    intros C H. unfold results_for_metric_scalar in H. destruct (dget (dims t) d) as [ls|]; [|discriminate].
    destruct (optimal_block_length d given resolution arch t) as [b|]; [|discriminate]. cbn [bind] in H.
    destruct (cached_indices size draw (length ls, b) s) as [[rows s1]|] eqn:Ec; [|discriminate]. cbn [bind fst snd] in H.
    destruct (map_nested _ stats) as [a1|]; [|discriminate]. cbn [bind] in H. destruct (map_nested _ weights) as [a2|]; [|discriminate]. cbn [bind] in H.
    destruct (map_nested2 _ a1 a2) as [a3|]; [|discriminate]. cbn [bind] in H. destruct (values_from_mean_statistics m a3) as [a4|]; [|discriminate]. cbn [bind] in H.
    destruct (dgetE a4 var) as [a5|]; [|discriminate]. cbn [bind] in H. injection H as <- <-. exact (proj1 (cached_ok size draw _ _ _ _ C Ec)).
  Qed.
  Lemma slices_cache m var D t stats weights s v s' : cache_ok draw s ->
    results_by_slice d r given resolution size arch draw m var D t stats weights s = Ok (v, s') -> cache_ok draw s'.
  Proof.
    intros C H. unfold results_by_slice in H. destruct (all_sizes D _ []) as [sizes|]; [|discriminate]. cbn [bind] in H. destruct (mapM _ D) as [shape|]; [|discriminate]. cbn [bind] in H.
    destruct (mapM_state _ (ndindex shape) s) as [[rs s1]|] eqn:M; [|discriminate]. cbn [bind fst snd] in H.
    assert (s1 = s') as <- by (destruct rs; [discriminate|congruence]). revert M. apply (mapM_state_inv (cache_ok draw)); [|exact C].
    intros idx sa b sb Ca E. destruct (map_nested _ stats) as [a1|] in E; [|discriminate]. cbn [bind] in E. destruct (map_nested _ weights) as [a2|] in E; [|discriminate]. cbn [bind] in E.
    eapply scalar_cache; eassumption.
  Qed.

  Let one_variable (m : metric da) (points : dict string da) (tangents : dict string da) (stats weights : dict string (dict string da)) (va : string * da) (s' : cache_state) : result ((string * da) * cache_state) :=
      do sw <- (if Nat.ltb 1 (length points) && forallb (fun kv => memb (fst va) (keys (snd kv))) stats
                then do a <- only_var (fst va) stats; do b <- only_var (fst va) weights; Ok (a, b)
                else Ok (stats, weights));
      do t <- dgetE tangents (fst va);
      do r0 <- results_by_slice d r given resolution size arch draw m (fst va) (dnames (snd va)) t (fst sw) (snd sw) s';
      Ok ((fst va, fst r0), snd r0).
  Lemma one_variable_cache m points tangents stats weights va s b s' : cache_ok draw s -> one_variable m points tangents stats weights va s = Ok (b, s') -> cache_ok draw s' /\ fst b = fst va.
  Proof.
    intros C H. unfold one_variable in H. match type of H with bind ?x _ = _ => destruct x as [sw|]; [|discriminate] end. cbn [bind] in H. destruct (dgetE tangents (fst va)) as [t|]; [|discriminate]. cbn [bind] in H.
    destruct (results_by_slice _ _ _ _ _ _ _ _ _ _ _ _ _ _) as [[r0 s1]|] eqn:E in H; [|discriminate]. cbn [bind fst snd] in H. injection H as <- <-. split; [eapply slices_cache; eassumption|reflexivity].
  Qed.
  Lemma metric_cache m points tangents stats weights s b s' : cache_ok draw s -> results_for_metric d r given resolution size arch draw m points tangents stats weights s = Ok (b, s') ->
    cache_ok draw s' /\ exists st sw, mapM (fun kv => do x <- dgetE stats (unique_name (snd kv)); Ok (fst kv, x)) (statistics m) = Ok st /\
      mapM (fun kv => do x <- dgetE weights (unique_name (snd kv)); Ok (fst kv, x)) (statistics m) = Ok sw /\
      forall var a, dget points var = Some a -> exists r0 sa sb, dget b var = Some r0 /\ cache_ok draw sa /\ one_variable m points tangents st sw (var, a) sa = Ok ((var, r0), sb).
  Proof.
    intros C H. unfold results_for_metric in H. destruct (mapM _ (statistics m)) as [st|] eqn:E1 in H; [|discriminate]. cbn [bind] in H. destruct (mapM _ (statistics m)) as [sw|] eqn:E2 in H; [|discriminate]. cbn [bind] in H.
    change (mapM_state (one_variable m points tangents st sw) points s = Ok (b, s')) in H.
    destruct (mapM_state_inv (cache_ok draw) _ (fun va sa b0 sb Ca E => proj1 (one_variable_cache _ _ _ _ _ va sa b0 sb Ca E)) _ _ _ _ C H) as [C' F]. split; [exact C'|]. exists st, sw. split; [exact E1|]. split; [exact E2|].
    intros var a G.
    assert (Forall2 (fun x y => fst y = fst x /\ (fun (v : string) (a r0 : da) => exists sa sb, cache_ok draw sa /\ one_variable m points tangents st sw (v, a) sa = Ok ((v, r0), sb)) (fst x) (snd x) (snd y)) points b) as F'.
    { revert F. apply Forall2_imp. intros [v x] [v' y] (sa & sb & Ca & E). destruct (one_variable_cache _ _ _ _ _ _ _ _ _ Ca E) as [_ Ev]. cbn [fst snd] in *. subst v'. split; [reflexivity|]. eauto. }
    destruct (dget_aligned _ _ _ _ _ F' G) as (r0 & Hr & sa & sb & Ca & E). eauto 6.
  Qed.

  (** For a metric that is computed point by point, every element of every replicate is the metric of sums over
      drawn units, the same units for the values and the weights of all its statistics; as many units are drawn as
      there are.  They come from one run of the random number generator with the block length for that element. *)
  Lemma replicates_main metrics st ls points tangents points' resampled name m F var a lab :
    unit_table d ls st -> (forall n v ws w, entry st n v (ws, w) -> proper_coords ws /\ ~ In REPLICATE_DIM (dnames ws) /\ ~ In REPLICATE_DIM (dnames w)) ->
    per_unit_values_linearized linearize metrics (state_of st) d = Ok (points, tangents) ->
    stationary_bootstrap d r given resolution size arch draw linearize metrics (state_of st) = Ok (points', resampled) ->
    dget metrics name = Some m -> pointwise_metric m F -> NoDup (keys (statistics m)) -> statistics m <> [] ->
    agreeing lab st m var -> entry points name var a ->
    points' = points /\
    exists r0 ps, entry resampled name var r0 /\ arrays_for st m var ps /\
      (forall e, point_of (dims a) e -> get a e = F (map (fun p => vdiv (vsum (along (fst p) d e)) (vsum (along (snd p) d e))) ps)) /\
      (forall k l, In l (labels_of (dims r0) k) <-> In l (labels_of (dims a) k) \/ (k = REPLICATE_DIM /\ In l (positions r))) /\
      (ls <> [] -> proper_draws (length ls) r draw ->
       forall e k, point_of (dims a) e -> (k < r)%nat ->
       exists b rows, drawn_once draw (length ls) b rows /\
         (forall t, entry tangents name var t -> wf t -> block_length_for given (option_map (fun res x => logarithmic_round x res) resolution) arch (along t d e) b) /\
         (forall b0, given = Some b0 -> b = b0) /\
         length (draws_of rows k) = length ls /\ (forall i, In i (draws_of rows k) -> (i < length ls)%nat) /\
         get r0 (upd e REPLICATE_DIM (LZ (Z.of_nat k))) =
         F (map (fun p => vdiv (drawn_total (along (fst p) d e) (draws_of rows k)) (drawn_total (along (snd p) d e) (draws_of rows k))) ps)).
  Proof.
    intros T PC HL HS Hm PW NS NES AG (pm & Hpm & Ha).
    pose proof T as (PT & _ & U).
    assert (forall n v ws w, entry st n v (ws, w) -> proper_coords ws) as PC' by (intros n v ws w He; apply (PC n v ws w He)).
    rewrite (linearized_eq linearize metrics st d ls T PC') in HL. cbv zeta in HL.
    destruct (compute_metrics_from_statistics metrics (nested_map (unit_mean d) st)) as [value|] eqn:Ev; [|discriminate]. cbn [bind] in HL.
    destruct (mapM _ (seq 0 (length ls))) as [outs|] eqn:Eo in HL; [|discriminate]. cbn [bind] in HL. injection HL as <- Et.
    unfold stationary_bootstrap in HS. rewrite (linearized_eq linearize metrics st d ls T PC') in HS. cbv zeta in HS. rewrite Ev in HS. cbn [bind] in HS. rewrite Eo in HS. cbn [bind fst snd] in HS. rewrite Et in HS.
    cbn [state_of] in HS. rewrite !nested_tree_of in HS. cbn [bind] in HS.
    match type of HS with bind ?x _ = _ => destruct x as [[res sfin]|] eqn:EM; [|discriminate] end. cbn [bind fst] in HS. injection HS as <- <-. split; [reflexivity|].
    (* the point estimate *)
    unfold compute_metrics_from_statistics in Ev. destruct (mapM_named_dget (fun m0 => compute_metric_from_statistics m0 (nested_map (unit_mean d) st)) metrics value name m Ev Hm) as (pm' & Hpm' & Ec). pose proof (eq_trans (eq_sym Hpm') Hpm) as E0. injection E0 as ->. clear Hpm'.
    unfold compute_metric_from_statistics in Ec. destruct (mapM _ (statistics m)) as [ren|] eqn:Er in Ec; [|discriminate]. cbn [bind] in Ec.
    destruct (choose_exists (unit_mean d) st (statistics m) ren Er) as (TM & CH & ->).
    assert (proper_table TM) as PTM by (eapply chosen_proper; eassumption).
    assert (forall n v p, entry TM n v p -> exists s, dget (statistics m) n = Some s /\ entry st (unique_name s) v p) as ETM by (intros n v p He; eapply chosen_entry; eassumption).
    assert (forall n v ws w, entry TM n v (ws, w) -> unit_array d ls ws /\ unit_array d ls w) as UTM. { intros n v ws w He. destruct (ETM _ _ _ He) as (s & _ & He'). exact (U _ _ _ _ He'). }
    assert (forall n ws w, entry TM n var (ws, w) -> labelled lab ws /\ labelled lab w /\ ~ In REPLICATE_DIM (dnames ws) /\ ~ In REPLICATE_DIM (dnames w)) as LTM.
    { intros n ws w He. destruct (ETM _ _ _ He) as (s & Hs & He'). destruct (AG n s ws w Hs He') as [L1 L2]. destruct (PC _ _ _ _ He') as (_ & R1 & R2). auto. }
    destruct (PW _ _ _ _ Ec Ha) as (xs & FX & KX).
    assert (exists ps, Forall2 (fun n p => entry TM n var p) (keys (statistics m)) ps /\ xs = map (unit_mean d) ps) as (ps & FP & ->).
    { clear -FX. induction FX as [|n x ns xs H FX (ps & FP & ->)]; [exists []; split; [constructor|reflexivity]|]. apply entry_unmap in H. destruct H as (p & Hp & ->). exists (p :: ps). split; [now constructor|reflexivity]. }
    assert (forall p, In p ps -> exists n, entry TM n var p) as EP. { clear -FP. induction FP as [|n p ns ps H FP IH]; [intros ? []|]. intros q [<-|I]; eauto. }
    assert (forall p, In p ps -> (unit_array d ls (fst p) /\ unit_array d ls (snd p)) /\ labelled lab (fst p) /\ labelled lab (snd p) /\ ~ In REPLICATE_DIM (dnames (fst p)) /\ ~ In REPLICATE_DIM (dnames (snd p))) as Q.
    { intros p I. destruct (EP p I) as [n Hn]. destruct p as [ws w]. cbn [fst snd]. split; [exact (UTM _ _ _ _ Hn)|exact (LTM _ _ _ Hn)]. }
    destruct (KX lab) as (Wa & La & Na & Ga).
    { intros x I. apply in_map_iff in I. destruct I as (p & <- & I). destruct (Q p I) as ((U1 & U2) & L1 & L2 & _). split; [apply wf_binop; now apply (wf_summed d ls)|apply labelled_binop; now apply labelled_summed]. }
    assert (forall k, In k (dnames a) <-> exists p, In p ps /\ k <> d /\ (In k (dnames (fst p)) \/ In k (dnames (snd p)))) as HD.
    { intros k. rewrite Na. split.
      - intros (x & I & Hk). apply in_map_iff in I. destruct I as (p & <- & I). unfold unit_mean in Hk. apply names_binop in Hk. rewrite !names_summed in Hk. exists p. tauto.
      - intros (p & I & Hk). exists (unit_mean d p). split; [now apply in_map|]. unfold unit_mean. apply names_binop. rewrite !names_summed. tauto. }
    assert (ps <> []) as NP. { intros ->. inversion FP as [E|]. destruct (statistics m); [congruence|discriminate]. }
    assert (~ In d (dnames a)) as Nda by (intros I; apply HD in I; destruct I as (p & _ & N & _); congruence).
    assert (~ In REPLICATE_DIM (dnames a)) as NRa by (intros I; apply HD in I; destruct I as (p & I & _ & J); destruct (Q p I) as (_ & _ & _ & R1 & R2); tauto).
    assert (forall k, In k (dnames a) -> dget (dims a) k = Some (lab k)) as Da.
    { intros k I. unfold dnames in I. apply keys_dget in I. destruct I as [l El]. now rewrite El, (La _ _ El). }
    (* the tangents *)
    set (t0 := output_array d ls outs name (var, a)).
    assert (dget tangents name = Some (map (fun va => (fst va, output_array d ls outs name va)) pm)) as Ht.
    { rewrite <- Et. exact (dget_mapped (fun mv : string * dict string da => map (fun va => (fst va, output_array d ls outs (fst mv) va)) (snd mv)) value name pm Hpm). }
    assert (dget (map (fun va => (fst va, output_array d ls outs name va)) pm) var = Some t0) as Ht0 by exact (dget_mapped (output_array d ls outs name) pm var a Ha).
    assert (dims t0 = dims a ++ [(d, ls)]) as Dt0 by reflexivity.
    assert (dget (dims t0) d = Some ls) as Dtd.
    { rewrite Dt0, dget_app_r; [cbn [dget]; now destruct (eq_dec d d)|]. destruct (dget (dims a) d) eqn:G; auto. apply dget_Some_keys in G. contradiction. }
    (* the loop over the metrics *)
    assert (forall nm sa b sb, cache_ok draw sa -> (do p <- dgetE value (fst nm); do t <- dgetE tangents (fst nm); do r1 <- results_for_metric d r given resolution size arch draw (snd nm) p t (nested_map fst st) (nested_map snd st) sa; Ok ((fst nm, fst r1), snd r1)) = Ok (b, sb) ->
      cache_ok draw sb /\ fst b = fst nm /\ exists p t, dget value (fst nm) = Some p /\ dget tangents (fst nm) = Some t /\ results_for_metric d r given resolution size arch draw (snd nm) p t (nested_map fst st) (nested_map snd st) sa = Ok (snd b, sb)) as LM.
    { intros nm sa b sb Ca E. destruct (dgetE value (fst nm)) as [p|] eqn:E1; [|discriminate]. cbn [bind] in E. destruct (dgetE tangents (fst nm)) as [t|] eqn:E2; [|discriminate]. cbn [bind] in E.
      match type of E with bind ?x _ = _ => destruct x as [[r1 s1]|] eqn:E3; [|discriminate] end. cbn [bind fst snd] in E. injection E as <- <-. destruct (metric_cache _ _ _ _ _ _ _ _ Ca E3) as [Cb _]. cbn [fst snd].
      split; [exact Cb|]. split; [reflexivity|]. exists p, t. apply dgetE_Some in E1, E2. auto. }
    assert (cache_ok draw ([], O)) as C0 by (intros k rows []).
    destruct (mapM_state_inv (cache_ok draw) _ (fun nm sa b sb Ca E => proj1 (LM nm sa b sb Ca E)) _ _ _ _ C0 EM) as [_ FM].
    assert (Forall2 (fun x y => fst y = fst x /\ (fun (n : string) (m0 : metric da) (rv : dict string da) => exists sa sb p t, cache_ok draw sa /\ dget value n = Some p /\ dget tangents n = Some t /\ results_for_metric d r given resolution size arch draw m0 p t (nested_map fst st) (nested_map snd st) sa = Ok (rv, sb)) (fst x) (snd x) (snd y)) metrics res) as FM'.
    { revert FM. apply Forall2_imp. intros nm b (sa & sb & Ca & E). destruct (LM nm sa b sb Ca E) as (_ & Ef & p & t & G1 & G2 & G3). split; [exact Ef|]. exists sa, sb, p, t. auto. }
    destruct (dget_aligned _ _ _ _ _ FM' Hm) as (rv & Hrv & sa & sb & p & t & Ca & G1 & G2 & G3). clear FM FM' LM EM.
    pose proof (eq_trans (eq_sym G1) Hpm) as E0. injection E0 as ->. pose proof (eq_trans (eq_sym G2) Ht) as E0. injection E0 as ->.
    destruct (metric_cache _ _ _ _ _ _ _ _ Ca G3) as (_ & S1 & W1 & ES & EW & KV). rewrite (choose_det fst st _ _ CH) in ES. rewrite (choose_det snd st _ _ CH) in EW. injection ES as <-. injection EW as <-.
    destruct (KV var a Ha) as (r0 & sc & sd & Hr0 & Cc & E1). unfold one_variable in E1. cbn [fst snd] in E1.
    assert (exists TV, proper_table TV /\ (forall n v ws w, entry TV n v (ws, w) -> entry TM n v (ws, w)) /\ (forall n q, entry TM n var q -> entry TV n var q) /\
      results_by_slice d r given resolution size arch draw m var (dnames a) t0 (nested_map fst TV) (nested_map snd TV) sc = Ok (r0, sd)) as (TV & PTV & IN1 & IN2 & ER).
    { assert (dgetE (map (fun va => (fst va, output_array d ls outs name va)) pm) var = Ok t0) as Hd by (now apply dgetE_Some).
      destruct (Nat.ltb 1 (length pm) && forallb (fun kv => memb var (keys (snd kv))) (nested_map fst TM)) eqn:B.
      - apply andb_true_iff in B. destruct B as [_ B]. destruct (restrict_exists var TM B) as (TV & RT).
        rewrite (only_var_restricted fst var TM TV RT) in E1. cbn [bind] in E1. rewrite (only_var_restricted snd var TM TV RT) in E1. cbn [bind fst snd] in E1. rewrite Hd in E1. cbn [bind] in E1.
        destruct (results_by_slice _ _ _ _ _ _ _ _ _ _ _ _ _ _) as [[r1 s1]|] eqn:E in E1; [|discriminate]. cbn [bind fst snd] in E1. injection E1 as <- <-. exists TV. split; [eapply restricted_proper; eassumption|]. split; [|split; [|exact E]].
        + intros n v ws w He. destruct (restricted_entry _ _ _ _ _ _ RT He) as [-> He']. exact He'.
        + intros n q He. eapply entry_restricted; eassumption.
      - cbn [bind fst snd] in E1. rewrite Hd in E1. cbn [bind] in E1.
        destruct (results_by_slice _ _ _ _ _ _ _ _ _ _ _ _ _ _) as [[r1 s1]|] eqn:E in E1; [|discriminate]. cbn [bind fst snd] in E1. injection E1 as <- <-. exists TM. auto. }
    assert (Forall2 (fun n q => entry TV n var q) (keys (statistics m)) ps) as FPV. { revert FP. apply Forall2_imp. intros n q. apply IN2. }
    destruct (slices_spec d r given resolution size arch draw Nd TV ls lab m F var (dnames a) t0 sc r0 sd ps) as (_ & LR & VR); auto.
    { intros n v ws w He. apply IN1 in He. eauto. }
    { intros n ws w He. apply IN1 in He. eauto. }
    { apply Wa. }
    { intros k I. rewrite Dt0. apply dget_app_l. now apply Da. }
    exists r0, ps. split; [exists rv; auto|]. split.
    { revert FP. apply Forall2_imp. intros n q He. now apply ETM. }
    split; [|split].
    - intros e P. rewrite (Ga e P), map_map. f_equal. apply map_ext_in. intros q I. destruct (Q q I) as ((U1 & U2) & _). unfold unit_mean. cbn [binop get]. now rewrite !(get_summed d ls).
    - intros k l. rewrite LR. split; (intros [H|H]; [left|now right]).
      + destruct H as [I J]. unfold labels_of. now rewrite (Da k I).
      + unfold labels_of in H. destruct (dget (dims a) k) as [m0|] eqn:E; [|destruct H]. split; [exact (dget_Some_keys _ _ E)|]. now rewrite <- (La _ _ E).
    - intros Nls Pd e k P Hk. assert (0 < length ls)%nat as Hn by (destruct ls; [congruence|cbn; lia]).
      assert (forall x, In x (dnames a) -> In (e x) (lab x)) as Pe. { intros x I. apply (P x). apply dget_In. now apply Da. }
      destruct (VR e k Pe Hk Hn Pd) as (b & rows & idx & Eb & Ecut & O & G). exists b, rows. split; [exact O|]. split; [|split; [|split; [|split; [|exact G]]]].
      + intros t (tv & Gt & Gv) Wt. assert (t = t0) as -> by congruence.
        apply (block_length_slice d given resolution arch t0 (dims a) ls lab idx e b); auto. intros y l I. apply La. apply In_dget; [apply Wa|exact I].
      + intros b0 E0. unfold optimal_block_length in Eb. rewrite E0 in Eb. congruence.
      + apply (once_range r draw _ _ _ O Pd Hn k Hk).
      + apply (once_range r draw _ _ _ O Pd Hn k Hk).
  Qed.
End Whole.
