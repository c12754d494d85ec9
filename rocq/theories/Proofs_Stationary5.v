(** The stationary bootstrap of all metrics. *)
From Coq Require Import String ZArith List Bool Reals Lia Lra.
Import ListNotations.
From Verif Require Import Prelude Values Model_XArray Spec_XArray Proofs_XArray Spec_Reduce Proofs_Reduce Model_Tree Model_MetricsBase Model_Aggregation
  Model_Ensemble Proofs_Ensemble Proofs_Ensemble2 Proofs_Deterministic Proofs_Beam9 Proofs_AggState
  Model_Baseline Model_Bootstrap Spec_Bootstrap Props_Bootstrap Model_Resample Spec_Resample Proofs_Resample Props_Resample Proofs_Baseline Proofs_TTest Props_Slices Model_Autodiff
  Spec_Autodiff Proofs_Autodiff Model_Stationary Spec_Stationary Proofs_Stationary Proofs_Stationary2 Proofs_Stationary3 Proofs_Stationary4.
Local Open Scope R_scope.
Local Open Scope list_scope.

(** ** Aligned dictionaries *)
Lemma dget_aligned {A B} (Q : string -> A -> B -> Prop) (l : dict string A) (l' : dict string B) k a :
  Forall2 (fun x y => fst y = fst x /\ Q (fst x) (snd x) (snd y)) l l' -> dget l k = Some a -> exists b, dget l' k = Some b /\ Q k a b.
Proof.
  induction 1 as [|[x a0] [y b0] l l' [E H] F IH]; [discriminate|]. cbn [fst snd] in *. subst y. cbn [dget].
  destruct (eq_dec k x) as [->|]; [intros [= <-]; eauto|auto].
Qed.
Lemma dget_aligned_back {A B} (Q : string -> A -> B -> Prop) (l : dict string A) (l' : dict string B) k b :
  Forall2 (fun x y => fst y = fst x /\ Q (fst x) (snd x) (snd y)) l l' -> dget l' k = Some b -> exists a, dget l k = Some a /\ Q k a b.
Proof.
  induction 1 as [|[x a0] [y b0] l l' [E H] F IH]; [discriminate|]. cbn [fst snd] in *. subst y. cbn [dget].
  destruct (eq_dec k x) as [->|]; [intros [= <-]; eauto|auto].
Qed.
Lemma aligned_keys {A B} (Q : string -> A -> B -> Prop) (l : dict string A) (l' : dict string B) :
  Forall2 (fun x y => fst y = fst x /\ Q (fst x) (snd x) (snd y)) l l' -> keys l' = keys l.
Proof. induction 1 as [|x y l l' [E H] F IH]; [reflexivity|]. unfold keys in *. cbn [map]. now rewrite E, IH. Qed.

(** ** The statistics of one metric *)
Definition chosen (st : table) (stats : dict string (statistic da)) (T : table) : Prop :=
  Forall2 (fun x y => fst y = fst x /\ (fun (_ : string) s vs => dget st (unique_name s) = Some vs) (fst x) (snd x) (snd y)) stats T.
Lemma dget_nested {X Y} (f : X -> Y) (st : dict string (dict string X)) n : dget (nested_map f st) n = option_map (map (fun va => (fst va, f (snd va)))) (dget st n).
Proof. unfold nested_map. induction st as [|[k w] st IH]; [reflexivity|]. cbn [map dget fst snd]. destruct (eq_dec n k); auto. Qed.
Lemma choose_exists {Y} (p : da * da -> Y) (st : table) stats l :
  mapM (fun kv => do x <- dgetE (nested_map p st) (unique_name (snd kv)); Ok (fst kv, x)) stats = Ok l ->
  exists T, chosen st stats T /\ l = nested_map p T.
Proof.
  unfold chosen. revert l. induction stats as [|[n s] stats IH]; intros l H; cbn [mapM] in H; [injection H as <-; exists []; split; [constructor|reflexivity]|].
  cbn [fst snd] in H. unfold dgetE in H at 1. rewrite dget_nested in H. destruct (dget st (unique_name s)) as [vs|] eqn:E; [|discriminate]. cbn [option_map bind] in H.
  destruct (mapM _ stats) as [l1|] eqn:M; [|discriminate]. cbn [bind] in H. injection H as <-. destruct (IH _ eq_refl) as (T & F & ->).
  exists ((n, vs) :: T). split; [constructor; auto|reflexivity].
Qed.
Lemma choose_det {Y} (p : da * da -> Y) (st : table) stats T : chosen st stats T ->
  mapM (fun kv => do x <- dgetE (nested_map p st) (unique_name (snd kv)); Ok (fst kv, x)) stats = Ok (nested_map p T).
Proof.
  unfold chosen. induction 1 as [|[n s] [n' vs] stats T [E H] F IH]; [reflexivity|]. cbn [fst snd] in *. subst n'. cbn [mapM fst snd].
  unfold dgetE at 1. rewrite dget_nested, H. cbn [option_map bind]. rewrite IH. reflexivity.
Qed.
Lemma chosen_entry st stats T n var p : chosen st stats T -> entry T n var p -> exists s, dget stats n = Some s /\ entry st (unique_name s) var p.
Proof. intros C (vs & H & G). destruct (dget_aligned_back _ _ _ _ _ C H) as (s & Hs & K). exists s. split; [exact Hs|exists vs; auto]. Qed.
Lemma chosen_proper st stats T : proper_table st -> NoDup (keys stats) -> chosen st stats T -> proper_table T.
Proof.
  intros [N NV] Ns C. split; [now rewrite (aligned_keys _ _ _ C)|]. intros n vs I. unfold chosen in C. 
  induction C as [|[m s] [m' vs'] stats T [E H] F IH]; [destruct I|]. cbn [fst snd] in *. destruct I as [[= -> ->]|I]; [|apply IH; auto; now inversion Ns].
  apply dget_In in H. now apply (NV (unique_name s)).
Qed.

(** ** Restriction to one variable *)
Definition restricted (var : string) (T T' : table) : Prop :=
  Forall2 (fun x y => fst y = fst x /\ (fun (_ : string) vs ws => exists p, dget vs var = Some p /\ ws = [(var, p)]) (fst x) (snd x) (snd y)) T T'.
Lemma restrict_exists var (T : table) : forallb (fun kv => memb var (keys (snd kv))) (nested_map fst T) = true -> exists T', restricted var T T'.
Proof.
  unfold restricted, nested_map. induction T as [|[n vs] T IH]; [exists []; constructor|]. cbn [map forallb fst snd]. rewrite andb_true_iff. intros [H K]. destruct (IH K) as [T' F].
  apply memb_In in H. assert (exists p, dget vs var = Some p) as [p Hp]. { apply keys_dget. unfold keys in H. rewrite map_map in H. exact H. }
  exists ((n, [(var, p)]) :: T'). constructor; [split; [reflexivity|exists p; auto]|exact F].
Qed.
Lemma only_var_restricted (f : da * da -> da) var T T' : restricted var T T' -> only_var var (nested_map f T) = Ok (nested_map f T').
Proof.
  unfold restricted, only_var, nested_map. induction 1 as [|[n vs] [n' ws] T T' [E (p & Hp & Hw)] F IH]; [reflexivity|]. cbn [fst snd] in *. subst. cbn [map mapM fst snd].
  assert (dgetE (map (fun va => (fst va, f (snd va))) vs) var = Ok (f p)) as ->.
  { unfold dgetE. assert (dget (map (fun va : string * (da * da) => (fst va, f (snd va))) vs) var = Some (f p)) as ->; [|reflexivity]. clear -Hp. induction vs as [|[k w] vs IH]; [discriminate|]. cbn [map dget fst snd] in *. destruct (eq_dec var k); [congruence|auto]. }
  cbn [bind]. rewrite IH. reflexivity.
Qed.
Lemma restricted_entry var T T' n v0 p : restricted var T T' -> entry T' n v0 p -> v0 = var /\ entry T n var p.
Proof.
  intros C (vs & H & G). destruct (dget_aligned_back _ _ _ _ _ C H) as (ws & Hs & q & K & ->). cbn [dget] in G. destruct (eq_dec v0 var) as [->|]; [|discriminate]. injection G as ->. split; auto. exists ws. auto.
Qed.
Lemma entry_restricted var T T' n p : restricted var T T' -> entry T n var p -> entry T' n var p.
Proof.
  intros C (vs & H & G). destruct (dget_aligned _ _ _ _ _ C H) as (ws & Hs & q & K & ->). exists [(var, q)]. split; auto. cbn [dget]. destruct (eq_dec var var); congruence.
Qed.
Lemma restricted_proper var T T' : proper_table T -> restricted var T T' -> proper_table T'.
Proof.
  intros [N NV] C. split; [exact (eq_ind_r (fun l => NoDup l) N (aligned_keys _ _ _ C))|]. intros n vs I. clear N NV. unfold restricted in C. induction C as [|[m s] [m' vs'] T T' [E (p & _ & H)] F IH]; [destruct I|].
  cbn [fst snd] in *. destruct I as [[= -> ->]|I]; [|auto]. subst vs. cbn. constructor; [intros []|constructor].
Qed.

(** ** Means over all units *)
Lemma names_summed d x k : In k (dnames (summed d x)) <-> k <> d /\ In k (dnames x).
Proof. unfold dnames, summed. cbn [dims]. rewrite names_keep, negb_true_iff, memb_false. cbn. intuition congruence. Qed.
Lemma labelled_summed d lab x : labelled lab x -> labelled lab (summed d x).
Proof. intros L k l. unfold summed. cbn [dims]. rewrite dget_keep. destruct (negb _); [apply L|discriminate]. Qed.
Lemma get_summed d ls x e : unit_array d ls x -> get (summed d x) e = vsum (along x d e).
Proof. intros U. apply (da_sum_along d x (summed d x)); [apply U|now apply (da_sum_unit d ls)]. Qed.
Lemma wf_summed d ls x : unit_array d ls x -> wf (summed d x).
Proof.
  intros U. pose proof U as [W D]. split; [|split].
  - unfold dnames. cbn [summed dims]. apply keep_NoDup, W.
  - intros k m I. cbn [summed dims] in I. unfold keep in I. apply filter_In in I. now apply (proj1 (proj2 W) k m).
  - intros e e' H. rewrite !(get_summed d ls) by auto. f_equal. unfold along. apply map_ext. intros l. apply W. intros k Hk.
    destruct (string_dec k d) as [->|N]; [now rewrite !upd_same|]. rewrite !upd_other by auto. apply H. now apply names_summed.
Qed.

(** ** The block length of one element *)
Lemma block_length_slice d given resolution arch t (ads : dimlist) ls lab idx e b :
  dims t = ads ++ [(d, ls)] -> wf t -> (forall k m, In (k, m) ads -> m = lab k) ->
  (forall x, In x (map fst ads) -> cut (map fst ads) idx x (lab x) = [e x]) ->
  optimal_block_length d given resolution arch (slice_arg (map fst ads) idx t) = Ok b ->
  block_length_for given (option_map (fun res x => logarithmic_round x res) resolution) arch (along t d e) b.
Proof.
  intros Dt W L C H. unfold optimal_block_length in H. unfold block_length_for. destruct given as [b0|]; [congruence|].
  assert (~ In d (map fst ads)) as Nd.
  { destruct W as (N & _ & _). unfold dnames in N. rewrite Dt, map_app in N. cbn [map fst] in N. apply NoDup_remove_2 in N. now rewrite app_nil_r in N. }
  assert (dget (dims t) d = Some ls) as Ed.
  { rewrite Dt, dget_app_r; [cbn [dget]; now destruct (eq_dec d d)|]. destruct (dget ads d) eqn:G; auto. apply dget_Some_keys in G. contradiction. }
  rewrite dget_slice, Ed in H. cbn [option_map] in H. unfold cut in H. rewrite combine_None in H by exact Nd.
  destruct (Nat.ltb_spec (length ls) 8) as [|L8]; [discriminate|].
  assert (squeezed (slice_arg (map fst ads) idx t) = Ok (along t d e)) as Sq.
  { unfold squeezed.
    assert (filter (fun p : string * list label => negb (Nat.eqb (length (snd p)) 1)) (dims (slice_arg (map fst ads) idx t)) = [(d, ls)]) as ->.
    { unfold slice_arg at 1. cbn [dims]. rewrite Dt, map_app, filter_app.
      assert (forall l, incl l ads -> filter (fun p : string * list label => negb (Nat.eqb (length (snd p)) 1)) (map (fun p : string * list label => match dget (combine (map fst ads) idx) (fst p) with
                      | Some i => (fst p, match nth_error (snd p) i with Some l => [l] | None => [] end) | None => p end) l) = []) as K.
      { induction l as [|[k m] l IH]; intros Hl; [reflexivity|]. cbn [map filter]. rewrite IH by (intros z Hz; apply Hl; now right).
        assert (In (k, m) ads) as I by (apply Hl; now left). assert (In k (map fst ads)) as Ik by (apply in_map_iff; exists (k, m); auto). specialize (C k Ik). unfold cut in C. rewrite <- (L k m I) in C. cbn [fst snd].
        destruct (dget (combine (map fst ads) idx) k) as [i|]; cbn [snd]; rewrite C; reflexivity. }
      rewrite K by apply incl_refl. cbn [map fst app filter]. rewrite combine_None by exact Nd. cbn [snd].
      destruct (Nat.eqb_spec (length ls) 1); [lia|]. reflexivity. }
    f_equal. unfold along. rewrite (labels_dget _ _ _ Ed). apply map_ext. intros l. cbn [slice_arg get]. apply W. intros k Hk.
    destruct (string_dec k d) as [->|Nk]; [now rewrite !upd_same|]. rewrite !upd_other by auto.
    assert (In k (map fst ads)) as Ik. { unfold dnames in Hk. rewrite Dt, map_app in Hk. apply in_app_iff in Hk. destruct Hk as [Hk|[Hk|[]]]; [exact Hk|]. cbn in Hk. congruence. }
    assert (exists m, dget (dims t) k = Some m /\ m = lab k) as (m & Em & Lm).
    { apply keys_dget in Ik. destruct Ik as [m Em]. exists m. split; [rewrite Dt; now apply dget_app_l|]. apply L. now apply dget_In. }
    change (match dget (dims (slice_arg (map fst ads) idx t)) k with Some (l0 :: _) => l0 | _ => LZ 0 end = e k).
    rewrite dget_slice, Em, Lm. cbn [option_map]. now rewrite (C k Ik). }
  rewrite Sq in H. cbn [bind] in H. destruct (arch (along t d e)) as [x|] eqn:Ea; [|discriminate]. cbn [bind] in H. injection H as <-.
  split; [unfold along; rewrite map_length, (labels_dget _ _ _ Ed); exact L8|]. exists x. eexists. split; [reflexivity|]. split; [reflexivity|]. unfold from_arch. destruct resolution; reflexivity.
Qed.
