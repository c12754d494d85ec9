(** Lemmas about the stationary bootstrap of one element. *)
From Coq Require Import String ZArith List Bool Reals Lia Lra.
Import ListNotations.
From Verif Require Import Prelude Values Model_XArray Spec_XArray Proofs_XArray Spec_Reduce Proofs_Reduce Model_Tree Model_MetricsBase Model_Aggregation
  Model_Ensemble Proofs_Ensemble Proofs_Ensemble2 Proofs_Deterministic Proofs_Beam9 Proofs_AggState
  Model_Baseline Model_Bootstrap Spec_Bootstrap Model_Resample Spec_Resample Proofs_Resample Props_Resample Proofs_Baseline Proofs_TTest Props_Slices Model_Autodiff
  Model_Stationary Spec_Stationary Proofs_Stationary.
Local Open Scope R_scope.
Local Open Scope list_scope.

(** ** Trees *)
Lemma map_nested_table {X} (f : da -> result da) (st : dict string (dict string X)) (p g : X -> da) :
  (forall name vs var x, In (name, vs) st -> In (var, x) vs -> f (p x) = Ok (g x)) ->
  map_nested f (nested_map p st) = Ok (nested_map g st).
Proof.
  unfold map_nested, nested_map. induction st as [|[n vs] st IH]; intros H; [reflexivity|]. cbn [map mapM fst snd].
  assert (mapM (fun va => do x <- f (snd va); Ok (fst va, x)) (map (fun va => (fst va, p (snd va))) vs) = Ok (map (fun va => (fst va, g (snd va))) vs)) as ->.
  { assert (forall var x, In (var, x) vs -> f (p x) = Ok (g x)) as K by (intros; eapply H; [now left|eassumption]). clear -K.
    induction vs as [|[v x] vs IH]; [reflexivity|]. cbn [map mapM fst snd]. rewrite (K v x) by (now left). cbn [bind]. rewrite IH; [reflexivity|]. intros; eapply K; right; eassumption. }
  cbn [bind]. rewrite IH; [reflexivity|]. intros; eapply H; [right; eassumption|eassumption].
Qed.
Lemma dgetE_map {X Y} (g : X -> Y) (l : dict string X) k x : NoDup (keys l) -> In (k, x) l -> dgetE (map (fun va => (fst va, g (snd va))) l) k = Ok (g x).
Proof.
  intros N I. unfold dgetE. assert (dget (map (fun va => (fst va, g (snd va))) l) k = Some (g x)) as ->; [|reflexivity].
  apply In_dget.
  - unfold keys. rewrite map_map. exact N.
  - change (k, g x) with ((fun va : string * X => (fst va, g (snd va))) (k, x)). now apply in_map.
Qed.
Lemma map_nested2_table {X} (f : da -> da -> da) (st : dict string (dict string X)) (p q : X -> da) : proper_table st ->
  map_nested2 f (nested_map p st) (nested_map q st) = Ok (nested_map (fun x => f (p x) (q x)) st).
Proof.
  intros [N NV]. unfold map_nested2, nested_map.
  assert (forall l, incl l st -> mapM (fun kv => do uv <- dgetE (map (fun kv => (fst kv, map (fun va => (fst va, q (snd va))) (snd kv))) st) (fst kv);
                  do vs <- mapM (fun va => do y <- dgetE uv (fst va); Ok (fst va, f (snd va) y)) (snd kv);
                  Ok (fst kv, vs)) (map (fun kv => (fst kv, map (fun va => (fst va, p (snd va))) (snd kv))) l) =
      Ok (map (fun kv => (fst kv, map (fun va => (fst va, f (p (snd va)) (q (snd va)))) (snd kv))) l)) as K; [|apply K, incl_refl].
  induction l as [|[n vs] l IH]; intros H; [reflexivity|]. cbn [map mapM fst snd].
  rewrite (dgetE_map (fun vs => map (fun va => (fst va, q (snd va))) vs) st n vs N (H _ (or_introl eq_refl))). cbn [bind].
  assert (NoDup (keys vs)) as Nv by (apply (NV n); apply H; now left).
  assert (forall w, incl w vs -> mapM (fun va => do y <- dgetE (map (fun va => (fst va, q (snd va))) vs) (fst va); Ok (fst va, f (snd va) y)) (map (fun va => (fst va, p (snd va))) w) =
     Ok (map (fun va => (fst va, f (p (snd va)) (q (snd va)))) w)) as Kv.
  { induction w as [|[v x] w IHw]; intros Hw; [reflexivity|]. cbn [map mapM fst snd]. rewrite (dgetE_map q vs v x Nv (Hw _ (or_introl eq_refl))). cbn [bind].
    rewrite IHw; [reflexivity|]. intros z Hz. apply Hw. now right. }
  rewrite (Kv vs (incl_refl _)). cbn [bind]. rewrite IH; [reflexivity|]. intros z Hz. apply H. now right.
Qed.
Lemma entry_unmap {X Y} (f : X -> Y) (st : dict string (dict string X)) name var y : entry (nested_map f st) name var y -> exists x, entry st name var x /\ y = f x.
Proof.
  intros (vs & H & G). unfold nested_map in H.
  assert (exists vs0, dget st name = Some vs0 /\ vs = map (fun va => (fst va, f (snd va))) vs0) as (vs0 & H0 & ->).
  { clear -H. induction st as [|[k w] st IH]; [discriminate|]. cbn [map fst snd dget] in *. destruct (eq_dec name k) as [->|]; [injection H as <-; eauto|auto]. }
  assert (exists x, dget vs0 var = Some x /\ y = f x) as (x & Hx & ->).
  { clear -G. induction vs0 as [|[k w] vs0 IH]; [discriminate|]. cbn [map fst snd dget] in *. destruct (eq_dec var k) as [->|]; [injection G as <-; eauto|auto]. }
  exists x. split; [exists vs0; auto|reflexivity].
Qed.
Lemma nested_map_compose {X Y Z} (f : X -> Y) (g : Y -> Z) (st : dict string (dict string X)) : nested_map g (nested_map f st) = nested_map (fun x => g (f x)) st.
Proof. unfold nested_map. rewrite map_map. apply map_ext. intros [n vs]. cbn [fst snd]. f_equal. rewrite map_map. reflexivity. Qed.
Lemma proper_nested {X Y} (f : X -> Y) (st : dict string (dict string X)) : proper_table st -> proper_table (nested_map f st).
Proof.
  intros [N NV]. split.
  - unfold keys, nested_map. rewrite map_map. exact N.
  - intros name vs I. unfold nested_map in I. apply in_map_iff in I. destruct I as ([n ws] & [= <- <-] & I). unfold keys. rewrite map_map. exact (NV n ws I).
Qed.

(** ** States *)
Lemma mapM_state_inv {St A B} (P : St -> Prop) (f : A -> St -> result (B * St)) :
  (forall a s b s', P s -> f a s = Ok (b, s') -> P s') ->
  forall l s rs s', P s -> mapM_state f l s = Ok (rs, s') ->
  P s' /\ Forall2 (fun a b => exists s1 s2, P s1 /\ f a s1 = Ok (b, s2)) l rs.
Proof.
  intros H. induction l as [|a l IH]; intros s rs s' Ps E; cbn [mapM_state] in E; [injection E as <- <-; auto|].
  destruct (f a s) as [[b s1]|] eqn:Ef; [|discriminate]. cbn [bind snd fst] in E. destruct (mapM_state f l s1) as [[rs1 s2]|] eqn:El; [|discriminate]. cbn [bind snd fst] in E. injection E as <- <-.
  assert (P s1) as P1 by (eapply H; eassumption). destruct (IH _ _ _ P1 El) as [P2 F]. split; [exact P2|]. constructor; [eauto|exact F].
Qed.

(** ** Sums of resampled values *)
Definition resampled_sum (d : string) (rows : list (list Z)) (r : nat) (x : da) : da :=
  mkDa (keep (fun k => negb (eqb k d)) (dims x) ++ [(REPLICATE_DIM, positions r)])
       (fun e => np_sum true (map (fun row =>
          get x (upd e d (nth (Z.to_nat (nth (position_of (e REPLICATE_DIM)) row 0%Z)) (labels_of (dims x) d) (LZ 0)))) rows))
       (aux_without [d] (aux x)).
Lemma sum_of_resampled_Ok d ls rows r x : unit_array d ls x -> sum_of_resampled d rows r x = Ok (resampled_sum d rows r x).
Proof. intros U. destruct (unit_in _ _ _ U) as [I _]. unfold sum_of_resampled. assert (memb d (dnames x) = true) as -> by (now apply memb_In). reflexivity. Qed.
Lemma dget_resampled_sum d rows r x k : d <> REPLICATE_DIM -> ~ In REPLICATE_DIM (dnames x) ->
  dget (dims (resampled_sum d rows r x)) k = if eqb k REPLICATE_DIM then Some (positions r) else if eqb k d then None else dget (dims x) k.
Proof.
  intros N R. cbn [resampled_sum dims].
  assert (dget (keep (fun k0 => negb (eqb k0 d)) (dims x)) k = if eqb k d then None else dget (dims x) k) as K by (rewrite dget_keep; destruct (eqb k d); reflexivity).
  destruct (eqb k REPLICATE_DIM) eqn:E.
  - apply eqb_true_iff in E. subst k. rewrite dget_app_r; [cbn [dget]; now destruct (eq_dec REPLICATE_DIM REPLICATE_DIM)|]. rewrite K. destruct (eqb REPLICATE_DIM d); auto.
    destruct (dget (dims x) REPLICATE_DIM) eqn:G; auto. apply dget_Some_keys in G. contradiction.
  - apply eqb_false_iff in E. rewrite <- K. destruct (dget (keep (fun k0 => negb (eqb k0 d)) (dims x)) k) as [l|] eqn:G; [now apply dget_app_l|].
    rewrite dget_app_r by exact G. cbn [dget]. destruct (eq_dec k REPLICATE_DIM); congruence.
Qed.
Lemma wf_resampled_sum d ls rows r x : d <> REPLICATE_DIM -> ~ In REPLICATE_DIM (dnames x) -> unit_array d ls x -> wf (resampled_sum d rows r x).
Proof.
  intros N R [W D]. split; [|split].
  - unfold dnames. cbn [resampled_sum dims]. rewrite map_app. cbn [map fst]. apply NoDup_app_intro; [apply keep_NoDup, W|constructor; [intros []|constructor]|].
    intros k H1 [<-|[]]. apply R. unfold dnames. apply in_map_iff in H1. destruct H1 as (p & E & H1). apply filter_In in H1. apply in_map_iff. exists p. tauto.
  - intros k l I. cbn [resampled_sum dims] in I. apply in_app_iff in I. destruct I as [I|[[= <- <-]|[]]]; [|apply NoDup_positions].
    unfold keep in I. apply filter_In in I. now apply (proj1 (proj2 W) k l).
  - intros e e' H. cbn [resampled_sum get]. unfold dnames in H. cbn [resampled_sum dims] in H. rewrite map_app in H. cbn [map fst] in H.
    assert (e REPLICATE_DIM = e' REPLICATE_DIM) as -> by (apply H, in_app_iff; right; now left).
    f_equal. apply map_ext. intros row. apply W. intros k Hk. destruct (string_dec k d) as [->|Nk]; [now rewrite !upd_same|]. rewrite !upd_other by auto. apply H, in_app_iff. left.
    apply in_map_iff in Hk. destruct Hk as ([k' m] & <- & Hk). apply in_map_iff. exists (k', m). split; [reflexivity|]. unfold keep. apply filter_In. split; [exact Hk|]. cbn. apply negb_true_iff, eqb_false_iff. exact Nk.
Qed.
Lemma get_resampled_sum d ls rows r x e k : unit_array d ls x -> ~ In REPLICATE_DIM (dnames x) -> e REPLICATE_DIM = LZ (Z.of_nat k) ->
  (forall i, In i (draws_of rows k) -> (i < length ls)%nat) ->
  get (resampled_sum d rows r x) e = drawn_total (along x d e) (draws_of rows k).
Proof.
  intros U R Ek B. destruct (unit_in _ _ _ U) as [_ E]. cbn [resampled_sum get]. rewrite E, Ek, position_LZ. unfold np_sum, drawn_total. change (valid ?l) with (filter (fun v => negb (isnan v)) l). f_equal. f_equal.
  unfold along. rewrite E. unfold draws_of in *. rewrite map_map. apply map_ext_in. intros row Hr.
  assert (Z.to_nat (nth k row 0%Z) < length ls)%nat as L by (apply B; apply in_map_iff; eauto). set (i := Z.to_nat (nth k row 0%Z)) in *.
  rewrite (nth_indep _ NaN (get x (upd e d (LZ 0)))) by (now rewrite map_length). now rewrite (map_nth (fun l => get x (upd e d l))).
Qed.
