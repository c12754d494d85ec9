(** Lemmas about linearised per-unit values. *)
From Coq Require Import String ZArith List Bool Reals Lra Lia Permutation FunctionalExtensionality.
Import ListNotations.
From Verif Require Import Prelude Values Model_XArray Spec_XArray Proofs_XArray Model_Tree Proofs_Tree Model_MetricsBase Model_Aggregation Model_Ensemble
  Spec_Aggregator Proofs_Aggregator Spec_Reduce Proofs_Reduce Proofs_Ensemble Proofs_Ensemble2 Model_Baseline Proofs_Baseline Model_Bootstrap
  Model_Resample Spec_Resample Proofs_TTest Proofs_Resample Props_Resample Model_TTest Model_Autodiff Spec_Autodiff.
Local Open Scope R_scope.
Local Open Scope list_scope.

Lemma neg_memb_one (d k : string) : negb (memb k [d]) = negb (eqb k d).
Proof. f_equal. destruct (eqb k d) eqn:E; [apply eqb_true_iff in E; subst; apply memb_In; now left|]. apply eqb_false_iff in E. apply memb_false. cbn. intuition congruence. Qed.
Lemma keep_ext p q (ds : dimlist) : (forall k, p k = q k) -> keep p ds = keep q ds.
Proof. intros H. unfold keep. apply filter_ext. intros [k l]. apply H. Qed.
Lemma mean_reduced d ls x : unit_array d ls x -> reduce (np_mean false) [d] x = Ok (mean_over d x).
Proof.
  intros U. destruct (unit_in _ _ _ U) as [I E]. unfold reduce. assert (subsetb [d] (dnames x) = true) as ->.
  { unfold subsetb. cbn [forallb]. assert (memb d (dnames x) = true) as -> by (now apply memb_In). reflexivity. }
  f_equal. unfold mean_over. f_equal.
  - apply keep_ext. intros k. apply neg_memb_one.
  - apply functional_extensionality. intros e. change (envs (keep (fun k => memb k [d]) (dims x)) e) with (sum_points [d] x e).
    rewrite sum_points_one by (apply U || exact I). rewrite map_map. fold (along x d e). unfold np_mean. f_equal. unfold along. now rewrite map_length.
Qed.

(** Dividing both sums by the number of units does not change the ratio. *)
Lemma rsign_div x n : 0 < n -> rsign (x / n) = rsign x.
Proof.
  intros P. assert (0 < / n) by (now apply Rinv_0_lt_compat). assert (x / n * n = x) as E by (field; lra). set (y := x / n) in *. rewrite <- E. unfold rsign.
  destruct (Rlt_dec 0 y), (Rlt_dec 0 (y * n)), (Rlt_dec y 0), (Rlt_dec (y * n) 0); try reflexivity; exfalso; nra.
Qed.
Lemma vdiv_both s w n : 0 < n -> vdiv (vdiv s (Fin n)) (vdiv w (Fin n)) = vdiv s w.
Proof.
  intros P. assert (rsign n = rsign 1) as Sn. { rewrite <- (rsign_div n n P). f_equal. field. lra. }
  assert (forall v, vdiv v (Fin n) = match v with Fin r => Fin (r / n) | v => v end) as K.
  { intros v. destruct v; unfold vdiv; try reflexivity; (destruct (Req_EM_T n 0); [lra|]); try reflexivity; rewrite Sn; unfold rsign; destruct (Rlt_dec 0 1); try lra; reflexivity. }
  rewrite !K. assert (forall w, (w / n = 0) <-> w = 0) as Z.
  { intros x. split; [|intros ->; unfold Rdiv; ring]. intros E. assert (x = x / n * n) as -> by (field; lra). rewrite E. ring. }
  destruct s as [s| | |], w as [w| | |]; try reflexivity; unfold vdiv.
  - destruct (Req_EM_T w 0) as [E|N], (Req_EM_T (w / n) 0) as [E'|N'].
    + now rewrite rsign_div. + exfalso. apply N', Z, E. + exfalso. apply N, Z, E'. + f_equal. field. lra.
  - destruct (Req_EM_T w 0) as [E|N], (Req_EM_T (w / n) 0) as [E'|N']; [reflexivity|exfalso; apply N', Z, E|exfalso; apply N, Z, E'|now rewrite rsign_div].
  - destruct (Req_EM_T w 0) as [E|N], (Req_EM_T (w / n) 0) as [E'|N']; [reflexivity|exfalso; apply N', Z, E|exfalso; apply N, Z, E'|now rewrite rsign_div].
Qed.
Lemma same_ratio d ls ws w : unit_array d ls ws -> unit_array d ls w ->
  binop vdiv (mean_over d ws) (mean_over d w) = unit_mean d (ws, w).
Proof.
  intros U1 U2. destruct (unit_in _ _ _ U1) as [I1 E1]. destruct (unit_in _ _ _ U2) as [I2 E2].
  assert (forall x, keep (fun k => negb (memb k [d])) (dims x) = keep (fun k => negb (eqb k d)) (dims x)) as K.
  { intros x. apply keep_ext. intros k. apply neg_memb_one. }
  unfold unit_mean. cbn [fst snd]. unfold binop. cbn [mean_over summed dims aux get]. rewrite !K. f_equal.
  apply functional_extensionality. intros e. rewrite E1, E2.
  change (vsum (map (get ws) (envs (keep (fun k => memb k [d]) (dims ws)) e))) with (get (summed d ws) e).
  change (vsum (map (get w) (envs (keep (fun k => memb k [d]) (dims w)) e))) with (get (summed d w) e).
  rewrite (da_sum_along d ws (summed d ws) e), (da_sum_along d w (summed d w) e); [|apply U2|now apply (da_sum_unit d ls)|apply U1|now apply (da_sum_unit d ls)].
  destruct ls as [|l ls].
  - unfold along. rewrite E1, E2. cbn [map length INR]. change (vsum []) with (Fin 0). unfold vdiv. destruct (Req_EM_T 0 0); [|lra]. unfold rsign. destruct (Rlt_dec 0 0); [lra|]. reflexivity.
  - apply vdiv_both. apply lt_0_INR. cbn. lia.
Qed.

(** The tangents. *)
Lemma dims_sub_mean d ls x : unit_array d ls x -> dims (binop vsub x (mean_over d x)) = dims x.
Proof.
  intros [(N & L & G) D]. unfold binop. cbn [dims mean_over]. unfold merge_dims.
  assert (forall p : string * list label, In p (dims x) -> match dget (keep (fun k => negb (eqb k d)) (dims x)) (fst p) with Some l2 => (fst p, inter_labels (snd p) l2) | None => p end = p) as H1.
  { intros [k l] I. cbn [fst snd]. rewrite dget_keep. destruct (negb (eqb k d)); [|reflexivity]. rewrite (In_dget _ _ _ N I). now rewrite inter_self. }
  rewrite (map_ext_in _ (fun p => p) _ H1), List.map_id.
  match goal with |- dims x ++ ?r = dims x => assert (r = []) as -> end; [|apply app_nil_r].
  assert (forall l : dimlist, (forall p, In p l -> In (fst p) (map fst (dims x))) -> filter (fun p => negb (memb (fst p) (map fst (dims x)))) l = []) as F.
  { induction l as [|p l IH]; intros H; [reflexivity|]. cbn [filter]. assert (In (fst p) (map fst (dims x))) as I by (apply H; now left). apply memb_In in I. rewrite I. cbn. apply IH. intros q Hq. apply H. now right. }
  apply F. intros p Hp. unfold keep in Hp. apply filter_In in Hp. apply in_map, Hp.
Qed.
Definition tangent_array (d : string) (i : nat) (x : da) : da :=
  mkDa (dims (mean_over d x)) (fun e => vsub (get x (upd e d (nth i (labels_of (dims x) d) (LZ 0)))) (get (mean_over d x) e)) (aux_without [d] (merge_aux (dims x) (aux x) (aux_without [d] (aux x)))).
Lemma along_upd x d e l : along x d (upd e d l) = along x d e.
Proof. unfold along. apply map_ext. intros k. f_equal. apply functional_extensionality. intros n. destruct (string_dec n d) as [->|N]; [now rewrite !upd_same|]. now rewrite !upd_other. Qed.
Lemma unit_slice_Ok d ls i x : unit_array d ls x -> unit_slice d (length ls) i (binop vsub x (mean_over d x)) = Ok (tangent_array d i x).
Proof.
  intros U. destruct (unit_in _ _ _ U) as [I E]. unfold unit_slice. rewrite (dims_sub_mean d ls x U). destruct U as [W D]. rewrite D, Nat.eqb_refl. f_equal.
  unfold tangent_array. f_equal.
  - apply functional_extensionality. intros e. cbn [binop get mean_over]. rewrite E, along_upd. reflexivity.
  - unfold binop. cbn [aux]. fold (dims (binop vsub x (mean_over d x))). f_equal. f_equal. exact (dims_sub_mean d ls x (conj W D)).
Qed.

(** ** The function *)
Lemma tree_of_map {X Y} (f : X -> Y) (st : dict string (dict string X)) (g : Y -> da) : tree_of (nested_map f st) g = tree_of st (fun x => g (f x)).
Proof. unfold tree_of, nested_map. f_equal. rewrite map_map. apply map_ext. intros [k vs]. cbn [fst snd]. rewrite map_map. reflexivity. Qed.
Lemma nested_map_ext {X Y} (f g : X -> Y) (st : dict string (dict string X)) : (forall name vs var x, In (name, vs) st -> In (var, x) vs -> f x = g x) -> nested_map f st = nested_map g st.
Proof.
  intros H. unfold nested_map. apply map_ext_in. intros [k vs] I. cbn [fst snd]. f_equal. apply map_ext_in. intros [v x] J. cbn. f_equal. eapply H; eauto.
Qed.
Definition output_array (d : string) (ls : list label) (outs : list metric_arrays) (m : string) (va : string * da) : da :=
  mkDa (dims (snd va) ++ [(d, ls)])
       (fun e => match nth_error outs (index_of (e d) ls) with
                 | Some o => match dget o m with
                             | Some vs => match dget vs (fst va) with Some a => get a e | None => NaN end
                             | None => NaN end
                 | None => NaN end) (aux (snd va)).
Lemma linearized_eq linearize metrics st d ls : unit_table d ls st -> (forall name var ws w, entry st name var (ws, w) -> proper_coords ws) ->
  per_unit_values_linearized linearize metrics (state_of st) d =
  (let base := arrays_state st (fun z => mean_over d (fst z)) (fun z => mean_over d (snd z)) in
   do value <- compute_metrics_from_statistics metrics (nested_map (unit_mean d) st);
   do outs <- mapM (fun i => linearize (state_metrics metrics) base (arrays_state st (fun z => tangent_array d i (fst z)) (fun z => tangent_array d i (snd z)))) (seq 0 (length ls));
   Ok (value, map (fun mv => (fst mv, map (fun va => (fst va, output_array d ls outs (fst mv) va)) (snd mv))) value)).
Proof.
  intros T C. unfold per_unit_values_linearized. assert (get_and_check_experimental_unit_coord (state_of st) d true = Ok (d, ls)) as ->.
  { apply (C49_unit_check st d (d, ls)); [apply T|exact C|]. exists ls. split; auto. split; [apply T|]. intros n v ws w H. destruct T as (_ & _ & U). apply (U n v ws w H). }
  destruct T as (P & _ & U). cbn [bind snd]. unfold state_of.
  rewrite (map_state_tree (reduce (np_mean false) [d]) st fst snd (fun z => mean_over d (fst z)) (fun z => mean_over d (snd z))).
  2: { intros name vs var [ws w] I J. destruct (U name var ws w) as [U1 U2]; [now apply (In_entry st name var vs)|]. split; now apply (mean_reduced d ls). }
  cbn [bind]. rewrite state_metrics_tree by auto.
  rewrite (nested_map_ext (fun x => binop vdiv (mean_over d (fst x)) (mean_over d (snd x))) (unit_mean d)).
  2: { intros name vs var [ws w] I J. destruct (U name var ws w) as [U1 U2]; [now apply (In_entry st name var vs)|]. now apply (same_ratio d ls). }
  cbv zeta. destruct (compute_metrics_from_statistics metrics (nested_map (unit_mean d) st)) as [value|]; [|reflexivity]. cbn [bind].
  unfold map_multi. cbn [existsb orb nonzero_states flat_map app map fst snd].
  rewrite (map_tree2 (fun x y => Ok (binop vsub x y)) st fst (fun z => mean_over d (fst z)) (fun z => binop vsub (fst z) (mean_over d (fst z)))) by auto.
  cbn [bind]. rewrite (map_tree2 (fun x y => Ok (binop vsub x y)) st snd (fun z => mean_over d (snd z)) (fun z => binop vsub (snd z) (mean_over d (snd z)))) by auto.
  cbn [bind].
  assert (forall i, map_state (unit_slice d (length ls) i) (Some (tree_of st (fun z => binop vsub (fst z) (mean_over d (fst z))), tree_of st (fun z => binop vsub (snd z) (mean_over d (snd z))))) =
     Ok (arrays_state st (fun z => tangent_array d i (fst z)) (fun z => tangent_array d i (snd z)))) as Sl.
  { intros i. apply (map_state_tree (unit_slice d (length ls) i) st). intros name vs var [ws w] I J. destruct (U name var ws w) as [U1 U2]; [now apply (In_entry st name var vs)|]. split; now apply unit_slice_Ok. }
  rewrite (mapM_ext _ (fun i => linearize (state_metrics metrics) (arrays_state st (fun z => mean_over d (fst z)) (fun z => mean_over d (snd z))) (arrays_state st (fun z => tangent_array d i (fst z)) (fun z => tangent_array d i (snd z))))).
  - reflexivity.
  - intros i _. rewrite Sl. reflexivity.
Qed.
