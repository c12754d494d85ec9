(** Lemmas about resampling. *)
From Coq Require Import String ZArith List Bool Reals Lra Lia Permutation FunctionalExtensionality.
Import ListNotations.
From Verif Require Import Prelude Values Model_XArray Spec_XArray Proofs_XArray Model_Tree Proofs_Tree Model_MetricsBase Model_Aggregation Model_Ensemble
  Spec_Aggregator Proofs_Aggregator Spec_Reduce Proofs_Reduce Proofs_Ensemble Proofs_Ensemble2 Model_Baseline Proofs_Baseline Model_Bootstrap
  Model_Resample Spec_Resample Proofs_TTest.
Local Open Scope R_scope.
Local Open Scope list_scope.

(** ** Trees *)
Lemma map_tree1 {X} (f : da -> result da) (st : dict string (dict string X)) p g :
  (forall name vs var x, In (name, vs) st -> In (var, x) vs -> f (p x) = Ok (g x)) ->
  map_structure (fun xs => do a <- arrays xs; match a with [x] => f x | _ => Err TypeError end) rebuild_ds [tree_of st p] = Ok (tree_of st g).
Proof.
  intros H. unfold tree_of, map_structure. rewrite map_first_Dict.
  assert (go_dict (fun xs => do a <- arrays xs; match a with [x] => f x | _ => Err TypeError end) rebuild_ds []
           (map (fun kv => (fst kv, Dict (map (fun va => (fst va, Leaf (p (snd va)))) (snd kv)))) st) =
          Ok (map (fun kv => (fst kv, Dict (map (fun va => (fst va, Leaf (g (snd va)))) (snd kv)))) st)) as ->; [|reflexivity].
  induction st as [|[name vs] st IH]; [reflexivity|]. cbn [map go_dict fst snd mapM bind].
  rewrite map_first_Dict.
  assert (go_dict (fun xs => do a <- arrays xs; match a with [x] => f x | _ => Err TypeError end) rebuild_ds []
           (map (fun va : string * X => (fst va, Leaf (p (snd va)))) vs) = Ok (map (fun va => (fst va, Leaf (g (snd va)))) vs)) as E.
  { assert (forall var x, In (var, x) vs -> f (p x) = Ok (g x)) as Hv by (intros var x I; apply (H name vs var x); [now left|exact I]).
    clear -Hv. induction vs as [|[var x] vs IH]; [reflexivity|]. cbn [map go_dict fst snd mapM bind map_first arrays].
    rewrite (Hv var x) by (now left). cbn [bind]. rewrite IH by (intros v y I; apply (Hv v y); now right). reflexivity. }
  rewrite E. cbn [bind]. rewrite IH; [reflexivity|]. intros n v var x I J. apply (H n v var x); [now right|exact J].
Qed.

Lemma go2 {X} (F : da -> da -> result da) (p q : X -> da) (G : X -> da) (vs all : dict string X) : NoDup (keys all) -> incl vs all ->
  (forall var x, In (var, x) vs -> F (p x) (q x) = Ok (G x)) ->
  go_dict (fun ss => do a <- arrays ss; match a with [x; y] => F x y | _ => Err TypeError end) rebuild_ds
    [Dict (map (fun va => (fst va, Leaf (q (snd va)))) all)] (map (fun va => (fst va, Leaf (p (snd va)))) vs) =
  Ok (map (fun va => (fst va, Leaf (G (snd va)))) vs).
Proof.
  intros N I H. induction vs as [|[var x] vs IH]; [reflexivity|]. cbn [map go_dict fst snd mapM child].
  assert (dgetE (map (fun va => (fst va, Leaf (q (snd va)))) all) var = Ok (Leaf (q x))) as E.
  { apply dgetE_Some. apply In_dget.
    - unfold keys. rewrite map_map. exact N.
    - apply in_map_iff. exists (var, x). split; auto. apply I. now left. }
  rewrite E. cbn [bind map_first arrays]. rewrite (H var x) by (now left). cbn [bind].
  rewrite IH; [reflexivity| |]. - intros y Hy. apply I. now right. - intros v y Hy. apply (H v y). now right.
Qed.
Lemma map_tree2 {X} (F : da -> da -> result da) (st : dict string (dict string X)) p q G : proper_table st ->
  (forall name vs var x, In (name, vs) st -> In (var, x) vs -> F (p x) (q x) = Ok (G x)) ->
  map_structure (fun ss => do a <- arrays ss; match a with [x; y] => F x y | _ => Err TypeError end) rebuild_ds [tree_of st p; tree_of st q] = Ok (tree_of st G).
Proof.
  intros [N NV] H. unfold tree_of, map_structure. rewrite map_first_Dict.
  assert (forall l, incl l st -> go_dict (fun ss => do a <- arrays ss; match a with [x; y] => F x y | _ => Err TypeError end) rebuild_ds
            [Dict (map (fun kv => (fst kv, Dict (map (fun va => (fst va, Leaf (q (snd va)))) (snd kv)))) st)]
            (map (fun kv => (fst kv, Dict (map (fun va => (fst va, Leaf (p (snd va)))) (snd kv)))) l) =
          Ok (map (fun kv => (fst kv, Dict (map (fun va => (fst va, Leaf (G (snd va)))) (snd kv)))) l)) as K.
  2: { rewrite (K st (incl_refl _)). reflexivity. }
  induction l as [|[name vs] l IH]; intros I; [reflexivity|]. cbn [map go_dict fst snd mapM child].
  assert (dgetE (map (fun kv => (fst kv, Dict (map (fun va => (fst va, Leaf (q (snd va)))) (snd kv)))) st) name = Ok (Dict (map (fun va => (fst va, Leaf (q (snd va)))) vs))) as E.
  { apply dgetE_Some. apply In_dget.
    - unfold keys. rewrite map_map. exact N.
    - apply in_map_iff. exists (name, vs). split; auto. apply I. now left. }
  rewrite E. cbn [bind]. rewrite map_first_Dict. rewrite (go2 F p q G vs vs).
  - cbn [bind]. rewrite IH; [reflexivity|]. intros y Hy. apply I. now right.
  - apply (NV name). apply I. now left.
  - apply incl_refl.
  - intros var x Hx. apply (H name vs var x); [apply I; now left|exact Hx].
Qed.

Lemma nested_tree_of {X} (st : dict string (dict string X)) p : nested (tree_of st p) = Ok (nested_map p st).
Proof.
  unfold tree_of, nested, nested_map. induction st as [|[name vs] st IH]; [reflexivity|]. cbn [map mapM fst snd].
  assert (mapM (fun va : string * tree da => match snd va with Leaf a => Ok (fst va, a) | _ => Err TypeError end)
            (map (fun va : string * X => (fst va, Leaf (p (snd va)))) vs) = Ok (map (fun va => (fst va, p (snd va))) vs)) as ->.
  { clear. induction vs as [|[v x] vs IH]; [reflexivity|]. cbn [map mapM fst snd bind]. rewrite IH. reflexivity. }
  cbn [bind]. rewrite IH. reflexivity.
Qed.
Lemma mean_statistics_tree {X} (st : dict string (dict string X)) p q : proper_table st ->
  mean_statistics (Some (tree_of st p, tree_of st q)) = Ok (tree_of st (fun x => binop vdiv (p x) (q x))).
Proof. intros N. unfold mean_statistics. apply (map_tree2 (fun x y => Ok (binop vdiv x y))); auto. Qed.
Lemma state_metrics_tree {X} metrics (st : dict string (dict string X)) p q : proper_table st ->
  state_metrics metrics (Some (tree_of st p, tree_of st q)) = compute_metrics_from_statistics metrics (nested_map (fun x => binop vdiv (p x) (q x)) st).
Proof. intros N. unfold state_metrics. rewrite mean_statistics_tree by auto. cbn [bind]. rewrite nested_tree_of. reflexivity. Qed.
Lemma map_state_tree {X} (f : da -> result da) (st : dict string (dict string X)) p q g h :
  (forall name vs var x, In (name, vs) st -> In (var, x) vs -> f (p x) = Ok (g x) /\ f (q x) = Ok (h x)) ->
  map_state f (Some (tree_of st p, tree_of st q)) = Ok (Some (tree_of st g, tree_of st h)).
Proof.
  intros H. unfold map_state, map_multi. cbn [existsb orb nonzero_states flat_map app map fst snd].
  rewrite (map_tree1 f st p g), (map_tree1 f st q h).
  - reflexivity.
  - intros n v var x I J. apply (H n v var x I J).
  - intros n v var x I J. apply (H n v var x I J).
Qed.
Lemma entry_In {X} (st : dict string (dict string X)) name var x : entry st name var x -> exists vs, In (name, vs) st /\ In (var, x) vs.
Proof. intros (vs & H & G). exists vs. split; eapply dget_In; eauto. Qed.
Lemma In_entry {X} (st : dict string (dict string X)) name var vs x : proper_table st -> In (name, vs) st -> In (var, x) vs -> entry st name var x.
Proof. intros [N NV] H G. exists vs. split; apply In_dget; auto. now apply (NV name). Qed.
Lemma entry_map {X Y} (f : X -> Y) (st : dict string (dict string X)) name var x : entry st name var x -> entry (nested_map f st) name var (f x).
Proof.
  intros (vs & H & G). exists (map (fun va => (fst va, f (snd va))) vs). split.
  - unfold nested_map. clear G. induction st as [|[n w] st IH]; [discriminate|]. cbn [map fst snd dget] in *. destruct (eq_dec name n); [now injection H as ->|auto].
  - clear H. induction vs as [|[n w] vs IH]; [discriminate|]. cbn [map fst snd dget] in *. destruct (eq_dec var n); [now injection G as ->|auto].
Qed.

(** ** counts *)
Lemma position_LZ k : position_of (LZ (Z.of_nat k)) = k. Proof. cbn. apply Nat2Z.id. Qed.
Lemma NoDup_positions n : NoDup (positions n).
Proof. unfold positions. apply FinFun.Injective_map_NoDup; [|apply seq_NoDup]. intros a b [= H]. lia. Qed.
Lemma wf_counts d ls counts : d <> REPLICATE_DIM -> NoDup ls -> wf (counts_array d ls counts).
Proof.
  intros N L. split; [|split].
  - cbn. constructor; [|constructor; [intros []|constructor]]. intros [E|[]]. congruence.
  - intros k l [[= <- <-]|[[= <- <-]|[]]]; [apply NoDup_positions|exact L].
  - intros e e' H. cbn. now rewrite (H REPLICATE_DIM (or_introl eq_refl)), (H d (or_intror (or_introl eq_refl))).
Qed.
Lemma one_reduced x c d e : wf x -> In d (dnames x) -> labels_of (dims c) d = labels_of (dims x) d ->
  reduced_points [x; c] [d] e (map (upd e d) (labels_of (dims x) d)).
Proof.
  intros W I E. assert (NoDup (labels_of (dims x) d)) as L by (now apply wf_labels_NoDup). split.
  - apply FinFun.Injective_map_NoDup; auto. intros a b H. apply (f_equal (fun f => f d)) in H. now rewrite !upd_same in H.
  - intros e'. rewrite in_map_iff. split.
    + intros (l & <- & Hl). split.
      * intros n Hn. apply upd_other. intros ->. apply Hn. split; [now left|]. exists x. split; [now left|exact I].
      * intros a n [<-|[<-|[]]] [<-|[]] _; rewrite upd_same; [exact Hl|now rewrite E].
    + intros [Ho Hi]. exists (e' d). split.
      * apply functional_extensionality. intros n. destruct (string_dec n d) as [->|N]; [now rewrite upd_same|]. rewrite upd_other by auto. symmetry. apply Ho. intros [[H|[]] _]. congruence.
      * apply (Hi x d); [now left|now left|exact I].
Qed.
Lemma map_index_of (ls : list label) : NoDup ls -> map (fun l => (l, index_of l ls)) ls = combine ls (seq 0 (length ls)).
Proof.
  intros N. assert (forall pre l, ls = pre ++ l -> map (fun x => (x, index_of x ls)) l = combine l (seq (length pre) (length l))) as K.
  { intros pre l. revert pre. induction l as [|x l IH]; intros pre E; [reflexivity|]. cbn [map combine seq length]. f_equal.
    - f_equal. apply index_of_map_nth; auto. rewrite E, nth_error_app2, Nat.sub_diag by lia. reflexivity.
    - rewrite (IH (pre ++ [x])); [rewrite app_length; cbn; now rewrite Nat.add_1_r|]. now rewrite <- app_assoc. }
  apply (K [] ls eq_refl).
Qed.

(** The dot product with the counts of one replicate. *)
Lemma dot_counts_get d counts x e : wf x -> In d (dnames x) -> d <> REPLICATE_DIM ->
  get (da_dot [d] [x; counts_array d (labels_of (dims x) d) counts]) e =
  vsum (map (fun l => vmul (get x (upd e d l)) (Fin (INR (nth (index_of l (labels_of (dims x) d)) (nth (position_of (e REPLICATE_DIM)) counts []) O)))) (labels_of (dims x) d)).
Proof.
  intros W I N. assert (NoDup (labels_of (dims x) d)) as L by (now apply wf_labels_NoDup). set (ls := labels_of (dims x) d) in *. set (c := counts_array d ls counts).
  rewrite dot_get. assert (Permutation (dot_points [d] [x; c] e) (map (upd e d) ls)) as P.
  { eapply reduced_perm.
    - apply dot_points_spec. intros a [<-|[<-|[]]]; auto. now apply wf_counts.
    - unfold ls. apply one_reduced; auto. unfold c, counts_array, labels_of. cbn [dims dget].
      destruct (eq_dec d REPLICATE_DIM); [contradiction|]. destruct (eq_dec d d); [reflexivity|congruence]. }
  rewrite (vsum_perm _ _ (Permutation_map _ P)), map_map. f_equal. apply map_ext. intros l. cbn [map vprod fold_right]. rewrite vmul_1_r. f_equal.
  unfold c, counts_array. cbn [get]. rewrite upd_same, upd_other by auto. reflexivity.
Qed.
Lemma dot_counts_Fin d counts x e xs : wf x -> In d (dnames x) -> d <> REPLICATE_DIM -> along x d e = map Fin xs ->
  get (da_dot [d] [x; counts_array d (labels_of (dims x) d) counts]) e =
  Fin (rsum (map (fun i => nth i xs 0 * INR (nth i (nth (position_of (e REPLICATE_DIM)) counts []) O)) (seq 0 (length xs)))).
Proof.
  intros W I N A. rewrite dot_counts_get by auto. set (ls := labels_of (dims x) d) in *. set (row := nth (position_of (e REPLICATE_DIM)) counts []).
  assert (NoDup ls) as L by (now apply wf_labels_NoDup). assert (length ls = length xs) as Len. { rewrite <- (map_length Fin xs), <- A. unfold along. now rewrite map_length. }
  transitivity (vsum (map (fun li => vmul (get x (upd e d (fst li))) (Fin (INR (nth (snd li) row O)))) (map (fun l => (l, index_of l ls)) ls))).
  { rewrite map_map. reflexivity. }
  rewrite (map_index_of ls L), Len.
  rewrite <- vsum_map_Fin'. f_equal. unfold along in A. fold ls in A. clear -A Len.
  assert (forall (l : list label) (ys : list R) a, map (fun l => get x (upd e d l)) l = map Fin ys ->
    map (fun li => vmul (get x (upd e d (fst li))) (Fin (INR (nth (snd li) row O)))) (combine l (seq a (length ys))) =
    map Fin (map (fun i => nth (i - a) ys 0 * INR (nth i row O)) (seq a (length ys)))) as K.
  { induction l as [|y l IH]; intros [|z ys] a E; try discriminate; [reflexivity|]. cbn [map] in E. injection E as E1 E2.
    cbn [length seq combine map fst snd]. rewrite E1, Nat.sub_diag. cbn [nth]. f_equal. rewrite (IH ys (S a) E2). f_equal.
    apply map_ext_in. intros i Hi. apply in_seq in Hi. replace (i - a)%nat with (S (i - S a)) by lia. reflexivity. }
  rewrite (K ls xs 0%nat A). f_equal. apply map_ext. intros i. now rewrite Nat.sub_0_r.
Qed.

(** ** draws *)
Lemma counted_sum (f : nat -> R) n draws : (forall i, In i draws -> (i < n)%nat) ->
  rsum (map (fun i => f i * INR (count_occ Nat.eq_dec draws i)) (seq 0 n)) = rsum (map f draws).
Proof.
  induction draws as [|j ds IH]; intros H.
  - rewrite rsum_zeros; [reflexivity|]. intros i _. cbn. lra.
  - cbn [map]. change (rsum (f j :: map f ds)) with (f j + rsum (map f ds)). rewrite <- IH by (intros i Hi; apply H; now right).
    rewrite <- (rsum_delta f j n) by (apply H; now left). rewrite <- rsum_add. apply rsum_eq. intros i _. cbn [count_occ].
    destruct (Nat.eq_dec j i) as [->|N].
    + rewrite Nat.eqb_refl, S_INR. ring.
    + destruct (Nat.eqb_spec j i); [contradiction|]. ring.
Qed.
Lemma nth_tally n draws i : (i < n)%nat -> nth i (tally n draws) O = count_occ Nat.eq_dec draws i.
Proof.
  intros H. unfold tally. rewrite (nth_indep _ O (count_occ Nat.eq_dec draws O)) by (now rewrite map_length, seq_length).
  rewrite map_nth, seq_nth by auto. reflexivity.
Qed.
Lemma tally_sum xs draws : (forall i, In i draws -> (i < length xs)%nat) ->
  rsum (map (fun i => nth i xs 0 * INR (nth i (tally (length xs) draws) O)) (seq 0 (length xs))) = drawn_sum xs draws.
Proof.
  intros H. unfold drawn_sum. rewrite <- (counted_sum (fun i => nth i xs 0) (length xs) draws H). apply rsum_eq. intros i Hi. apply in_seq in Hi.
  now rewrite nth_tally by lia.
Qed.

(** Every row of counts is the tally of some draws. *)
Definition spread_out {A} (cells : list A) (row : list nat) : list A := flat_map (fun p => repeat (fst p) (snd p)) (combine cells row).
Lemma count_occ_repeat {A} (dec : forall x y : A, {x = y} + {x <> y}) a b n : count_occ dec (repeat a n) b = if dec a b then n else O.
Proof. induction n as [|n IH]; cbn; [now destruct (dec a b)|]. destruct (dec a b); rewrite IH; reflexivity. Qed.
Lemma length_spread_out {A} (cells : list A) row : length row = length cells -> length (spread_out cells row) = list_sum row.
Proof.
  revert row. induction cells as [|c cells IH]; intros [|m row] H; try discriminate; [reflexivity|]. unfold spread_out. cbn [combine flat_map fst snd].
  rewrite app_length, repeat_length. cbn. f_equal. apply IH. now injection H.
Qed.
Lemma In_spread_out {A} (cells : list A) row c : In c (spread_out cells row) -> In c cells.
Proof. unfold spread_out. rewrite in_flat_map. intros ([a m] & I & J). apply repeat_spec in J. subst. now apply in_combine_l in I. Qed.
Lemma count_spread_out {A} (dec : forall x y : A, {x = y} + {x <> y}) (cells : list A) row i c : NoDup cells -> length row = length cells ->
  nth_error cells i = Some c -> count_occ dec (spread_out cells row) c = nth i row O.
Proof.
  revert row i. induction cells as [|a cells IH]; intros [|m row] i N H E; try discriminate; [destruct i; discriminate|].
  unfold spread_out. cbn [combine flat_map fst snd]. rewrite count_occ_app, count_occ_repeat. apply NoDup_cons_iff in N. destruct N as [Na N].
  destruct i as [|i].
  - injection E as ->. destruct (dec c c); [|congruence]. cbn [nth]. replace (count_occ dec _ c) with O; [lia|]. symmetry.
    apply count_occ_not_In. intros J. apply In_spread_out in J. contradiction.
  - cbn in E. destruct (dec a c) as [->|_]; [exfalso; apply Na; eapply nth_error_In; eauto|]. cbn [nth]. apply (IH row i); auto.
Qed.
Lemma row_tally n row : length row = n -> list_sum row = n ->
  exists draws, length draws = n /\ (forall i, In i draws -> (i < n)%nat) /\ tally n draws = row.
Proof.
  intros L S. exists (spread_out (seq 0 n) row). split; [|split].
  - rewrite length_spread_out; [exact S|]. now rewrite seq_length.
  - intros i H. apply In_spread_out, in_seq in H. lia.
  - apply nth_ext with (d := O) (d' := O); [unfold tally; now rewrite map_length, seq_length|]. intros i Hi.
    unfold tally in Hi. rewrite map_length, seq_length in Hi. rewrite nth_tally by auto.
    apply count_spread_out; [apply seq_NoDup|now rewrite seq_length|].
    rewrite (nth_error_nth' _ O) by (now rewrite seq_length). now rewrite seq_nth.
Qed.

(** ** clusters *)
Lemma cluster_counted (values : list label) xs (draws : list label) : length values = length xs ->
  rsum (map (fun p => snd p * INR (count_occ eq_dec draws (fst p))) (combine values xs)) = rsum (map (cluster_sum values xs) draws).
Proof.
  intros L. induction draws as [|c ds IH].
  - rewrite rsum_zeros; [reflexivity|]. intros p _. cbn. lra.
  - cbn [map]. change (rsum (cluster_sum values xs c :: map (cluster_sum values xs) ds)) with (cluster_sum values xs c + rsum (map (cluster_sum values xs) ds)).
    rewrite <- IH. unfold cluster_sum.
    assert (forall l : list (label * R), rsum (map snd (filter (fun p => if eq_dec (fst p) c then true else false) l)) = rsum (map (fun p => if eq_dec c (fst p) then snd p else 0) l)) as K.
    { induction l as [|p l IHl]; [reflexivity|]. cbn [filter map]. destruct (eq_dec (fst p) c) as [E|E], (eq_dec c (fst p)) as [E'|E']; try congruence; cbn [map];
      change (rsum (?a :: ?b)) with (a + rsum b); unfold rsum in *; cbn [fold_right]; rewrite IHl; lra. }
    rewrite K, <- rsum_add. apply rsum_eq. intros p _. cbn [count_occ]. destruct (eq_dec c (fst p)); [rewrite S_INR|]; ring.
Qed.
