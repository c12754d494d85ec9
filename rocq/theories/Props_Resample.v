(** C49: resampling units and clusters in the bootstrap. *)
From Coq Require Import String ZArith List Bool Reals Lra Lia Permutation FunctionalExtensionality.
Import ListNotations.
From Verif Require Import Prelude Values Model_XArray Spec_XArray Proofs_XArray Model_Tree Proofs_Tree Model_MetricsBase Model_Aggregation Model_Ensemble
  Spec_Aggregator Proofs_Aggregator Spec_Reduce Proofs_Reduce Proofs_Ensemble Proofs_Ensemble2 Model_Baseline Proofs_Baseline Model_Bootstrap
  Model_Resample Spec_Resample Proofs_TTest Proofs_Resample.
Local Open Scope R_scope.
Local Open Scope string_scope.
Local Open Scope list_scope.

(** ** The experimental units *)
Lemma check_coords_some d arrs c : (forall a, In a arrs -> proper_coords a) ->
  forall r, check_coords d true arrs (Some c) = Ok r <-> r = c /\ forall a, In a arrs -> dget (dims a) d = Some (snd c).
Proof.
  intros P r. induction arrs as [|a arrs IH].
  - cbn. split; [intros [= <-]; split; [auto|intros ? []]|intros [-> _]; reflexivity].
  - assert (forall a', In a' arrs -> proper_coords a') as P' by (intros a' Ha; apply P; now right). specialize (IH P').
    assert (proper_coords a) as Pa by (apply P; now left). cbn [check_coords]. unfold coord_of. destruct (dget (dims a) d) as [ls|] eqn:E.
    + cbn [bind fst snd]. rewrite eqb_refl. cbn [andb negb]. destruct (Nat.eqb_spec (length ls) (length (snd c))) as [L|L]; cbn [negb].
      * unfold same_labels. destruct (list_eq_dec eq_dec ls (snd c)) as [->|N]; cbn [negb].
        -- rewrite IH. split; intros [-> H]; split; auto; intros x Hx; [destruct Hx as [<-|Hx]; auto|apply H; now right].
        -- split; [discriminate|]. intros [-> H]. specialize (H a (or_introl eq_refl)). congruence.
      * split; [discriminate|]. intros [-> H]. specialize (H a (or_introl eq_refl)). exfalso. apply L. congruence.
    + split; [|intros [-> H]; specialize (H a (or_introl eq_refl)); congruence].
      destruct (dget (aux a) d) as [co|] eqn:Ea; [|discriminate]. destruct (c_dims co) as [|d' [|]] eqn:Ec; try discriminate. cbn [bind fst snd].
      destruct (eqb d' d) eqn:Ed; [|discriminate]. exfalso. apply (Pa d co Ea). rewrite Ec. f_equal. now apply eqb_true_iff in Ed.
Qed.
Lemma check_coords_none d arrs : (forall a, In a arrs -> proper_coords a) ->
  forall r, check_coords d true arrs None = Ok r <-> exists ls, r = (d, ls) /\ arrs <> [] /\ forall a, In a arrs -> dget (dims a) d = Some ls.
Proof.
  intros P r. destruct arrs as [|a arrs]; [cbn; split; [discriminate|intros (ls & _ & H & _); now destruct H]|].
  assert (forall a', In a' arrs -> proper_coords a') as P' by (intros a' Ha; apply P; now right).
  assert (proper_coords a) as Pa by (apply P; now left). cbn [check_coords]. unfold coord_of. destruct (dget (dims a) d) as [ls|] eqn:E.
  - cbn [bind fst snd]. rewrite eqb_refl. cbn [andb negb]. rewrite check_coords_some by auto. cbn [snd]. split.
    + intros [-> H]. exists ls. repeat split; [discriminate|]. intros x [<-|Hx]; auto.
    + intros (ls' & -> & _ & H). assert (ls' = ls) as -> by (specialize (H a (or_introl eq_refl)); congruence). split; auto. intros x Hx. apply H. now right.
  - split; [|intros (ls & _ & _ & H); specialize (H a (or_introl eq_refl)); congruence].
    destruct (dget (aux a) d) as [co|] eqn:Ea; [|discriminate]. destruct (c_dims co) as [|d' [|]] eqn:Ec; try discriminate. cbn [bind fst snd].
    destruct (eqb d' d) eqn:Ed; [|discriminate]. exfalso. apply (Pa d co Ea). rewrite Ec. f_equal. now apply eqb_true_iff in Ed.
Qed.
Lemma check_coords_error d b arrs c e : check_coords d b arrs c = Err e -> e = ValueError.
Proof.
  revert c. induction arrs as [|a arrs IH]; intros c; cbn [check_coords]; [destruct c; [discriminate|congruence]|].
  assert (forall er, coord_of d a = Err er -> er = ValueError) as K.
  { unfold coord_of. intros er. destruct (dget (dims a) d); [discriminate|]. destruct (dget (aux a) d) as [co|]; [|congruence]. destruct (c_dims co) as [|? [|]]; congruence. }
  destruct (coord_of d a) as [x|er] eqn:E; cbn [bind]; [|intros [= <-]; now apply K].
  destruct (_ && _); [congruence|]. destruct c as [c0|]; [|apply IH]. destruct (negb _); [congruence|]. destruct (negb _); [congruence|]. apply IH.
Qed.
Lemma In_arrays_of {X Y} (f : X -> Y) (st : dict string (dict string X)) y : proper_table st ->
  In y (concat (map (fun kv => map snd (snd kv)) (nested_map f st))) <-> exists name var x, entry st name var x /\ y = f x.
Proof.
  intros P. unfold nested_map. rewrite map_map. cbn [fst snd]. rewrite in_concat. split.
  - intros (l & Hl & Hy). apply in_map_iff in Hl. destruct Hl as ([name vs] & <- & I). cbn [snd] in Hy. rewrite map_map in Hy. cbn in Hy.
    apply in_map_iff in Hy. destruct Hy as ([var x] & <- & J). exists name, var, x. split; [|reflexivity]. now apply (In_entry st name var vs).
  - intros (name & var & x & H & ->). apply entry_In in H. destruct H as (vs & I & J).
    exists (map snd (map (fun va : string * X => (fst va, f (snd va))) vs)). split; [apply in_map_iff; exists (name, vs); auto|].
    rewrite map_map. apply in_map_iff. exists (var, x). auto.
Qed.

(** The check succeeds exactly if there is an array and every array of weighted statistics has
    the dimension, all with the same labels in the same order; otherwise it is a ValueError. *)
Theorem C49_unit_check : forall st d r,
  proper_table st -> (forall name var ws w, entry st name var (ws, w) -> proper_coords ws) ->
  (get_and_check_experimental_unit_coord (state_of st) d true = Ok r <->
   exists ls, r = (d, ls) /\ (exists name var p, entry st name var p) /\
              forall name var ws w, entry st name var (ws, w) -> dget (dims ws) d = Some ls) /\
  (forall e, get_and_check_experimental_unit_coord (state_of st) d true = Err e -> e = ValueError).
Proof.
  intros st d r P C. unfold get_and_check_experimental_unit_coord, state_of. rewrite nested_tree_of. cbn [bind].
  split; [|intros e H; now apply check_coords_error in H].
  rewrite check_coords_none.
  - split; intros (ls & -> & N & H); exists ls; split; auto; split.
    + destruct (concat _) as [|a arrs] eqn:E in N; [congruence|]. assert (In a (concat (map (fun kv => map snd (snd kv)) (nested_map fst st)))) as I by (rewrite E; now left).
      apply In_arrays_of in I; auto. destruct I as (n & v & p & I & _). eauto.
    + intros name var ws w I. apply H. apply In_arrays_of; auto. exists name, var, (ws, w). auto.
    + destruct N as (n & v & p & I). intros E. assert (In (fst p) (concat (map (fun kv => map snd (snd kv)) (nested_map fst st)))) as J. { apply In_arrays_of; auto. exists n, v, p. auto. } rewrite E in J. destruct J.
    + intros a Ha. apply In_arrays_of in Ha; auto. destruct Ha as (n & v & [ws w] & I & ->). now apply (H n v ws w).
  - intros a Ha. apply In_arrays_of in Ha; auto. destruct Ha as (n & v & [ws w] & I & ->). now apply (C n v ws w).
Qed.
Print Assumptions C49_unit_check.

(** ** Draws *)
(** Counts that a multinomial draw of n units can produce are exactly the tallies of n
    draws with replacement from n units. *)
Theorem C49_counts_are_draws : forall n row,
  (length row = n /\ list_sum row = n) <->
  exists draws, length draws = n /\ (forall i, In i draws -> (i < n)%nat) /\ row = tally n draws.
Proof.
  intros n row. split.
  - intros [L S]. destruct (row_tally n row L S) as (draws & D & I & E). exists draws. auto.
  - intros (draws & D & I & ->). split; [unfold tally; now rewrite map_length, seq_length|].
    assert (INR (list_sum (tally n draws)) = INR (length draws)) as K; [|apply INR_eq in K; lia].
    assert (forall l, INR (list_sum l) = rsum (map INR l)) as S.
    { induction l as [|x l IH]; [reflexivity|]. change (list_sum (x :: l)) with (x + list_sum l)%nat. rewrite plus_INR, IH. reflexivity. }
    rewrite S. unfold tally. rewrite map_map. transitivity (rsum (map (fun i => (fun _ => 1) i * INR (count_occ Nat.eq_dec draws i)) (seq 0 n))).
    + apply rsum_eq. intros i _. ring.
    + rewrite (counted_sum (fun _ => 1) n draws I). clear. induction draws as [|x l IH]; [reflexivity|]. cbn [map length]. rewrite S_INR.
      change (rsum (1 :: map (fun _ => 1) l)) with (1 + rsum (map (fun _ => 1) l)). rewrite IH. ring.
Qed.
Print Assumptions C49_counts_are_draws.

(** ** Both methods, for given counts of units *)
Lemma inter_self l : inter_labels l l = l.
Proof.
  unfold inter_labels. assert (forall m, (forall x, In x m -> In x l) -> filter (fun x => memb x l) m = m) as K.
  { induction m as [|x m IH]; intros H; [reflexivity|]. cbn [filter]. assert (memb x l = true) as -> by (apply memb_In, H; now left). f_equal. apply IH. intros y Hy. apply H. now right. }
  apply K. auto.
Qed.
Lemma labels_dget ds d (ls : list label) : dget ds d = Some ls -> labels_of ds d = ls.
Proof. unfold labels_of. now intros ->. Qed.
Lemma unit_in d ls a : unit_array d ls a -> In d (dnames a) /\ labels_of (dims a) d = ls.
Proof. intros [_ H]. split; [exact (dget_Some_keys _ _ H)|now apply labels_dget]. Qed.
Lemma dot_counts_Ok d ls counts x : unit_array d ls x -> dot_counts d (length ls) counts x = Ok (da_dot [d] [x; counts_array d ls counts]).
Proof.
  intros U. destruct (unit_in _ _ _ U) as [I E]. unfold dot_counts. assert (memb d (dnames x) = true) as -> by (now apply memb_In).
  rewrite E, Nat.eqb_refl. reflexivity.
Qed.
Definition summed (d : string) (x : da) : da :=
  mkDa (keep (fun k => negb (memb k [d])) (dims x)) (fun e => vsum (map (get x) (envs (keep (fun k => memb k [d]) (dims x)) e))) (aux_without [d] (aux x)).
Lemma da_sum_unit d ls x : unit_array d ls x -> da_sum [d] x = Ok (summed d x).
Proof.
  intros U. destruct (unit_in _ _ _ U) as [I E]. unfold da_sum. assert (subsetb [d] (dnames x) = true) as ->; [|reflexivity].
  unfold subsetb. cbn [forallb]. assert (memb d (dnames x) = true) as -> by (now apply memb_In). reflexivity.
Qed.
Definition unit_mean (d : string) (p : da * da) : da := binop vdiv (summed d (fst p)) (summed d (snd p)).
Definition unit_resampled (d : string) (ls : list label) (counts : list (list nat)) (p : da * da) : da :=
  binop vdiv (da_dot [d] [fst p; counts_array d ls counts]) (da_dot [d] [snd p; counts_array d ls counts]).
Lemma by_counts metrics st d ls counts : unit_table d ls st ->
  (do r <- resampled_stats d (length ls) counts (state_of st);
   do total <- sum_along_dims [d] (state_of st);
   do point_estimates <- state_metrics metrics total;
   do resampled_values <- state_metrics metrics r;
   Ok (point_estimates, resampled_values)) =
  (do pe <- compute_metrics_from_statistics metrics (nested_map (unit_mean d) st);
   do rv <- compute_metrics_from_statistics metrics (nested_map (unit_resampled d ls counts) st);
   Ok (pe, rv)).
Proof.
  intros (P & _ & U). unfold resampled_stats, state_of.
  rewrite (map_state_tree (dot_counts d (length ls) counts) st fst snd (fun p => da_dot [d] [fst p; counts_array d ls counts]) (fun p => da_dot [d] [snd p; counts_array d ls counts])).
  2: { intros name vs var [ws w] I J. destruct (U name var ws w) as [U1 U2]; [now apply (In_entry st name var vs)|]. split; now apply dot_counts_Ok. }
  cbn [bind sum_along_dims].
  rewrite (map_state_tree (da_sum [d]) st fst snd (fun p => summed d (fst p)) (fun p => summed d (snd p))).
  2: { intros name vs var [ws w] I J. destruct (U name var ws w) as [U1 U2]; [now apply (In_entry st name var vs)|]. split; now apply (da_sum_unit d ls). }
  cbn [bind]. rewrite !state_metrics_tree by auto. reflexivity.
Qed.
Lemma mean_value' d ls ws w e xs us : unit_array d ls ws -> unit_array d ls w -> along ws d e = map Fin xs -> along w d e = map Fin us ->
  get (unit_mean d (ws, w)) e = vdiv (Fin (rsum xs)) (Fin (rsum us)).
Proof.
  intros U1 U2 A1 A2. unfold unit_mean. cbn [fst snd binop get].
  rewrite (da_sum_along d ws (summed d ws) e), (da_sum_along d w (summed d w) e), A1, A2.
  - unfold rsum. rewrite <- !vsum_map_Fin'. reflexivity.
  - apply U2. - now apply (da_sum_unit d ls). - apply U1. - now apply (da_sum_unit d ls).
Qed.
Lemma dims_resampled d ls counts ws w : unit_array d ls ws -> unit_array d ls w -> d <> REPLICATE_DIM ->
  ~ In REPLICATE_DIM (dnames ws) -> ~ In REPLICATE_DIM (dnames w) ->
  labels_of (dims (unit_resampled d ls counts (ws, w))) REPLICATE_DIM = positions (length counts) /\
  forall k, In k (dnames (unit_resampled d ls counts (ws, w))) <-> k = REPLICATE_DIM \/ In k (dnames (unit_mean d (ws, w))).
Proof.
  intros U1 U2 N R1 R2. destruct (unit_in _ _ _ U1) as [I1 E1]. destruct (unit_in _ _ _ U2) as [I2 E2].
  assert (forall x, ~ In REPLICATE_DIM (dnames x) -> dget (dims (da_dot [d] [x; counts_array d ls counts])) REPLICATE_DIM = Some (positions (length counts))) as K.
  { intros x R. rewrite dims_dot. rewrite dget_keep. assert (memb REPLICATE_DIM [d] = false) as ->. { apply memb_false. intros [->|[]]. now apply N. } cbn [negb].
    unfold ijoint. cbn [map fold_left]. rewrite !dget_merge. cbn [dget]. assert (dget (dims x) REPLICATE_DIM = None) as ->.
    { destruct (dget (dims x) REPLICATE_DIM) eqn:G; auto. apply dget_Some_keys in G. contradiction. }
    cbn [counts_array dims dget]. reflexivity. }
  split.
  - unfold unit_resampled. cbn [fst snd binop dims]. unfold labels_of. rewrite dget_merge, (K ws R1), (K w R2). apply inter_self.
  - intros k. unfold unit_resampled, unit_mean, dnames, binop. cbn [fst snd dims]. rewrite !names_merge, !dims_dot. unfold summed. cbn [dims]. rewrite !names_keep.
    unfold ijoint. cbn [map fold_left]. rewrite !names_merge. cbn [counts_array dims map fst].
    assert (forall k, negb (memb k [d]) = true <-> k <> d) as M.
    { intros k'. rewrite negb_true_iff, memb_false. cbn. intuition congruence. }
    rewrite !M. split.
    + intros [[[[[]|H]|[<-|[->|[]]]] Nk]|[[[[]|H]|[<-|[->|[]]]] Nk]]; auto; try (now right; left); try (now right; right); try congruence.
    + intros [->|[[H Nk]|[H Nk]]].
      * left. split; [right; left; reflexivity|congruence].
      * left. split; [left; now right|exact Nk].
      * right. split; [left; now right|exact Nk].
Qed.

Lemma iid_by_counts metrics st d ls counts : unit_table d ls st -> (forall name var ws w, entry st name var (ws, w) -> proper_coords ws) ->
  iid_bootstrap metrics (state_of st) d counts =
    (do pe <- compute_metrics_from_statistics metrics (nested_map (unit_mean d) st);
     do rv <- compute_metrics_from_statistics metrics (nested_map (unit_resampled d ls counts) st);
     Ok (pe, rv)).
Proof.
  intros T C. unfold iid_bootstrap. assert (get_and_check_experimental_unit_coord (state_of st) d true = Ok (d, ls)) as ->.
  { apply (C49_unit_check st d (d, ls)); [apply T|exact C|]. exists ls. split; auto. split; [apply T|]. intros n v ws w H. destruct T as (_ & _ & U). apply (U n v ws w H). }
  cbn [bind snd]. now apply by_counts.
Qed.

(** ** Independent units *)
(** The point estimate is the metric of the summed state; the resampled values are the metrics of
    states in which every array, of statistics and of weights alike, is summed over the same drawn
    units, with multiplicity. *)
Theorem C49_iid : forall metrics st d ls counts,
  unit_table d ls st -> d <> REPLICATE_DIM ->
  (forall name var ws w, entry st name var (ws, w) -> proper_coords ws /\ ~ In REPLICATE_DIM (dnames ws) /\ ~ In REPLICATE_DIM (dnames w)) ->
  exists mean resampled : da * da -> da,
  iid_bootstrap metrics (state_of st) d counts =
    (do pe <- compute_metrics_from_statistics metrics (nested_map mean st);
     do rv <- compute_metrics_from_statistics metrics (nested_map resampled st);
     Ok (pe, rv)) /\
  forall name var ws w, entry st name var (ws, w) ->
    labels_of (dims (resampled (ws, w))) REPLICATE_DIM = positions (length counts) /\
    (forall k, In k (dnames (resampled (ws, w))) <-> k = REPLICATE_DIM \/ In k (dnames (mean (ws, w)))) /\
    forall e xs us, along ws d e = map Fin xs -> along w d e = map Fin us ->
      get (mean (ws, w)) e = vdiv (Fin (rsum xs)) (Fin (rsum us)) /\
      forall k draws, e REPLICATE_DIM = LZ (Z.of_nat k) -> replicate_draws (length ls) counts k draws ->
        get (resampled (ws, w)) e = vdiv (Fin (drawn_sum xs draws)) (Fin (drawn_sum us draws)).
Proof.
  intros metrics st d ls counts T N C. exists (unit_mean d), (unit_resampled d ls counts). split.
  - apply iid_by_counts; auto. intros n v ws w H. apply (C n v ws w H).
  - intros name var ws w H. destruct T as (P & _ & U). destruct (U _ _ _ _ H) as [U1 U2]. destruct (C _ _ _ _ H) as (_ & R1 & R2).
    destruct (dims_resampled d ls counts ws w U1 U2 N R1 R2) as [D1 D2]. split; [exact D1|]. split; [exact D2|].
    intros e xs us A1 A2. split; [now apply (mean_value' d ls)|]. intros k draws Ek [G I]. unfold unit_resampled. cbn [fst snd binop get].
    destruct (unit_in _ _ _ U1) as [I1 E1]. destruct (unit_in _ _ _ U2) as [I2 E2].
    assert (length xs = length ls) as L1. { rewrite <- (map_length Fin xs), <- A1. unfold along. now rewrite map_length, E1. }
    assert (length us = length ls) as L2. { rewrite <- (map_length Fin us), <- A2. unfold along. now rewrite map_length, E2. }
    rewrite <- E1 at 1. rewrite (dot_counts_Fin d counts ws e xs) by (auto; apply U1). rewrite <- E2. rewrite (dot_counts_Fin d counts w e us) by (auto; apply U2).
    rewrite Ek, position_LZ. assert (nth k counts [] = tally (length ls) draws) as -> by (now apply nth_error_nth).
    f_equal; f_equal; [rewrite <- L1; apply tally_sum; rewrite L1; exact I|rewrite <- L2; apply tally_sum; rewrite L2; exact I].
Qed.
Print Assumptions C49_iid.

(** Finding: although a unit that is not drawn should not matter, a missing value in it makes every
    replicate missing (its count 0 times NaN is NaN). *)
Theorem C49_missing_unit_refuted : forall metrics st d ls counts,
  unit_table d ls st -> d <> REPLICATE_DIM -> (forall name var ws w, entry st name var (ws, w) -> proper_coords ws) ->
  exists mean resampled : da * da -> da,
  iid_bootstrap metrics (state_of st) d counts =
    (do pe <- compute_metrics_from_statistics metrics (nested_map mean st);
     do rv <- compute_metrics_from_statistics metrics (nested_map resampled st);
     Ok (pe, rv)) /\
  forall name var ws w e, entry st name var (ws, w) -> In NaN (along ws d e) -> get (resampled (ws, w)) e = NaN.
Proof.
  intros metrics st d ls counts T N C. exists (unit_mean d), (unit_resampled d ls counts). split; [now apply iid_by_counts|].
  intros name var ws w e H A. destruct T as (P & _ & U). destruct (U _ _ _ _ H) as [U1 U2]. destruct (unit_in _ _ _ U1) as [I1 E1].
  unfold unit_resampled. cbn [fst snd binop get]. rewrite <- E1 at 1. rewrite dot_counts_get by (auto; apply U1).
  unfold along in A. apply in_map_iff in A. destruct A as (l & Hl & I).
  rewrite vsum_NaN; [reflexivity|]. apply in_map_iff. exists l. split; auto. rewrite Hl. reflexivity.
Qed.
Print Assumptions C49_missing_unit_refuted.

(** ** Clusters *)
Theorem C49_cluster_names : forall values, NoDup (clusters values) /\ forall c, In c (clusters values) <-> In c values.
Proof. intros values. unfold clusters. split; [apply NoDup_nodup|]. intros c. apply nodup_In. Qed.
Print Assumptions C49_cluster_names.

(** Clusters are drawn as a whole: every drawn cluster contributes the sums over all its units. *)
Theorem C49_cluster : forall metrics st coord d values ls counts,
  unit_table d ls st -> d <> REPLICATE_DIM ->
  get_and_check_experimental_unit_coord (state_of st) coord false = Ok (d, values) -> length values = length ls ->
  (forall name var ws w, entry st name var (ws, w) -> ~ In REPLICATE_DIM (dnames ws) /\ ~ In REPLICATE_DIM (dnames w)) ->
  exists mean resampled : da * da -> da,
  cluster_bootstrap metrics (state_of st) coord counts =
    (do pe <- compute_metrics_from_statistics metrics (nested_map mean st);
     do rv <- compute_metrics_from_statistics metrics (nested_map resampled st);
     Ok (pe, rv)) /\
  forall name var ws w, entry st name var (ws, w) ->
    labels_of (dims (resampled (ws, w))) REPLICATE_DIM = positions (length counts) /\
    (forall k, In k (dnames (resampled (ws, w))) <-> k = REPLICATE_DIM \/ In k (dnames (mean (ws, w)))) /\
    forall e xs us, along ws d e = map Fin xs -> along w d e = map Fin us ->
      get (mean (ws, w)) e = vdiv (Fin (rsum xs)) (Fin (rsum us)) /\
      forall k draws, e REPLICATE_DIM = LZ (Z.of_nat k) -> cluster_draws (clusters values) counts k draws ->
        get (resampled (ws, w)) e =
        vdiv (Fin (rsum (map (cluster_sum values xs) draws))) (Fin (rsum (map (cluster_sum values us) draws))).
Proof.
  intros metrics st coord d values ls counts T N G LV C. exists (unit_mean d), (unit_resampled d ls (map (unit_counts values) counts)). split.
  - unfold cluster_bootstrap. rewrite G. cbn [bind fst snd]. rewrite LV. now apply by_counts.
  - intros name var ws w H. destruct T as (P & _ & U). destruct (U _ _ _ _ H) as [U1 U2]. destruct (C _ _ _ _ H) as (R1 & R2).
    destruct (dims_resampled d ls (map (unit_counts values) counts) ws w U1 U2 N R1 R2) as [D1 D2]. rewrite map_length in D1. split; [exact D1|]. split; [exact D2|].
    intros e xs us A1 A2. split; [now apply (mean_value' d ls)|]. intros k draws Ek [K I]. unfold unit_resampled. cbn [fst snd binop get].
    destruct (unit_in _ _ _ U1) as [I1 E1]. destruct (unit_in _ _ _ U2) as [I2 E2].
    assert (length xs = length ls) as L1. { rewrite <- (map_length Fin xs), <- A1. unfold along. now rewrite map_length, E1. }
    assert (length us = length ls) as L2. { rewrite <- (map_length Fin us), <- A2. unfold along. now rewrite map_length, E2. }
    rewrite <- E1 at 1. rewrite (dot_counts_Fin d _ ws e xs) by (auto; apply U1). rewrite <- E2. rewrite (dot_counts_Fin d _ w e us) by (auto; apply U2).
    rewrite Ek, position_LZ. assert (nth k (map (unit_counts values) counts) [] = map (count_occ eq_dec draws) values) as ->.
    { apply nth_error_nth. rewrite nth_error_map, K. cbn [option_map]. f_equal. unfold unit_counts. apply map_ext_in. intros v Hv.
      destruct (C49_cluster_names values) as [ND IN]. apply IN in Hv. apply In_nth_error in Hv. destruct Hv as [i Hi].
      rewrite (index_of_map_nth _ i v ND Hi). apply nth_error_nth. now rewrite nth_error_map, Hi. }
    assert (forall zs, length zs = length values ->
      rsum (map (fun i => nth i zs 0 * INR (nth i (map (count_occ eq_dec draws) values) O)) (seq 0 (length zs))) = rsum (map (cluster_sum values zs) draws)) as Z.
    { intros zs Lz. rewrite <- cluster_counted by auto. f_equal. clear -Lz. revert zs Lz.
      induction values as [|v values IH]; intros [|z zs] Lz; try discriminate; [reflexivity|]. cbn [length seq map combine]. f_equal.
      rewrite <- seq_shift, map_map. cbn [nth]. apply IH. now injection Lz. }
    rewrite !Z by lia. reflexivity.
Qed.
Print Assumptions C49_cluster.

(** ** Stationary bootstrap: explicit indices *)
(** Sums of the units at the given indices (column [k] of the index array belongs to replicate [k]). *)
Theorem C49_stationary_sums : forall d rows n_replicates x ls e xs k,
  unit_array d ls x -> along x d e = map Fin xs -> e REPLICATE_DIM = LZ (Z.of_nat k) -> d <> REPLICATE_DIM ->
  (forall row, In row rows -> (0 <= nth k row 0 < Z.of_nat (length ls))%Z) ->
  exists y, sum_of_resampled d rows n_replicates x = Ok y /\
  labels_of (dims y) REPLICATE_DIM = (if memb REPLICATE_DIM (dnames x) then labels_of (dims x) REPLICATE_DIM else positions n_replicates) /\
  get y e = Fin (drawn_sum xs (map (fun row => Z.to_nat (nth k row 0%Z)) rows)).
Proof.
  intros d rows n x ls e xs k U A Ek N B. destruct (unit_in _ _ _ U) as [I E]. unfold sum_of_resampled.
  assert (memb d (dnames x) = true) as -> by (now apply memb_In). eexists. split; [reflexivity|]. split.
  - unfold labels_of. cbn [dims]. unfold dnames. destruct (memb REPLICATE_DIM (map fst (dims x))) eqn:M.
    + apply memb_In in M. apply keys_dget in M. destruct M as [l M]. rewrite (dget_app_l _ _ _ l), M; [reflexivity|].
      rewrite dget_keep. assert (negb (eqb REPLICATE_DIM d) = true) as ->; [|exact M]. apply negb_true_iff, eqb_false_iff. congruence.
    + apply memb_false in M. rewrite dget_app_r; [cbn [dget]; now destruct (eq_dec REPLICATE_DIM REPLICATE_DIM)|].
      rewrite dget_keep. destruct (negb _); auto. destruct (dget (dims x) REPLICATE_DIM) eqn:G; auto. apply dget_Some_keys in G. contradiction.
  - cbn [get]. rewrite E, Ek, position_LZ. unfold along in A. rewrite E in A.
    assert (forall i, (i < length ls)%nat -> get x (upd e d (nth i ls (LZ 0))) = Fin (nth i xs 0)) as G.
    { intros i Hi. assert (length xs = length ls) as L by (rewrite <- (map_length Fin xs), <- A; now rewrite map_length).
      assert (nth i (map (fun l => get x (upd e d l)) ls) (get x (upd e d (LZ 0))) = nth i (map Fin xs) (Fin 0)) as H.
      { rewrite A. apply nth_indep. rewrite map_length. lia. }
      rewrite (map_nth (fun l => get x (upd e d l)) ls (LZ 0) i) in H. rewrite (map_nth Fin xs 0 i) in H. exact H. }
    assert (map (fun row => get x (upd e d (nth (Z.to_nat (nth k row 0%Z)) ls (LZ 0)))) rows = map Fin (map (fun row => nth (Z.to_nat (nth k row 0%Z)) xs 0) rows)) as ->.
    { rewrite map_map. apply map_ext_in. intros row Hr. apply G. specialize (B row Hr). lia. }
    unfold np_sum, drawn_sum. rewrite (map_map _ (fun i => nth i xs 0)). assert (forall l, valid (map Fin l) = map Fin l) as V by (induction l as [|? ? IH]; [reflexivity|cbn; unfold valid in IH; now rewrite IH]).
    rewrite V, <- vsum_map_Fin'. reflexivity.
Qed.
Print Assumptions C49_stationary_sums.

(** Finding: in the stationary bootstrap a missing statistic is summed as 0 while its weight still
    counts, so the replicates are pulled towards 0, whereas the point estimate is missing. *)
Theorem C49_stationary_missing_refuted : forall d rows n_replicates x ls e k,
  unit_array d ls x -> e REPLICATE_DIM = LZ (Z.of_nat k) -> (forall l, In l ls -> get x (upd e d l) = NaN) -> ls <> [] ->
  (forall row, In row rows -> (0 <= nth k row 0 < Z.of_nat (length ls))%Z) ->
  (exists y, sum_of_resampled d rows n_replicates x = Ok y /\ get y e = Fin 0) /\
  (exists s, da_sum [d] x = Ok s /\ get s e = NaN).
Proof.
  intros d rows n x ls e k U Ek A NE B. destruct (unit_in _ _ _ U) as [I E]. split.
  - unfold sum_of_resampled. assert (memb d (dnames x) = true) as -> by (now apply memb_In). eexists. split; [reflexivity|].
    cbn [get]. rewrite E, Ek, position_LZ. unfold np_sum.
    assert (valid (map (fun row => get x (upd e d (nth (Z.to_nat (nth k row 0%Z)) ls (LZ 0)))) rows) = []) as ->; [|reflexivity].
    induction rows as [|row rows IH]; [reflexivity|]. unfold valid in *. cbn [map filter]. rewrite A; [|apply nth_In; specialize (B row (or_introl eq_refl)); lia].
    cbn. apply IH. intros r Hr. apply B. now right.
  - exists (summed d x). split; [now apply (da_sum_unit d ls)|]. rewrite (da_sum_along d x (summed d x) e); [|apply U|now apply (da_sum_unit d ls)].
    apply vsum_NaN. unfold along. rewrite E. destruct ls as [|l ls]; [congruence|]. left. apply A. now left.
Qed.
Print Assumptions C49_stationary_missing_refuted.

(** ** A concrete case: three units with statistics 1, 2, 4 and weights 1, 1, 2; a replicate that
    draws the first unit once and the last one twice. *)
Definition ex_values (f : Z -> R) : da :=
  mkDa [("init_time", [LZ 0; LZ 1; LZ 2])] (fun e => match e "init_time" with LZ z => Fin (f z) | _ => NaN end) [].
Lemma ex_unit f : unit_array "init_time" [LZ 0; LZ 1; LZ 2] (ex_values f).
Proof.
  split; [|reflexivity]. split; [|split].
  - cbn. constructor; [intros []|constructor].
  - intros d ls [[= <- <-]|[]]. repeat constructor; cbn; intuition discriminate.
  - intros e e' H. cbn. now rewrite (H "init_time" (or_introl eq_refl)).
Qed.
Definition ex_stat (z : Z) : R := if Z.eqb z 0 then 1 else if Z.eqb z 1 then 2 else 4.
Definition ex_weight (z : Z) : R := if Z.eqb z 2 then 2 else 1.
Definition ex_table : table := [("error", [("temperature", (ex_values ex_stat, ex_values ex_weight))])].
Example C49_units_exist : unit_table "init_time" [LZ 0; LZ 1; LZ 2] ex_table /\
  (forall name var ws w, entry ex_table name var (ws, w) -> proper_coords ws /\ ~ In REPLICATE_DIM (dnames ws) /\ ~ In REPLICATE_DIM (dnames w)) /\
  replicate_draws 3 [[1; 0; 2]%nat] 0 [0; 2; 2]%nat /\
  drawn_sum [1; 2; 4] [0; 2; 2]%nat / drawn_sum [1; 1; 2] [0; 2; 2]%nat = 9 / 5.
Proof.
  assert (forall name var ws w, entry ex_table name var (ws, w) -> (ws, w) = (ex_values ex_stat, ex_values ex_weight)) as K.
  { intros name var ws w H. apply entry_In in H. destruct H as (vs & [[= <- <-]|[]] & [[= <- <- <-]|[]]). reflexivity. }
  split; [split; [|split]|split; [|split]].
  - split; [cbn; constructor; [intros []|constructor]|]. intros name vs [[= <- <-]|[]]. cbn. constructor; [intros []|constructor].
  - exists "error", "temperature", (ex_values ex_stat, ex_values ex_weight). eexists. split; reflexivity.
  - intros name var ws w H. apply K in H. injection H as -> ->. split; apply ex_unit.
  - intros name var ws w H. apply K in H. injection H as -> ->. split; [intros n c; discriminate|]. split; intros [E|[]]; discriminate.
  - split; [reflexivity|]. intros i [<-|[<-|[<-|[]]]]; lia.
  - unfold drawn_sum, rsum. cbn [map nth fold_right]. field.
Qed.
(** Two clusters: units 0 and 2 belong to "a", unit 1 to "b"; drawing "a" twice doubles 1 + 4. *)
Example C49_clusters_exist :
  cluster_draws (clusters [LS "a"; LS "b"; LS "a"]) [[0; 2]%nat] 0 [LS "a"; LS "a"] /\
  rsum (map (cluster_sum [LS "a"; LS "b"; LS "a"] [1; 2; 4]) [LS "a"; LS "a"]) = 10.
Proof.
  split.
  - split; [reflexivity|]. intros c [<-|[<-|[]]]; cbn; auto.
  - unfold cluster_sum. cbn [map combine filter fst snd]. repeat (destruct (eq_dec _ _); try congruence; try discriminate). unfold rsum. cbn [map fold_right snd]. lra.
Qed.
