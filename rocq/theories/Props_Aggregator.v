(** C10 (two-stage reduction), C11 (weighted means), C12 (masks and NaN), C13 (dropped variables). *)
From Coq Require Import String List ZArith Bool.
Import ListNotations.
From Verif Require Import Prelude Values Model_XArray Spec_XArray Proofs_XArray Model_Tree Spec_Tree Model_Aggregation Spec_Aggregation Spec_Aggregator Proofs_AggState Proofs_Aggregator Proofs_Aggregator2.
From Coq Require Import Reals Lra.
Local Open Scope R_scope.
Local Open Scope string_scope.
Local Open Scope list_scope.

(** ** C10 *)
(** Reducing R1 and then summing over R2 is reducing R1 and R2, for any weightings, bins,
    masks and skipna: both succeed and the states are equal.  Hypotheses: every statistic
    has the dimensions R2, R1 and R2 are disjoint, arrays have distinct dimension names. *)
Theorem C10_two_stage : forall g R2 stats s1,
  (forall w s a, In w (weigh_by g) -> w s = Ok a -> NoDup (dnames a)) ->
  (forall b s a, In b (bin_by g) -> create_bin_mask b s = Ok a -> NoDup (dnames a)) ->
  (forall k vs v st, In (k, vs) stats -> In (v, Some st) vs -> NoDup (dnames st) /\ incl R2 (dnames st)) ->
  (forall d, In d (reduce_dims g) -> ~ In d R2) ->
  aggregate_statistics g stats = Ok s1 ->
  exists s1' s2, sum_along_dims R2 s1 = Ok s1' /\
    aggregate_statistics (with_reduce_dims g (reduce_dims g ++ R2)) stats = Ok s2 /\
    state_equiv s1' s2.
Proof. exact two_stage_state. Qed.
Print Assumptions C10_two_stage.

Theorem C10_zero : forall R2, sum_along_dims R2 zero = Ok zero.
Proof. reflexivity. Qed.

(** The hypothesis that every statistic has the dimensions R2 is needed: otherwise one
    stage drops the variable while two stages raise. *)
Definition tarr (name : string) (v : val) : da := mkDa [(name, [LZ 0; LZ 1])] (fun _ => v) [].
Definition plain_agg (R : list string) : aggregator := mkAgg R [] [] false false.
Theorem C10_missing_dim_refuted : exists g R2 stats s1 s2,
  aggregate_statistics g stats = Ok s1 /\
  sum_along_dims R2 s1 = Err ValueError /\
  aggregate_statistics (with_reduce_dims g (reduce_dims g ++ R2)) stats = Ok s2.
Proof.
  exists (plain_agg []), ["time"], [("MSE", [("t", Some (tarr "lead" (Fin 1)))])]. do 2 eexists.
  split; [reflexivity|]. split; reflexivity.
Qed.
Print Assumptions C10_missing_dim_refuted.

(** ** C11 *)
(** The mean statistic at a point [e] of the result is sum(u*x)/sum(u) over the points that
    the reduction visits, where u is the product of the weights at the selected points and 0
    elsewhere; it is NaN when the total weight is 0. *)
Theorem C11_weighted_mean : forall g stats agg t k v st s ws wrs ms bs m e,
  NoDup (map fst stats) -> (forall k vs, In (k, vs) stats -> NoDup (map fst vs)) ->
  aggregate_statistics g stats = Ok agg -> mean_statistics agg = Ok t ->
  (exists vs, dget stats k = Some vs /\ dget vs v = Some (Some st)) ->
  weighted_input g st s ws wrs ms bs ->
  at_path t [Key k; Key v] = Some (Leaf m) -> point_of (dims m) e ->
  exists P, reduced_points (st :: ws ++ ms) (reduce_dims g) e P /\
    let u := point_weight g st wrs bs in
    (rsum (map u P) <> 0 -> get m e = Fin (rsum (map (fun p => u p * s p) P) / rsum (map u P))) /\
    (rsum (map u P) = 0 -> (forall p, In p P -> 0 <= u p) -> get m e = NaN).
Proof. exact mean_value. Qed.
Print Assumptions C11_weighted_mean.

(** The result has exactly the unreduced dimensions of statistic, weights and bin masks,
    with the labels common to all arrays that have the dimension. *)
Theorem C11_result_coords : forall g st x y ws ms,
  (forall w, In w (weigh_by g) -> uses_coords w) ->
  (forall b, In b (bin_by g) -> uses_coords (create_bin_mask b)) -> mask_spans st ->
  mapM (fun w => w st) (weigh_by g) = Ok ws -> mapM (fun b => create_bin_mask b st) (bin_by g) = Ok ms ->
  aggregate_stat_var g st = Ok (Some (x, y)) ->
  (forall d, In d (dnames x) <-> (exists a, In a (st :: ws ++ ms) /\ In d (dnames a)) /\ ~ In d (reduce_dims g)) /\
  (forall d l, In d (dnames x) -> (In l (labels_of (dims x) d) <->
      forall a, In a (st :: ws ++ ms) -> In d (dnames a) -> In l (labels_of (dims a) d))) /\
  dims y = dims x.
Proof. exact agg_var_coords. Qed.
Print Assumptions C11_result_coords.

(** ... hence lies between any bounds of the selected values, *)
Theorem C11_between_bounds : forall g stats agg t k v st s ws wrs ms bs m e lo hi,
  NoDup (map fst stats) -> (forall k vs, In (k, vs) stats -> NoDup (map fst vs)) ->
  aggregate_statistics g stats = Ok agg -> mean_statistics agg = Ok t ->
  (exists vs, dget stats k = Some vs /\ dget vs v = Some (Some st)) ->
  weighted_input g st s ws wrs ms bs ->
  at_path t [Key k; Key v] = Some (Leaf m) -> point_of (dims m) e ->
  (forall p, 0 <= point_weight g st wrs bs p) ->
  (forall p, point_weight g st wrs bs p <> 0 -> lo <= s p <= hi) ->
  get m e = NaN \/ exists r, get m e = Fin r /\ lo <= r <= hi.
Proof.
  intros g stats agg t k v st s ws wrs ms bs m e lo hi Hn Hnv Ha Hm Hl W Hp He Hu Hb.
  destruct (mean_value g stats agg t k v st s ws wrs ms bs m e Hn Hnv Ha Hm Hl W Hp He) as (P & _ & H1 & H2).
  destruct (Req_dec (rsum (map (point_weight g st wrs bs) P)) 0) as [E|E]; [left; auto|right].
  eexists. split; [now apply H1|]. apply wmean_bounds; auto.
  assert (0 <= rsum (map (point_weight g st wrs bs) P)) by (apply rsum_map_nonneg; auto). lra.
Qed.
Print Assumptions C11_between_bounds.

(** ... and is c when the statistic is constantly c on the selected points. *)
Theorem C11_constant : forall g stats agg t k v st s ws wrs ms bs m e c,
  NoDup (map fst stats) -> (forall k vs, In (k, vs) stats -> NoDup (map fst vs)) ->
  aggregate_statistics g stats = Ok agg -> mean_statistics agg = Ok t ->
  (exists vs, dget stats k = Some vs /\ dget vs v = Some (Some st)) ->
  weighted_input g st s ws wrs ms bs ->
  at_path t [Key k; Key v] = Some (Leaf m) -> point_of (dims m) e ->
  (forall p, 0 <= point_weight g st wrs bs p) ->
  (forall p, point_weight g st wrs bs p <> 0 -> s p = c) ->
  get m e = NaN \/ get m e = Fin c.
Proof.
  intros g stats agg t k v st s ws wrs ms bs m e c Hn Hnv Ha Hm Hl W Hp He Hu Hb.
  destruct (C11_between_bounds g stats agg t k v st s ws wrs ms bs m e c c Hn Hnv Ha Hm Hl W Hp He Hu) as [H|(r & H & H')]; auto.
  - intros p Hp'. rewrite (Hb p Hp'). lra.
  - right. rewrite H. f_equal. lra.
Qed.
Print Assumptions C11_constant.

(** Multiplying all weights by c > 0 (an extra constant weighting) changes no mean. *)
Theorem C11_weight_scale : forall g c stats agg1 agg2 t1 t2 k v st s ws wrs ms bs m1 m2 e,
  let g2 := mkAgg (reduce_dims g) (bin_by g) ((fun _ => Ok (scalar (Fin c))) :: weigh_by g) (masked g) (skipna g) in
  0 < c -> NoDup (map fst stats) -> (forall k vs, In (k, vs) stats -> NoDup (map fst vs)) ->
  aggregate_statistics g stats = Ok agg1 -> mean_statistics agg1 = Ok t1 ->
  aggregate_statistics g2 stats = Ok agg2 -> mean_statistics agg2 = Ok t2 ->
  (exists vs, dget stats k = Some vs /\ dget vs v = Some (Some st)) ->
  weighted_input g st s ws wrs ms bs ->
  (forall p, 0 <= point_weight g st wrs bs p) ->
  at_path t1 [Key k; Key v] = Some (Leaf m1) -> at_path t2 [Key k; Key v] = Some (Leaf m2) ->
  point_of (dims m1) e -> point_of (dims m2) e ->
  get m1 e = get m2 e.
Proof.
  intros g c stats agg1 agg2 t1 t2 k v st s ws wrs ms bs m1 m2 e g2 Hc Hn Hnv A1 M1 A2 M2 Hl W Hu P1 P2 E1 E2.
  assert (weighted_input g2 st s (scalar (Fin c) :: ws) ((fun _ => c) :: wrs) ms bs) as W2.
  { destruct W. constructor; auto.
    - intros w [<-|Hw]; auto. intros a b _ _. reflexivity.
    - simpl. now rewrite wi_weights.
    - intros a [<-|Ha]; auto. repeat split; simpl; try constructor; try tauto. 
    - constructor; auto. intros p _. reflexivity. }
  destruct (mean_value g stats agg1 t1 k v st s ws wrs ms bs m1 e Hn Hnv A1 M1 Hl W P1 E1) as (Q1 & R1 & F1 & Z1).
  destruct (mean_value g2 stats agg2 t2 k v st s _ _ ms bs m2 e Hn Hnv A2 M2 Hl W2 P2 E2) as (Q2 & R2 & F2 & Z2).
  assert (forall p, point_weight g2 st ((fun _ => c) :: wrs) bs p = c * point_weight g st wrs bs p) as Hpw.
  { intros p. unfold point_weight. replace (counted g2 st p) with (counted g st p) by reflexivity.
    destruct (counted g st p && _); simpl; lra. }
  assert (Permutation.Permutation Q1 Q2) as HP.
  { destruct R1 as [N1 R1], R2 as [N2 R2]. apply Permutation.NoDup_Permutation; auto. intros p. rewrite R1, R2.
    simpl. split.
    - intros [H1 H2]. split.
      + intros d Hd. apply H1. intros [K1 [a [K2 K3]]]. apply Hd. split; auto. exists a. tauto.
      + intros a d [<-|[<-|Ha]] Hr Hd; [apply H2; auto|destruct Hd|apply H2; auto].
    - intros [H1 H2]. split.
      + intros d Hd. apply H1. intros [K1 [a [K2 K3]]]. apply Hd. split; auto. destruct K2 as [<-|[<-|K2]]; [exists st; auto|destruct K3|exists a; auto].
      + intros a d [<-|Ha] Hr Hd; apply H2; auto. }
  assert (rsum (map (point_weight g2 st ((fun _ => c) :: wrs) bs) Q2) = c * rsum (map (point_weight g st wrs bs) Q1)) as HW.
  { rewrite (rsum_map_ext _ (fun p => c * point_weight g st wrs bs p)) by (intros; apply Hpw). rewrite rsum_map_scale. f_equal.
    apply rsum_perm. apply Permutation.Permutation_map. now apply Permutation.Permutation_sym. }
  assert (rsum (map (fun p => point_weight g2 st ((fun _ => c) :: wrs) bs p * s p) Q2) = c * rsum (map (fun p => point_weight g st wrs bs p * s p) Q1)) as HS.
  { rewrite (rsum_map_ext _ (fun p => c * (point_weight g st wrs bs p * s p))) by (intros; rewrite Hpw; lra). rewrite rsum_map_scale. f_equal.
    apply rsum_perm. apply Permutation.Permutation_map. now apply Permutation.Permutation_sym. }
  destruct (Req_dec (rsum (map (point_weight g st wrs bs) Q1)) 0) as [E|E].
  - rewrite Z1, Z2; auto.
    + rewrite HW, E. lra.
    + intros p _. rewrite Hpw. specialize (Hu p). nra.
  - rewrite F1, F2; auto.
    + rewrite HW, HS. f_equal. field. split; auto. lra.
    + rewrite HW. nra.
Qed.
Print Assumptions C11_weight_scale.

(** ** C12 *)
(** Values at masked-out points (of any kind, NaN and infinities included) are irrelevant. *)
Theorem C12_masked_out_irrelevant : forall g stats1 stats2, masked g = true ->
  (forall w, In w (weigh_by g) -> uses_coords w) ->
  (forall b, In b (bin_by g) -> uses_coords (create_bin_mask b)) ->
  (forall w s a, In w (weigh_by g) -> w s = Ok a -> NoDup (dnames a)) ->
  (forall x s a, In x (bin_by g) -> create_bin_mask x s = Ok a -> NoDup (dnames a)) ->
  items_rel (items_rel (opt_rel (fun a b => dget (aux a) "mask" <> None /\ agree_unmasked a b))) stats1 stats2 ->
  outcome_rel state_equiv (aggregate_statistics g stats1) (aggregate_statistics g stats2).
Proof. exact masked_out_irrelevant. Qed.
Print Assumptions C12_masked_out_irrelevant.

(** With skipna NaN points contribute neither value nor weight: the results are the finite
    sums over the other points. *)
Theorem C12_skipna_ignores_NaN : forall g st x y ws wrs ms bs e (val_at : env -> R),
  skipna g = true ->
  weighted_input g st val_at ws wrs ms bs ->
  aggregate_stat_var g st = Ok (Some (x, y)) -> point_of (dims x) e ->
  exists P, reduced_points (st :: ws ++ ms) (reduce_dims g) e P /\
    let u := fun p => if isnan (get st p) then 0 else point_weight g st wrs bs p in
    get x e = Fin (rsum (map (fun p => u p * val_at p) P)) /\ get y e = Fin (rsum (map u P)).
Proof.
  intros g st x y ws wrs ms bs e f Hs W H He.
  destruct (sums_formula g st f x y ws ms wrs bs) with (e := e) as (P & HP & Hx & Hy); try apply W; auto.
  exists P. split; auto. cbn zeta.
  assert (forall p, (if isnan (get st p) then 0 else point_weight g st wrs bs p) = point_weight g st wrs bs p) as E.
  { intros p. unfold point_weight, counted. rewrite Hs. destruct (isnan (get st p)); simpl; [|reflexivity]. now rewrite andb_false_r. }
  rewrite Hx, Hy. split; f_equal; apply rsum_map_ext; intros; rewrite E; reflexivity.
Qed.
Print Assumptions C12_skipna_ignores_NaN.

(** Without mask and skipna, a NaN at any visited point makes the result NaN, in every bin
    (also bins the point does not belong to), whatever the weights. *)
Theorem C12_NaN_surfaces : forall g st x y e p,
  (masked g = false \/ dget (aux st) "mask" = None) -> skipna g = false ->
  (forall w, In w (weigh_by g) -> uses_coords w) ->
  (forall b, In b (bin_by g) -> uses_coords (create_bin_mask b)) ->
  (forall w s a, In w (weigh_by g) -> w s = Ok a -> wf a) ->
  (forall x s a, In x (bin_by g) -> create_bin_mask x s = Ok a -> wf a) ->
  wf st -> aggregate_stat_var g st = Ok (Some (x, y)) -> point_of (dims x) e ->
  forall ws ms, mapM (fun w => w st) (weigh_by g) = Ok ws -> mapM (fun b => create_bin_mask b st) (bin_by g) = Ok ms ->
  (forall d, ~ In d (reduce_dims g) -> p d = e d) ->
  (forall a d, In a (st :: ws ++ ms) -> In d (reduce_dims g) -> In d (dnames a) -> In (p d) (labels_of (dims a) d)) ->
  get st p = NaN -> get x e = NaN.
Proof. exact nan_surfaces. Qed.
Print Assumptions C12_NaN_surfaces.

(** [mask_spans] (part of weighted_input and of C13) is needed: with masked=True,
    skipna=False and a mask that lacks a dimension of another coordinate, a binning on
    that coordinate raises although the statistic has it. *)
Definition by_station : binning :=
  mkBinning "bin" (fun a => match dget (aux a) "station" with
                            | Some _ => Ok (mkDa [("bin", [LZ 0])] (fun _ => Fin 1) []) | None => Err KeyError end).
Definition masked_stat : da :=
  mkDa [("t", [LZ 0]); ("x", [LZ 0])] (fun _ => Fin 1)
       [("mask", mkCoord ["t"] (fun _ => LB true)); ("station", mkCoord ["x"] (fun _ => LZ 7))].
Theorem C12_static_mask_refuted :
  create_bin_mask by_station masked_stat <> Err KeyError /\
  aggregate_stat_var (mkAgg ["t"; "x"] [by_station] [] true false) masked_stat = Err KeyError /\
  exists p, aggregate_stat_var (mkAgg ["t"; "x"] [by_station] [] true true) masked_stat = Ok (Some p).
Proof. split; [discriminate|]. split; [reflexivity|]. eexists. reflexivity. Qed.
Print Assumptions C12_static_mask_refuted.

(** ** C13 *)
(** A variable is in the aggregated state iff its statistic is not None, has all reduced
    dimensions, and no bin mask needs a dimension it lacks; values and weights agree. *)
Theorem C13_kept_iff : forall g stats s k v,
  NoDup (map fst stats) -> (forall k vs, In (k, vs) stats -> NoDup (map fst vs)) ->
  (forall w, In w (weigh_by g) -> uses_coords w) ->
  (forall b, In b (bin_by g) -> uses_coords (create_bin_mask b)) ->
  (forall k vs v st, In (k, vs) stats -> In (v, Some st) vs -> mask_spans st) ->
  aggregate_statistics g stats = Ok s ->
  exists x y, s = Some (x, y) /\
   ((exists a, at_path x [Key k; Key v] = Some (Leaf a)) <-> (exists b, at_path y [Key k; Key v] = Some (Leaf b))) /\
   ((exists a, at_path x [Key k; Key v] = Some (Leaf a)) <->
      exists vs st, In (k, vs) stats /\ In (v, Some st) vs /\ incl (reduce_dims g) (dnames st) /\
        forall b, In b (bin_by g) -> exists m, create_bin_mask b st = Ok m /\
           forall d, In d (dnames m) -> d = bin_dim_name b \/ In d (dnames st)).
Proof. exact dropped_iff. Qed.
Print Assumptions C13_kept_iff.

(** If weightings and binnings do not raise and bin names are distinct, aggregation and
    mean_statistics never raise. *)
Theorem C13_total : forall g stats,
  (forall w s, In w (weigh_by g) -> exists a, w s = Ok a) ->
  (forall b s, In b (bin_by g) -> exists a, create_bin_mask b s = Ok a) ->
  NoDup (map bin_dim_name (bin_by g)) ->
  NoDup (map fst stats) -> (forall k vs, In (k, vs) stats -> NoDup (map fst vs)) ->
  exists s t, aggregate_statistics g stats = Ok s /\ mean_statistics s = Ok t.
Proof. exact agg_total. Qed.
Print Assumptions C13_total.

(** Duplicate bin dimension names raise ValueError as soon as one statistic is reducible. *)
Theorem C13_duplicate_bins : forall g st, ~ NoDup (map bin_dim_name (bin_by g)) ->
  incl (reduce_dims g) (dnames st) -> (forall w s, In w (weigh_by g) -> exists a, w s = Ok a) ->
  aggregate_stat_var g st = Err ValueError.
Proof.
  intros g st Hd Hin Hw. unfold aggregate_stat_var. destruct (prepare_dims g st) as [D1 _].
  destruct (prepare g st) as [s m]. simpl in D1. unfold aggregation_fn, dnames. rewrite D1.
  assert (subsetb (reduce_dims g) (map fst (dims st)) = true) as Hsub by now apply subsetb_In. rewrite Hsub. simpl.
  destruct (mapM_total (fun w => w s) (weigh_by g)) as [ws ->]; [intros; now apply Hw|]. simpl.
  assert (nodupb (map bin_dim_name (bin_by g)) = false) as ->; [|reflexivity].
  clear - Hd. apply not_true_is_false. intros H. apply Hd. induction (map bin_dim_name (bin_by g)) as [|x l IH]; [constructor|].
  simpl in H. apply andb_true_iff in H. destruct H as [H1 H2]. apply negb_true_iff, memb_false in H1. constructor; auto.
  apply IH; auto. intros H. apply Hd. constructor; auto.
Qed.
Print Assumptions C13_duplicate_bins.

(** ** Non-vacuity: a 2x2 statistic with a NaN, weights along one dimension and two bins. *)
Definition ex_stat : da :=
  mkDa [("time", [LZ 0; LZ 1]); ("lat", [LZ 10; LZ 20])]
       (fun e => if eqb (e "time") (LZ 0) then Fin 3 else if eqb (e "lat") (LZ 10) then Fin 5 else NaN)
       [("mask", mkCoord ["time"; "lat"] (fun e => LB (negb (eqb (e "time") (LZ 1) && eqb (e "lat") (LZ 20)))))].
Definition ex_weight : weighting := fun _ => Ok (mkDa [("lat", [LZ 10; LZ 20])] (fun e => if eqb (e "lat") (LZ 10) then Fin 2 else Fin 1) []).
Definition ex_bin : binning := mkBinning "bin" (fun _ => Ok (mkDa [("bin", [LS "early"; LS "all"]); ("time", [LZ 0; LZ 1])]
   (fun e => b2v (eqb (e "bin") (LS "all") || eqb (e "time") (LZ 0))) [])).
Definition ex_agg : aggregator := mkAgg ["time"; "lat"] [ex_bin] [ex_weight] true false.
Definition ex_s (e : env) : R := if eqb (e "time") (LZ 0) then 3 else 5.
Example C11_example_hyps : weighted_input ex_agg ex_stat ex_s
  [mkDa [("lat", [LZ 10; LZ 20])] (fun e => if eqb (e "lat") (LZ 10) then Fin 2 else Fin 1) []]
  [fun e => if eqb (e "lat") (LZ 10) then 2 else 1]
  [mkDa [("bin", [LS "early"; LS "all"]); ("time", [LZ 0; LZ 1])] (fun e => b2v (eqb (e "bin") (LS "all") || eqb (e "time") (LZ 0))) []]
  [fun e => eqb (e "bin") (LS "all") || eqb (e "time") (LZ 0)].
Proof.
  constructor.
  - split; [repeat constructor; simpl; intuition discriminate|]. split.
    + intros d ls [[= <- <-]|[[= <- <-]|[]]]; repeat constructor; simpl; intuition discriminate.
    + intros e e' H. simpl. rewrite (H "time"), (H "lat"); auto; simpl; auto.
  - intros c [= <-] k c' [[= <- <-]|[]]. apply incl_refl.
  - intros w [<-|[]] a b _ _. reflexivity.
  - intros w [<-|[]] a b _ _. reflexivity.
  - reflexivity.
  - reflexivity.
  - intros a [<-|[<-|[]]].
    + split; [repeat constructor; simpl; intuition discriminate|]. split.
      * intros d ls [[= <- <-]|[]]; repeat constructor; simpl; intuition discriminate.
      * intros e e' H. simpl. rewrite (H "lat"); auto; simpl; auto.
    + split; [repeat constructor; simpl; intuition discriminate|]. split.
      * intros d ls [[= <- <-]|[[= <- <-]|[]]]; repeat constructor; simpl; intuition discriminate.
      * intros e e' H. simpl. rewrite (H "time"), (H "bin"); auto; simpl; auto.
  - constructor; [|constructor]. intros e _. simpl. destruct (eqb _ _); reflexivity.
  - constructor; [|constructor]. intros e _. reflexivity.
  - intros e He Hc. unfold counted in Hc. simpl in *. unfold ex_s.
    destruct (eqb (e "time") (LZ 0)) eqn:E0; auto.
    pose proof (He "time" [LZ 0; LZ 1] (or_introl eq_refl)) as Ht. pose proof (He "lat" [LZ 10; LZ 20] (or_intror (or_introl eq_refl))) as Hl.
    destruct (eqb (e "lat") (LZ 10)) eqn:E1; auto. exfalso.
    destruct Ht as [Ht|[Ht|[]]]; rewrite <- Ht in *; [discriminate|]. destruct Hl as [Hl|[Hl|[]]]; rewrite <- Hl in *; [discriminate|].
    discriminate.
Qed.
Example C11_example_nonneg : forall p, 0 <= point_weight ex_agg ex_stat [fun e => if eqb (e "lat") (LZ 10) then 2 else 1]
  [fun e => eqb (e "bin") (LS "all") || eqb (e "time") (LZ 0)] p.
Proof. intros p. unfold point_weight. destruct (_ && _); simpl; [|lra]. destruct (eqb (p "lat") (LZ 10)); lra. Qed.
Example C11_example_runs : exists agg t m, aggregate_statistics ex_agg [("MSE", [("t2m", Some ex_stat)])] = Ok agg /\
  mean_statistics agg = Ok t /\ at_path t [Key "MSE"; Key "t2m"] = Some (Leaf m) /\ dims m = [("bin", [LS "early"; LS "all"])].
Proof. do 3 eexists. split; [reflexivity|]. split; [reflexivity|]. split; reflexivity. Qed.
