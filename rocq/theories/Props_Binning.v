(** C35: bins by intervals, values, sets, latitude and longitude bands. *)
From Coq Require Import String ZArith QArith Qround Qcanon Bool List Lia Lqa Sorting.Sorted.
Import ListNotations.
From Verif Require Import Prelude Values Model_XArray Spec_XArray Proofs_XArray Model_Deterministic Model_Aggregation
  Model_Binning Spec_Binning Proofs_Binning Proofs_Binning2 Proofs_Binning3 Proofs_Binning4.
From Coq Require Import Reals.
Local Open Scope string_scope.
Local Open Scope list_scope.

(** ** ByCoordBins *)

(** One bin per pair of consecutive edges, half-open; with [add_global_bin] a last bin holding
    everything. *)
Theorem C35_coord_bins fmt name edges add_global st m :
  wf st -> coords_local st -> NoDup (map (bin_label fmt add_global) (removelast edges) ++ glob_labels add_global) ->
  create_bin_mask (ByCoordBins fmt name edges add_global) st = Ok m ->
  mask_for st m name (map (bin_label fmt add_global) (removelast edges) ++ glob_labels add_global) /\
  (forall i a b qa qb e x, nth_error edges i = Some a -> nth_error edges (S i) = Some b -> is_number a qa -> is_number b qb ->
     number_at st name e x -> shows (in_bin m name (bin_label fmt add_global a) e) (qa <= x < qb)%Q) /\
  (add_global = true -> forall e, in_bin m name (LS "global") e = Fin 1%R).
Proof.
  intros W L N H. destruct (coord_bins_spec _ _ _ _ _ _ W N H) as (A & B & C). split; auto. split; auto.
  intros i a b qa qb e x Ha Hb Na Nb Hx. apply (B L a b qa qb e x); auto. apply (pairs_nth edges i); auto.
Qed.

(** Increasing edges: a value from the first edge up to (excluding) the last is in exactly one
    bin, any other value in none. *)
Theorem C35_coord_bins_partition fmt name edges qs st m e x :
  wf st -> coords_local st -> Forall2 is_number edges qs -> StronglySorted Qlt qs ->
  create_bin_mask (ByCoordBins fmt name edges false) st = Ok m -> number_at st name e x ->
  ((exists q0, hd_error qs = Some q0 /\ (q0 <= x < last qs q0)%Q) ->
   exists l, In l (removelast edges) /\ in_bin m name l e = Fin 1%R /\
     forall l', In l' (removelast edges) -> l' <> l -> in_bin m name l' e = Fin 0%R) /\
  (~ (exists q0, hd_error qs = Some q0 /\ (q0 <= x < last qs q0)%Q) ->
   forall l, In l (removelast edges) -> in_bin m name l e = Fin 0%R).
Proof.
  intros W L F S H Hx.
  assert (NoDup (map (bin_label fmt false) (removelast edges) ++ glob_labels false)) as N.
  { cbn [glob_labels]. rewrite app_nil_r. replace (map (bin_label fmt false) (removelast edges)) with (removelast edges) by (symmetry; apply map_id).
    apply NoDup_removelast, (sorted_NoDup edges qs); auto. }
  destruct (coord_bins_spec _ _ _ _ _ _ W N H) as (_ & B & _). specialize (B L). cbn [bin_label] in B.
  assert (forall a b, In (a, b) (pairs edges) -> exists pa pb, is_number a pa /\ is_number b pb) as NP.
  { intros a b I. apply pairs_In in I. destruct I as (i & I1 & I2).
    assert (forall l i (a : label), Forall2 is_number l qs -> nth_error l i = Some a -> exists q, nth_error qs i = Some q /\ is_number a q) as NN.
    { clear. intros l i a F. revert i. induction F as [|x q l ql A _ IH]; intros [|i] E; try discriminate.
      - injection E as <-. exists q. auto.
      - destruct (IH i E) as (q' & ? & ?). exists q'. auto. }
    destruct (NN _ _ _ F I1) as (q1 & _ & Q1), (NN _ _ _ F I2) as (q2 & _ & Q2). eauto. }
  split.
  - intros (q0 & H0 & Hq). destruct (sorted_edges edges qs x F S q0 _ H0 eq_refl Hq) as (a & b & pa & pb & I & Na & Nb & Hab).
    exists a. split. { rewrite <- pairs_fst. apply (in_map fst _ _ I). } split.
    + destruct (B a b pa pb e x I Na Nb Hx) as [[_ E]|[E _]]; auto. contradiction.
    + intros l' Il Hne. destruct (pairs_of_removelast _ _ Il) as (b' & I'). destruct (NP _ _ I') as (pa' & pb' & Na' & Nb').
      destruct (B l' b' pa' pb' e x I' Na' Nb' Hx) as [[E _]|[_ E]]; auto. exfalso. apply Hne. symmetry.
      apply (sorted_disjoint edges qs F S a b pa pb l' b' pa' pb' x); auto.
  - intros Hn l Il. destruct (pairs_of_removelast _ _ Il) as (b' & I'). destruct (NP _ _ I') as (pa & pb & Na & Nb).
    destruct (B l b' pa pb e x I' Na Nb Hx) as [[E _]|[_ E]]; auto. exfalso. apply Hn.
    destruct qs as [|q0 qr]. { inversion F; subst. destruct I'. }
    exists q0. split; [reflexivity|]. destruct (sorted_pairs edges (q0 :: qr) F S q0 _ eq_refl eq_refl l b' pa pb I' Na Nb) as (A1 & A2 & A3). lra.
Qed.

(** It works on coordinates that are not dimensions, and fails otherwise. *)
Theorem C35_coord_bins_success fmt name edges add_global st : wf st ->
  ((exists m, create_bin_mask (ByCoordBins fmt name edges add_global) st = Ok m) <-> has_coord st name /\ ~ In name (dnames st)).
Proof. apply coord_bins_ok. Qed.

(** ** ByExactCoord: one bin per value that occurs; each point is in the bin of its value only. *)
Theorem C35_exact_coord fmt name add_global st m :
  wf st -> coords_local st -> create_bin_mask (ByExactCoord fmt name add_global) st = Ok m ->
  ~ In name (dnames st) /\
  exists values, NoDup values /\
    (forall e l, point_of (dims st) e -> coord_at st name e l -> In l values) /\
    (forall l, In l values -> (exists e, point_of (dims st) e) -> exists e, point_of (dims st) e /\ coord_at st name e l) /\
    (NoDup (glob_labels add_global ++ map (bin_label fmt add_global) values) ->
     mask_for st m name (glob_labels add_global ++ map (bin_label fmt add_global) values) /\
     (forall l e, In l values -> shows (in_bin m name (bin_label fmt add_global l) e) (coord_at st name e l)) /\
     (add_global = true -> forall e, in_bin m name (LS "global") e = Fin 1%R)).
Proof.
  intros W L H. unfold ByExactCoord in H. cbn [create_bin_mask] in H.
  destruct (memb name (dnames st)) eqn:E; [discriminate|]. apply memb_false in E. split; auto.
  destruct (get_coord KeyError st name) as [[ds f]|] eqn:Ec; [|discriminate]. apply get_coord_Ok in Ec. cbn [bind] in H.
  pose proof (coord_array_ok _ _ _ _ W Ec) as C.
  destruct (vectorized_spec fmt st ds f name add_global m) as [N V]; auto; try apply C.
  exists (uniq ds f). split; auto.
  assert (forall e l, coord_at st name e l <-> f e = l) as CA.
  { intros e l. split; [|intros <-; apply C, L]. intros A. apply (coord_at_fun st name e); auto. apply C, L. }
  split; [|split].
  - intros e l P A. apply CA in A. apply uniq_In; try apply C. exists e. split; auto. intros k ls I. apply P, (co_sub _ _ _ _ C), I.
  - intros l Il (e0 & P0). apply uniq_In in Il; try apply C. destruct Il as (e & P & A).
    exists (fun d => if memb d (map fst ds) then e d else e0 d). split.
    + intros k ls I. destruct (memb k (map fst ds)) eqn:K; [|apply (P0 k ls I)].
      apply memb_In in K. apply in_map_iff in K. destruct K as ([k' ls'] & <- & I'). cbn [fst].
      pose proof (co_sub _ _ _ _ C _ I') as I2. cbn [fst] in I. destruct W as (N0 & _).
      apply (In_dget _ _ _ N0) in I, I2. assert (ls' = ls) as <- by congruence. apply (P _ _ I').
    + apply CA. rewrite <- A. apply (co_only _ _ _ _ C). intros k Hk. rewrite (proj2 (memb_In _ _) Hk). reflexivity.
  - intros NL. destruct (V NL) as (V1 & V2 & V3). split; auto. split; auto.
    intros l e Il. specialize (V2 l e Il). destruct V2 as [[A B]|[A B]]; [left|right]; split; auto; rewrite CA; auto.
Qed.
Theorem C35_exact_coord_success fmt name add_global st : wf st ->
  ((exists m, create_bin_mask (ByExactCoord fmt name add_global) st = Ok m) <-> has_coord st name /\ ~ In name (dnames st)) /\
  (In name (dnames st) -> create_bin_mask (ByExactCoord fmt name add_global) st = Err AssertionError).
Proof.
  intros W. unfold ByExactCoord. cbn [create_bin_mask]. rewrite has_coord_iff. destruct (memb name (dnames st)) eqn:E.
  - apply memb_In in E. split; [|auto]. split; [intros [m H]; discriminate|tauto].
  - apply memb_false in E. split; [|tauto]. unfold get_coord. destruct (coord_array st name) as [[ds f]|] eqn:Ec; cbn [bind].
    + rewrite vectorized_ok. split; eauto. intros _ I. apply E. apply in_map_iff in I. destruct I as (q & <- & I).
      apply in_map, (co_sub _ _ _ _ (coord_array_ok _ _ _ _ W Ec)), I.
    + split; [intros [m H]; discriminate|intros ((c & H) & _); discriminate].
Qed.

Definition set_parts (sets : list (string * list label)) (complements add_global : bool) (c : dimlist * (env -> label)) : list (label * (env -> bool)) :=
  flat_map (fun ns => (LS (fst ns), fun e => isin (snd ns) (snd c e))
      :: (if complements then [(LS ("not_in_" ++ fst ns), fun e => negb (isin (snd ns) (snd c e)))] else [])) sets ++ glob add_global.

(** ** BySets: membership, complements and the global bin. *)
Definition set_labels {A} (sets : list (string * A)) (complements add_global : bool) : list label :=
  flat_map (fun ns => LS (fst ns) :: if complements then [LS ("not_in_" ++ fst ns)] else []) sets ++ glob_labels add_global.
Theorem C35_sets sets coord_name d complements add_global b st m :
  wf st -> coords_local st -> BySets sets coord_name (Some d) complements add_global = Ok b ->
  NoDup (set_labels sets complements add_global) -> create_bin_mask b st = Ok m ->
  mask_for st m d (set_labels sets complements add_global) /\
  (forall name values e l, In (name, values) sets -> coord_at st coord_name e l ->
     let member := exists v, In v values /\ same_value l v in
     shows (in_bin m d (LS name) e) member /\
     (complements = true -> shows (in_bin m d (LS ("not_in_" ++ name)) e) (~ member))) /\
  (add_global = true -> forall e, in_bin m d (LS "global") e = Fin 1%R).
Proof.
  intros W L Hb N H. unfold BySets in Hb. destruct (String.eqb d coord_name); [discriminate|]. injection Hb as <-. cbn [create_bin_mask] in H.
  set (parts := set_parts sets complements add_global) in *.
  assert ((do c <- get_coord KeyError st coord_name; stack d (fst c) (parts c)) = Ok m) as H'.
  { destruct sets, add_global; try exact H. discriminate. }
  clear H. destruct (get_coord KeyError st coord_name) as [[ds f]|] eqn:Ec; [|discriminate]. apply get_coord_Ok in Ec. cbn [bind fst] in H'.
  pose proof (coord_array_ok _ _ _ _ W Ec) as C. apply stack_Ok in H'. destruct H' as [_ H].
  assert (map fst (parts (ds, f)) = set_labels sets complements add_global) as El.
  { unfold parts, set_parts, set_labels. rewrite map_app, glob_fst. f_equal. clear. induction sets as [|s ss IH]; auto. cbn [flat_map]. rewrite map_app, IH.
    destruct complements; reflexivity. }
  destruct (bits_mask st d ds (parts (ds, f)) m) as [A B]; auto; try apply C.
  - rewrite El. auto.
  - unfold parts, set_parts. apply Forall_app. split; [|apply glob_only]. apply Forall_forall. intros p Ip. apply in_flat_map in Ip. destruct Ip as (ns & _ & Ip).
    assert (forall e e', (forall k, In k (map fst ds) -> e k = e' k) -> f e = f e') as O by apply C.
    destruct Ip as [<-|Ip]; [intros e e' He; cbn [snd]; rewrite (O e e' He); reflexivity|].
    destruct complements; [|destruct Ip]. destruct Ip as [<-|[]]. intros e e' He. cbn [snd]. rewrite (O e e' He). reflexivity.
  - rewrite El in A. split; auto. split.
    + intros name values e l I Hl member.
      assert (f e = l) as E. { apply (coord_at_fun st coord_name e); auto. apply C, L. }
      assert (isin values (f e) = true <-> member) as M. { rewrite E, isin_iff. reflexivity. }
      split.
      * rewrite (B (LS name) (fun e => isin values (f e))); [apply shows_b2v, M|].
        unfold parts, set_parts. apply in_app_iff. left. apply in_flat_map. exists (name, values). split; auto. left. reflexivity.
      * intros Hc. rewrite (B (LS ("not_in_" ++ name)) (fun e => negb (isin values (f e)))).
        -- apply shows_b2v. rewrite negb_true_iff, <- M. destruct (isin values (f e)); split; congruence.
        -- unfold parts, set_parts. apply in_app_iff. left. apply in_flat_map. exists (name, values). split; auto. right. rewrite Hc. left. reflexivity.
    + intros Hg e. rewrite (B (LS "global") (fun _ => true)); auto. unfold parts, set_parts, glob. rewrite Hg. apply in_app_iff. right. left. auto.
Qed.
Theorem C35_sets_errors sets coord_name bin_dim complements add_global :
  (forall b, BySets sets coord_name bin_dim complements add_global = Ok b -> exists d, bin_dim = Some d /\ d <> coord_name) /\
  (bin_dim = None \/ bin_dim = Some coord_name -> BySets sets coord_name bin_dim complements add_global = Err ValueError) /\
  (forall d, bin_dim = Some d -> d <> coord_name -> exists b, BySets sets coord_name bin_dim complements add_global = Ok b /\ bin_dim_name b = d /\
     (forall st, wf st -> ~ In d (dnames st) ->
       ((exists m, create_bin_mask b st = Ok m) <-> has_coord st coord_name /\ ~ (sets = [] /\ add_global = false)))).
Proof.
  unfold BySets. split; [|split].
  - intros b. destruct bin_dim as [d|]; [|discriminate]. destruct (String.eqb d coord_name) eqn:E; [discriminate|]. apply String.eqb_neq in E. eauto.
  - intros [->| ->]; auto. rewrite String.eqb_refl. auto.
  - intros d -> Hd. apply String.eqb_neq in Hd. rewrite Hd. eexists. split; [reflexivity|]. split; [reflexivity|].
    intros st W Nd. cbn [create_bin_mask]. rewrite has_coord_iff. unfold get_coord.
    set (parts := set_parts sets complements add_global).
    assert (~ (sets = [] /\ add_global = false) -> forall c, parts c <> []) as NE.
    { intros Hn c Hp. apply Hn. unfold parts, set_parts in Hp. apply app_eq_nil in Hp. destruct Hp as [P1 P2]. destruct sets; [|discriminate]. destruct add_global; [discriminate|auto]. }
    assert (forall k, (exists m, match sets, add_global with [], false => Err ValueError | _, _ => do c <- match coord_array st coord_name with Some c => Ok c | None => Err k end; stack d (fst c) (parts c) end = Ok m) <->
       ~ (sets = [] /\ add_global = false) /\ exists m, (do c <- match coord_array st coord_name with Some c => Ok c | None => Err k end; stack d (fst c) (parts c)) = Ok m) as A.
    { intros k. destruct sets as [|s ss]; [destruct add_global|]; split.
      - intros H. split; [intros [_ H0]; discriminate|exact H].
      - intros [_ H]. exact H.
      - intros [m H]. discriminate.
      - intros [H _]. exfalso. apply H. auto.
      - intros H. split; [intros [H0 _]; discriminate|exact H].
      - intros [_ H]. exact H. }
    refine (iff_trans (A KeyError) _). clear A. destruct (coord_array st coord_name) as [[ds f]|] eqn:Ec; cbn [bind fst].
    + split; [intros [H1 H2]; split; eauto|]. intros [_ H1]. split; auto. specialize (NE H1 (ds, f)). unfold stack. destruct (parts (ds, f)) as [|p ps]; [congruence|].
      apply stack_parts_iff. intros I. apply Nd. apply in_map_iff in I. destruct I as (q & <- & I). apply in_map, (co_sub _ _ _ _ (coord_array_ok _ _ _ _ W Ec)), I.
    + split; [intros [_ [m H]]; discriminate|intros [[c H] _]; discriminate].
Qed.

(** ** LatitudeBins: consecutive bands of the given width from the south end until the north
    end is reached; closed on both sides, so they cover the range, and a latitude is in two
    bands exactly when it is the edge between them. *)
Theorem C35_latitude_bins degrees lo hi d b st m :
  (0 < degrees)%Q -> wf st -> coords_local st -> LatitudeBins degrees (lo, hi) d = Ok b -> create_bin_mask b st = Ok m ->
  exists n, steps lo hi degrees n /\
    let label_of i := LQ (Q2Qc (start_of lo degrees i)) in
    mask_for st m d (map label_of (seq 0 n)) /\
    forall e lat, number_at st "latitude" e lat ->
      (forall i, (i < n)%nat -> shows (in_bin m d (label_of i) e) (start_of lo degrees i <= lat <= start_of lo degrees i + degrees)%Q) /\
      ((lo <= lat <= hi)%Q -> exists i, (i < n)%nat /\ in_bin m d (label_of i) e = Fin 1%R) /\
      (forall i j, (i < j < n)%nat -> in_bin m d (label_of i) e = Fin 1%R ->
         (in_bin m d (label_of j) e = Fin 1%R <-> j = S i /\ lat == start_of lo degrees j)%Q).
Proof.
  intros Hd W L Hb H. destruct (latitude_bins_spec degrees lo hi d b st m Hd W Hb H) as (n & Hn & A & B). exists n. split; auto.
  cbv zeta. split; auto. intros e lat Hx. specialize (B L). split; [intros i Hi; apply (B i e lat Hi Hx)|]. split.
  - intros Hl. destruct (steps_cover lo hi degrees n lat Hd Hn Hl) as (i & Hi & C). exists i. split; auto.
    destruct (B i e lat Hi Hx) as [[_ E]|[E _]]; auto. contradiction.
  - intros i j Hij Ei. assert (i < n)%nat as Hi by lia. assert (j < n)%nat as Hj by lia.
    pose proof (B i e lat Hi Hx) as Bi. pose proof (B j e lat Hj Hx) as Bj.
    assert (Fin 1 <> Fin 0)%R as D by (intros [= D]; exact (R1_neq_R0 D)).
    destruct Bi as [[Ci _]|[_ Ci]]; [|exfalso; rewrite Ei in Ci; auto].
    assert (inject_Z (Z.of_nat i) + 1 <= inject_Z (Z.of_nat j))%Q as G1 by (apply inject_lt; lia).
    assert (degrees * (inject_Z (Z.of_nat i) + 1) <= degrees * inject_Z (Z.of_nat j))%Q as G2 by (apply Qmult_le_l; auto).
    unfold start_of in *. split.
    + intros Ej. destruct Bj as [[Cj _]|[_ Cj]]; [|exfalso; rewrite Ej in Cj; auto].
      assert (degrees * inject_Z (Z.of_nat j) <= degrees * (inject_Z (Z.of_nat i) + 1))%Q as G3 by lra. apply Qmult_le_l in G3; auto.
      split; [|lra]. assert (inject_Z (Z.of_nat j) == inject_Z (Z.of_nat i + 1))%Q as G4. { rewrite inject_Z_plus. change (inject_Z 1) with 1%Q. lra. }
      apply (proj1 (inject_Z_injective _ _)) in G4. lia.
    + intros [-> E]. destruct Bj as [[_ Cj]|[Cj _]]; auto. exfalso. apply Cj. lra.
Qed.

(** ** LongitudeBins: arcs of the given width, covering the range. *)
Theorem C35_longitude_bins degrees lo hi d b st m :
  (0 < degrees <= 360)%Q -> (lon_end lo hi - lo <= 360)%Q -> wf st -> coords_local st ->
  LongitudeBins degrees (lo, hi) d = Ok b -> create_bin_mask b st = Ok m ->
  exists n, steps lo (lon_end lo hi) degrees n /\
    let label_of i := LQ (Q2Qc (qmod (start_of lo degrees i) 360)) in
    mask_for st m d (map label_of (seq 0 n)) /\
    forall e lon, number_at st "longitude" e lon ->
      (forall i, (i < n)%nat -> shows (in_bin m d (label_of i) e) (on_arc (start_of lo degrees i) (start_of lo degrees i + degrees) lon)) /\
      ((exists k, (lo <= lon + turns k <= lon_end lo hi)%Q) -> exists i, (i < n)%nat /\ in_bin m d (label_of i) e = Fin 1%R) /\
      (forall i, (S i < n)%nat -> (exists k, lon + turns k == start_of lo degrees (S i))%Q ->
         in_bin m d (label_of i) e = Fin 1%R /\ in_bin m d (label_of (S i)) e = Fin 1%R).
Proof.
  intros Hd Hr W L Hb H. destruct (longitude_bins_spec degrees lo hi d b st m (proj1 Hd) Hr W Hb H) as (n & Hn & A & B). exists n. split; auto.
  cbv zeta. split; auto. intros e lon Hx. specialize (B L). split; [intros i Hi; apply (B i e lon Hi Hx)|].
  assert (forall i k, (i < n)%nat -> (start_of lo degrees i <= lon + turns k <= start_of lo degrees i + degrees)%Q ->
     in_bin m d (LQ (Q2Qc (qmod (start_of lo degrees i) 360))) e = Fin 1%R) as IN.
  { intros i k Hi Hk. destruct (B i e lon Hi Hx) as [[_ E]|[E _]]; auto. exfalso. apply E. exists degrees, k, 0%Z. unfold turns in *. change (inject_Z 0) with 0%Q.
    split; auto. split; [lra|auto]. }
  split.
  - intros (k & Hk). destruct (steps_cover lo (lon_end lo hi) degrees n (lon + turns k) (proj1 Hd) Hn Hk) as (i & Hi & C). exists i. split; auto. apply (IN i k); auto.
  - intros i Hi (k & Hk). unfold start_of in Hk. rewrite Nat2Z.inj_succ in Hk. unfold Z.succ in Hk. rewrite inject_Z_plus in Hk. change (inject_Z 1) with 1%Q in Hk. split.
    + apply (IN i k); [lia|]. unfold start_of. split; lra.
    + apply (IN (S i) k); [lia|]. unfold start_of. rewrite Nat2Z.inj_succ. unfold Z.succ. rewrite inject_Z_plus. change (inject_Z 1) with 1%Q. split; lra.
Qed.

(** ** Cases meeting the hypotheses *)
Section Example1.
  Let st := mkDa [("index", [LZ 0; LZ 1; LZ 2])] (fun _ => Fin 1%R)
    [("elevation", mkCoord ["index"] (fun e => if eq_dec (e "index") (LZ 0) then LZ 5 else LZ 20)); ("latitude", mkCoord ["index"] (fun e => LZ 30))].
  Example C35_example_bins : wf st /\ coords_local st /\
    (exists m, create_bin_mask (ByCoordBins (fun _ => "") "elevation" [LZ 0; LZ 10; LZ 100] false) st = Ok m) /\
    StronglySorted Qlt [0; 10; 100]%Q /\ Forall2 is_number [LZ 0; LZ 10; LZ 100] [0; 10; 100]%Q /\ number_at st "elevation" env0 5 /\
    (exists m, create_bin_mask (ByExactCoord (fun _ => "") "elevation" false) st = Ok m) /\
    (exists b m, BySets [("low", [LZ 5]); ("high", [LZ 20; LZ 30])] "elevation" (Some "sets") true true = Ok b /\ create_bin_mask b st = Ok m) /\
    (exists b m, LatitudeBins 30 (-90, 90)%Q "latitude_bins" = Ok b /\ create_bin_mask b st = Ok m).
  Proof.
    split. { split; [repeat constructor; cbn; tauto|split; [|auto]]. intros d ls [[= <- <-]|[]]. repeat constructor; cbn; intuition discriminate. }
    split. { intros k c H. cbn in H. destruct (eq_dec k "elevation"); [|destruct (eq_dec k "latitude"); [|discriminate]]; injection H as <-; (split; [cbn; intros ? [<-|[]]; cbn; auto|]);
      intros e1 e2 He; cbn [c_get]; [rewrite (He "index"); cbn; auto|auto]. }
    split; [eexists; reflexivity|]. split. { repeat constructor; unfold Qlt; cbn; lia. }
    split. { constructor; [apply (number_Z 0)|constructor; [apply (number_Z 10)|constructor; [apply (number_Z 100)|constructor]]]. }
    split. { exists (LZ 5). split; [|apply (number_Z 5)]. right. split; [cbn; intuition discriminate|]. eexists. split; [reflexivity|reflexivity]. }
    split; [eexists; reflexivity|]. split; [eexists; eexists; split; [reflexivity|reflexivity]|].
    eexists; eexists; split; [reflexivity|reflexivity].
  Qed.
End Example1.

Print Assumptions C35_coord_bins. Print Assumptions C35_coord_bins_partition. Print Assumptions C35_coord_bins_success.
Print Assumptions C35_exact_coord. Print Assumptions C35_exact_coord_success. Print Assumptions C35_sets. Print Assumptions C35_sets_errors.
Print Assumptions C35_latitude_bins. Print Assumptions C35_longitude_bins.
