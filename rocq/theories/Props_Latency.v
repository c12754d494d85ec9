(** C39: latency; C40: several loaders. *)
From Coq Require Import String ZArith List Bool Permutation Lia.
Import ListNotations.
From Verif Require Import Prelude Values Model_XArray Spec_XArray Proofs_XArray Model_MetricsBase Model_TimeChunks Model_Deterministic
  Model_Loaders Model_Latency Spec_Loaders Proofs_Loaders Proofs_Loaders2 Proofs_Latency Proofs_Beam9 Proofs_AggState Props_Loaders.
Local Open Scope Z_scope.
Local Open Scope string_scope.
Local Open Scope list_scope.

(** ** C39 *)
(** The run used for a query at time t: the latest nominal run n with n + latency <= t; ValueError
    exactly if there is none. *)
Theorem C39_latest_available_run : forall nominal latency t,
  (forall n, get_available_init_time nominal latency t = Ok n <-> latest_issued nominal latency t n) /\
  (forall e, get_available_init_time nominal latency t = Err e <-> e = ValueError /\ forall n, In n nominal -> ~ issued latency t n).
Proof. intros nominal latency t. split; [intros n; apply available_Ok|intros e; apply available_Err]. Qed.

Lemma adjust_fst off : forall kv r : string * da, (do a <- adjust_init_and_lead_times off (snd kv); Ok (fst kv, a)) = Ok r -> fst r = fst kv.
Proof. intros [k a] r. cbn [fst snd]. destruct (adjust_init_and_lead_times off a); [|discriminate]. cbn [bind]. intros [= <-]. reflexivity. Qed.
Lemma mapM_dget_inv {V W} (f : string * V -> result (string * W)) l out k b : (forall kv r, f kv = Ok r -> fst r = fst kv) ->
  mapM f l = Ok out -> dget out k = Some b -> exists a, dget l k = Some a /\ f (k, a) = Ok (k, b).
Proof.
  intros K H G. assert (In k (keys l)) as I by (unfold keys; rewrite <- (mapM_keys f l out K H); apply (dget_Some_keys _ _ G)). apply keys_dget in I. destruct I as [a Ga].
  destruct (mapM_dget _ _ _ _ _ K H Ga) as (b' & E & G'). exists a. split; auto. congruence.
Qed.
Lemma served_point t n leads a r e e' l : wf a -> wf r -> dget (dims a) "init_time" = Some [LZ n] -> dget (dims a) "lead_time" = Some (map LZ (map (fun x => x + (t - n)) leads)) ->
  dget (dims r) "init_time" = Some [LZ t] -> dget (dims r) "lead_time" = Some (map LZ leads) -> dnames r = dnames a ->
  (forall k, k <> "init_time" -> k <> "lead_time" -> dget (dims r) k = dget (dims a) k) ->
  at_time e t l -> at_time e' n (l + (t - n)) -> same_except ["init_time"; "lead_time"] e e' -> (point_of (dims r) e <-> point_of (dims a) e').
Proof.
  intros Wa Wr A1 A2 R1 R2 Nm K [E1 E2] [F1 F2] Es. rewrite !point_of_labels by (apply Wa || apply Wr). change (map fst (dims r)) with (dnames r). rewrite Nm. change (dnames a) with (map fst (dims a)).
  assert (forall d, In (e d) (labels_of (dims r) d) <-> In (e' d) (labels_of (dims a) d)) as Q.
  { intros d. unfold labels_of. destruct (string_dec d "init_time") as [->|]; [rewrite A1, R1, E1, F1; cbn; tauto|]. destruct (string_dec d "lead_time") as [->|].
    - rewrite A2, R2, E2, F2. rewrite !in_map_iff. split.
      + intros (x & [= ->] & I). exists (l + (t - n)). split; auto. apply in_map_iff. exists l. auto.
      + intros (x & [= ->] & I). apply in_map_iff in I. destruct I as (y & Ey & I). exists y. split; auto. f_equal. lia.
    - rewrite K, (Es d); [tauto| |auto|auto]. cbn. intuition congruence. }
  split; intros H d Id; apply Q, H, Id.
Qed.
Lemma served_point' t n leads a r e e' l : wf a -> wf r -> dget (dims a) "init_time" = Some [LZ n] -> dget (dims a) "lead_time" = Some (map LZ (map (fun x => x + (t - n)) leads)) ->
  dget (dims r) "init_time" = Some [LZ t] -> dget (dims r) "lead_time" = Some (map LZ leads) ->
  (forall k, k <> "init_time" -> k <> "lead_time" -> dget (dims r) k = dget (dims a) k) ->
  at_time e t l -> at_time e' n (l + (t - n)) -> same_except ["init_time"; "lead_time"] e e' -> (point_of (dims r) e <-> point_of (dims a) e').
Proof.
  intros Wa Wr A1 A2 R1 R2 K [E1 E2] [F1 F2] Es.
  assert (forall D (e : env), NoDup (map fst D) -> (point_of D e <-> forall d ls, dget D d = Some ls -> In (e d) ls)) as Pd.
  { intros D e0 N. split; intros H d ls G; [apply (H d ls), dget_In, G|apply (H d ls), In_dget; auto]. }
  rewrite !Pd by (apply Wa || apply Wr).
  assert (In l leads <-> In (l + (t - n)) (map (fun x => x + (t - n)) leads)) as Q.
  { split; intros I; [apply in_map_iff; exists l; auto|]. apply in_map_iff in I. destruct I as (y & Ey & I). replace l with y by lia. exact I. }
  assert (forall ks x, In (LZ x) (map LZ ks) <-> In x ks) as QL by (intros ks x; rewrite in_map_iff; split; [intros (y & [= ->] & I); exact I|intros I; exists x; auto]).
  split; intros H d ls G.
  - destruct (string_dec d "init_time") as [->|]; [rewrite A1 in G; injection G as <-; rewrite F1; left; reflexivity|]. destruct (string_dec d "lead_time") as [->|].
    + rewrite A2 in G. injection G as <-. rewrite F2. apply QL, Q, QL. rewrite <- E2. apply (H _ _ R2).
    + rewrite (Es d) by (cbn; intuition congruence). apply H. rewrite K; auto.
  - destruct (string_dec d "init_time") as [->|]; [rewrite R1 in G; injection G as <-; rewrite E1; left; reflexivity|]. destruct (string_dec d "lead_time") as [->|].
    + rewrite R2 in G. injection G as <-. rewrite E2. apply QL, Q, QL. rewrite <- F2. apply (H _ _ A2).
    + rewrite <- (Es d) by (cbn; intuition congruence). apply H. rewrite <- K; auto.
Qed.
Lemma load_at_init_Ok nominal latency src leads t c : gridded src -> NoDup leads -> load_at_init nominal latency src (ChunkArr leads) t = Ok c ->
  exists n raw, latest_issued nominal latency t n /\ src [n] (Some (ChunkArr (map (fun l => l + (t - n)) leads))) = Ok raw /\ keys c = keys raw /\
  forall v r, dget c v = Some r -> exists a, dget raw v = Some a /\ wf r /\ dget (dims r) "init_time" = Some [LZ t] /\ dget (dims r) "lead_time" = Some (map LZ leads) /\
    (forall k, k <> "init_time" -> k <> "lead_time" -> dget (dims r) k = dget (dims a) k) /\
    forall e e' l, at_time e t l -> at_time e' n (l + (t - n)) -> same_except ["init_time"; "lead_time"] e e' -> (point_of (dims r) e <-> point_of (dims a) e') /\ get r e = get a e'.
Proof.
  intros S N H. unfold load_at_init in H. destruct (get_available_init_time nominal latency t) as [n|] eqn:En; [|discriminate]. cbn [bind] in H. cbv zeta in H. apply available_Ok in En.
  destruct (src _ _) as [raw|] eqn:Er; [|discriminate]. cbn [bind] in H. exists n, raw. split; auto. split; auto. split; [apply (mapM_keys _ _ _ (adjust_fst _) H)|].
  intros v r G. destruct (mapM_dget_inv _ _ _ _ _ (adjust_fst _) H G) as (a & Ga & Ea). cbn [fst snd] in Ea. destruct (adjust_init_and_lead_times (t - n) a) as [r'|] eqn:Ead; [|discriminate]. cbn [bind] in Ea. injection Ea as ->.
  assert (NoDup (map (fun l => l + (t - n)) leads)) as N2 by (apply FinFun.Injective_map_NoDup; auto; intros u w; lia).
  destruct (S _ _ _ _ _ Er N2 Ga) as (Wa & A1 & A2). destruct (adjust_Ok t n leads a r Wa N A1 A2 Ead) as (Wr & R1 & R2 & K & Nm & V). exists a. repeat (split; auto).
  - eapply (proj1 (served_point t n leads a r e e' l Wa Wr A1 A2 R1 R2 Nm K H0 H1 H2)).
  - eapply (proj2 (served_point t n leads a r e e' l Wa Wr A1 A2 R1 R2 Nm K H0 H1 H2)).
  - apply V. destruct H0 as [E1 E2], H1 as [F1 F2]. split; [|split; auto].
    + rewrite E1, F1. unfold shift_label. cbn [time_value]. f_equal. lia.
    + rewrite E2, F2. reflexivity.
Qed.

Lemma wrapper_spec nominal latency src inits leads out :
  gridded src -> NoDup inits -> NoDup leads ->
  ConstantLatencyWrapper nominal latency "init_time" src inits (Some (ChunkArr leads)) = Ok out ->
  (exists t n raw, In t inits /\ src [n] (Some (ChunkArr (map (fun l => l + (t - n)) leads))) = Ok raw /\ keys out = keys raw) /\
  forall v b, dget out v = Some b ->
    wf b /\ dget (dims b) "init_time" = Some (map LZ inits) /\ dget (dims b) "lead_time" = Some (map LZ leads) /\
    (forall k o, k <> "init_time" -> k <> "lead_time" ->
       (forall t n raw a, In t inits -> latest_issued nominal latency t n -> src [n] (Some (ChunkArr (map (fun l => l + (t - n)) leads))) = Ok raw -> dget raw v = Some a -> dget (dims a) k = o) -> dget (dims b) k = o) /\
    forall t, In t inits -> exists n raw a, latest_issued nominal latency t n /\
      src [n] (Some (ChunkArr (map (fun l => l + (t - n)) leads))) = Ok raw /\ dget raw v = Some a /\ served_by t n a b.
Proof.
  intros S Ni Nl H. cbn [ConstantLatencyWrapper] in H. destruct (mapM _ inits) as [chunks|] eqn:Ec; [|discriminate]. cbn [bind] in H.
  apply mapM_Ok_Forall2 in Ec.
  assert (Forall2 (fun t c => load_at_init nominal latency src (ChunkArr leads) t = Ok c /\ forall v r, dget c v = Some r -> wf r /\ dget (dims r) "init_time" = Some [LZ t]) inits chunks) as F.
  { clear - Ec S Nl. induction Ec as [|t c ts cs Hc _ IH]; constructor; auto. split; auto. destruct (load_at_init_Ok _ _ _ _ _ _ S Nl Hc) as (n & raw & _ & _ & _ & Q). intros v r Gr. destruct (Q v r Gr) as (a & _ & W & D & _). auto. }
  destruct (concat_queries _ _ _ _ Ni F H) as (first & Hd & Kf & Q). split.
  { destruct chunks as [|c0 cs]; [discriminate|]. cbn in Hd. injection Hd as ->. destruct (Forall2_flip_in _ _ _ F _ (or_introl eq_refl)) as (t & It & Hc & _).
    destruct (load_at_init_Ok _ _ _ _ _ _ S Nl Hc) as (n & raw & _ & Er & Kr & _). exists t, n, raw. split; auto. split; auto. congruence. }
  intros v b G. destruct (Q v b G) as (W & D & K & _ & V). split; auto. split; auto.
  assert (dget (dims b) "lead_time" = Some (map LZ leads)) as Dl.
  { apply K; [discriminate|]. intros c r Ic Gr. destruct (Forall2_flip_in _ _ _ F _ Ic) as (t & _ & Hc & _). destruct (load_at_init_Ok _ _ _ _ _ _ S Nl Hc) as (n & raw & _ & _ & _ & Qc). destruct (Qc v r Gr) as (a & _ & _ & _ & R2 & _). exact R2. }
  split; auto. split.
  { intros k o N1 N2 Ho. apply K; auto. intros c r Ic Gr. destruct (Forall2_flip_in _ _ _ F _ Ic) as (t & It & Hc & _). destruct (load_at_init_Ok _ _ _ _ _ _ S Nl Hc) as (n & raw & Ln & Er & _ & Qc). destruct (Qc v r Gr) as (a & Ga & _ & _ & _ & Ko & _). rewrite Ko; auto. apply (Ho t n raw a); auto. }
  intros t It. destruct (V t It) as (c & r & _ & Hc & Gr & _ & _ & Hv). destruct (load_at_init_Ok _ _ _ _ _ _ S Nl Hc) as (n & raw & L & Er & _ & Qc). destruct (Qc v r Gr) as (a & Ga & Wr & R1 & R2 & _ & Hp).
  exists n, raw, a. split; auto. split; auto. split; auto. intros e e' l At Bt Es. destruct (Hp e e' l At Bt Es) as [P1 P2]. destruct (Hv e (proj1 At)) as [V1 V2]. split; intros Hr; [rewrite V1; [exact P2|apply P1, Hr]|apply V2; intros X; apply Hr, P1, X].
Qed.

(** The answer: init and lead times are those of the query, and for the query t the values are
    those of the latest run n issued by t, at the same valid time (n + (l + (t - n)) = t + l). *)
Theorem C39_served_from_latest_available_run : forall nominal latency src inits leads out,
  gridded src -> NoDup inits -> NoDup leads ->
  ConstantLatencyWrapper nominal latency "init_time" src inits (Some (ChunkArr leads)) = Ok out ->
  forall v b, dget out v = Some b ->
    wf b /\ dget (dims b) "init_time" = Some (map LZ inits) /\ dget (dims b) "lead_time" = Some (map LZ leads) /\
    forall t, In t inits -> exists n raw a, latest_issued nominal latency t n /\
      src [n] (Some (ChunkArr (map (fun l => l + (t - n)) leads))) = Ok raw /\ dget raw v = Some a /\ served_by t n a b.
Proof.
  intros nominal latency src inits leads out S Ni Nl H v b G. destruct (wrapper_spec _ _ _ _ _ _ S Ni Nl H) as [_ Q]. destruct (Q v b G) as (A & B & C & _ & D). auto.
Qed.
(** No look-ahead: runs that are issued after all the queries cannot influence the answer. *)
Theorem C39_no_look_ahead : forall nominal latency concat_dim src src' inits leads,
  (forall n lc t, In t inits -> issued latency t n -> src [n] lc = src' [n] lc) ->
  ConstantLatencyWrapper nominal latency concat_dim src inits leads = ConstantLatencyWrapper nominal latency concat_dim src' inits leads.
Proof.
  intros nominal latency cd src src' inits leads H. destruct leads as [leads|]; [|reflexivity]. cbn [ConstantLatencyWrapper].
  assert (mapM (load_at_init nominal latency src leads) inits = mapM (load_at_init nominal latency src' leads) inits) as ->; [|reflexivity].
  assert (forall t, In t inits -> load_at_init nominal latency src leads t = load_at_init nominal latency src' leads t) as Q.
  { intros t It. unfold load_at_init. destruct (get_available_init_time nominal latency t) as [n|] eqn:En; [|reflexivity]. apply available_Ok in En. destruct En as (_ & Hi & _). cbn [bind]. destruct leads as [l|]; [|reflexivity]. rewrite (H n _ t It Hi). reflexivity. }
  clear H. induction inits as [|t ts IH]; [reflexivity|]. cbn [mapM]. rewrite (Q t (or_introl eq_refl)), IH; [reflexivity|]. intros; apply Q; right; auto.
Qed.
(** Errors: no lead times; a slice of lead times; a query before the first run is issued. *)
Theorem C39_errors : forall nominal latency cd src,
  (forall inits, ConstantLatencyWrapper nominal latency cd src inits None = Err ValueError) /\
  (forall t n a b, latest_issued nominal latency t n -> forall inits, ConstantLatencyWrapper nominal latency cd src (t :: inits) (Some (ChunkSlice a b)) = Err TypeError) /\
  (forall leads, ConstantLatencyWrapper nominal latency cd src [] (Some leads) = Err ValueError) /\
  (forall t leads, (forall n, In n nominal -> ~ issued latency t n) ->
     (forall inits, ConstantLatencyWrapper nominal latency cd src (t :: inits) (Some leads) = Err ValueError) /\
     forall inits out, In t inits -> ConstantLatencyWrapper nominal latency cd src inits (Some leads) <> Ok out).
Proof.
  intros nominal latency cd src. split; [reflexivity|]. split; [|split; [reflexivity|]].
  - intros t n a b L inits. apply available_Ok in L. cbn [ConstantLatencyWrapper mapM]. unfold load_at_init at 1. rewrite L. reflexivity.
  - intros t leads H. assert (forall lc, load_at_init nominal latency src lc t = Err ValueError) as E. { intros lc. unfold load_at_init. rewrite (proj2 (available_Err nominal latency t ValueError)); auto. } split.
    + intros inits. cbn [ConstantLatencyWrapper mapM]. rewrite E. reflexivity.
    + intros inits out It Ho. cbn [ConstantLatencyWrapper] in Ho. destruct (mapM _ inits) as [cs|] eqn:Ec; [|discriminate]. destruct (mapM_defined _ _ _ Ec _ It) as (c & _ & Hc). rewrite E in Hc. discriminate.
Qed.

(** *** With PredictionsFromXarray *)
(** Every variable of the data set is a forecast. *)
Definition forecasts (ds : vars da) : Prop := dataset ds /\ forall v a, In (v, a) ds -> In "init_time" (dnames a) /\ In "lead_time" (dnames a).
Lemma predictions_raw ds inits leads raw v a : forecasts ds -> NoDup inits -> NoDup leads -> PredictionsFromXarray ds inits (Some (ChunkArr leads)) = Ok raw -> dget ds v = Some a ->
  exists b, dget raw v = Some b /\ answers [] (init_lead_labels inits leads) (same_except []) a b.
Proof.
  intros [D Hv] Ni Nl H G. destruct (C41_predictions_are_the_requested_part _ _ _ _ D Ni Nl H) as [_ Q]. destruct (Q v a G) as (b & Gb & A). exists b. split; auto.
  destruct (Hv v a (dget_In _ _ G)) as [I1 I2]. unfold init_lead_labels in *. cbn [filter fst] in A. destruct (in_dec string_dec "init_time" (dnames a)); [|contradiction]. destruct (in_dec string_dec "lead_time" (dnames a)); [|contradiction]. exact A.
Qed.
Lemma predictions_gridded ds : forecasts ds -> gridded (PredictionsFromXarray ds).
Proof.
  intros F n leads c v b H N G. assert (NoDup [n]) as N1 by (repeat constructor; intros []). pose proof F as [D _]. destruct (C41_predictions_are_the_requested_part _ _ _ _ D N1 N H) as [K _].
  assert (In v (keys ds)) as I by (rewrite <- K; apply (dget_Some_keys _ _ G)). apply keys_dget in I. destruct I as [a Ga]. destruct (predictions_raw _ _ _ _ _ _ F N1 N H Ga) as (b' & Gb & A). assert (b' = b) as -> by congruence.
  split; [apply A|]. split; apply (an_new _ _ _ _ _ A); [left|right; left]; reflexivity.
Qed.
(** A wrapped forecast data set: at (t, l) the forecast for the same valid time t + l of the latest
    run issued by t. *)
Theorem C39_same_valid_time : forall nominal latency ds inits leads out, forecasts ds -> NoDup inits -> NoDup leads ->
  ConstantLatencyWrapper nominal latency "init_time" (PredictionsFromXarray ds) inits (Some (ChunkArr leads)) = Ok out ->
  chunk_of ds (fun _ => True)
    (answers [] (init_lead_labels inits leads)
       (fun e e' => exists t l n l', at_time e t l /\ latest_issued nominal latency t n /\ at_time e' n l' /\ n + l' = t + l /\
                    same_except ["init_time"; "lead_time"] e e')) out.
Proof.
  intros nominal latency ds inits leads out F Ni Nl H. pose proof F as [D _]. destruct (wrapper_spec _ _ _ _ _ _ (predictions_gridded ds F) Ni Nl H) as [(t0 & n0 & raw0 & _ & E0 & K0) Q].
  assert (forall t n raw, PredictionsFromXarray ds [n] (Some (ChunkArr (map (fun l => l + (t - n)) leads))) = Ok raw -> keys raw = keys ds /\ forall v a, dget ds v = Some a -> exists b, dget raw v = Some b /\ answers [] (init_lead_labels [n] (map (fun l => l + (t - n)) leads)) (same_except []) a b) as R.
  { intros t n raw E. assert (NoDup [n]) as N1 by (repeat constructor; intros []). assert (NoDup (map (fun l => l + (t - n)) leads)) as N2 by (apply FinFun.Injective_map_NoDup; auto; intros u w; lia).
    split; [apply (C41_predictions_are_the_requested_part _ _ _ _ D N1 N2 E)|]. intros v a G. apply (predictions_raw _ _ _ _ _ _ F N1 N2 E G). }
  destruct (R _ _ _ E0) as [K1 R0]. split; [congruence|]. intros v a G.
  assert (In v (keys out)) as Iv by (rewrite K0, K1; apply (dget_Some_keys _ _ G)). apply keys_dget in Iv. destruct Iv as [b Gb]. exists b. split; auto. split; [|intros X; exfalso; apply X; exact I]. intros _.
  destruct (Q v b Gb) as (W & D1 & D2 & K & V). split; [exact W| | | |].
  - intros d ls [[= <- <-]|[[= <- <-]|[]]]; auto.
  - intros d [].
  - intros d _ Nd. cbn in Nd. apply K; [intuition congruence|intuition congruence|]. intros t n raw a' It _ E Ga'. destruct (R _ _ _ E) as [_ R1]. destruct (R1 v a G) as (b' & Gb' & A). assert (b' = a') as -> by congruence. apply (an_kept _ _ _ _ _ A); cbn; intuition congruence.
  - intros e e' P (t & l & n & l' & At & L & Bt & Ev & Es).
    assert (In t inits) as It. { pose proof (P "init_time" _ (dget_In _ _ D1)) as Ip. rewrite (proj1 At) in Ip. apply in_map_iff in Ip. destruct Ip as (x & [= ->] & Ix). exact Ix. }
    assert (In l leads) as Il. { pose proof (P "lead_time" _ (dget_In _ _ D2)) as Ip. rewrite (proj2 At) in Ip. apply in_map_iff in Ip. destruct Ip as (x & [= ->] & Ix). exact Ix. }
    destruct (V t It) as (n' & raw & a' & L' & E & Ga' & Sv). assert (n' = n) as ->. { destruct L as (L1 & L2 & L3), L' as (L1' & L2' & L3'). pose proof (L3 _ L1' L2'). pose proof (L3' _ L1 L2). lia. }
    destruct (R _ _ _ E) as [_ R1]. destruct (R1 v a G) as (b' & Gb' & A). assert (b' = a') as -> by congruence.
    assert (l' = l + (t - n)) as -> by lia. destruct (Sv e e' l At Bt Es) as [S1 _].
    assert (point_of (dims a') e') as Pa.
    { intros d ls Id. pose proof (In_dget _ _ _ (proj1 (an_wf _ _ _ _ _ A)) Id) as Gd. destruct (string_dec d "init_time") as [->|N1].
      - rewrite (an_new _ _ _ _ _ A "init_time" [LZ n] (or_introl eq_refl)) in Gd. injection Gd as <-. rewrite (proj1 Bt). left. reflexivity.
      - destruct (string_dec d "lead_time") as [->|N2].
        + rewrite (an_new _ _ _ _ _ A "lead_time" _ (or_intror (or_introl eq_refl))) in Gd. injection Gd as <-. rewrite (proj2 Bt). apply in_map. apply in_map_iff. exists l. auto.
        + rewrite (Es d) by (cbn; intuition congruence). apply (P d). apply dget_In. rewrite (K d (Some ls) N1 N2); auto. intros t2 n2 raw2 a2 It2 _ E2 Ga2. destruct (R _ _ _ E2) as [_ R2]. destruct (R2 v a G) as (b2 & Gb2 & A2). assert (b2 = a2) as -> by congruence.
          rewrite (an_kept _ _ _ _ _ A2) by (cbn; intuition congruence). rewrite <- Gd. symmetry. apply (an_kept _ _ _ _ _ A); cbn; intuition congruence. }
    rewrite (S1 Pa). apply (an_value _ _ _ _ _ A); auto. intros d _. reflexivity.
Qed.
(** It succeeds exactly if there is a query and every query has an issued run, with all requested
    valid times. *)
Lemma adjust_total off a : In "init_time" (dnames a) -> In "lead_time" (dnames a) -> exists r, adjust_init_and_lead_times off a = Ok r /\ dnames r = dnames a /\ keys (aux r) = keys (aux a).
Proof.
  intros I1 I2. unfold adjust_init_and_lead_times.
  assert (forall d o x, In d (dnames x) -> exists r, shift_coord d o x = Ok r /\ dnames r = dnames x /\ keys (aux r) = keys (aux x)) as Q.
  { intros d o x I. unfold shift_coord. apply keys_dget in I. destruct I as [ls ->]. eexists. split; [reflexivity|]. split; [unfold dnames; cbn [dims]; apply shift_names|]. unfold keys. cbn [aux]. rewrite map_map. reflexivity. }
  destruct (Q _ off _ I1) as (x & -> & Nx & Kx). cbn [bind]. rewrite <- Nx in I2. destruct (Q _ (- off) _ I2) as (r & Er & Nr & Kr). exists r. split; auto. split; congruence.
Qed.
Lemma concat_total d arrs K : arrs <> [] -> (forall a, In a arrs -> In d (dnames a) /\ keys (aux a) = K) -> exists b, concat d arrs = Ok b.
Proof.
  intros Ne H. unfold concat. destruct arrs as [|first rest] eqn:E; [congruence|]. rewrite <- E in *. assert (In first arrs) as If0 by (rewrite E; left; auto).
  assert (forallb (fun a => memb d (dnames a)) arrs = true) as -> by (apply forallb_forall; intros a Ia; apply memb_In, (H a Ia)).
  destruct (mapM_total (fun nc => concat_coord d arrs (fst nc) (snd nc)) (aux first)) as [cs Ec]; [|rewrite Ec; cbn [bind]; eauto].
  intros [n c] I. cbn [fst snd]. unfold concat_coord. destruct (mapM_total (fun a => match dget (aux a) n with Some c' => Ok c' | None => Err ValueError end) arrs) as [cs Ecs].
  - intros a Ia. assert (In n (keys (aux a))) as In' by (rewrite (proj2 (H a Ia)), <- (proj2 (H first If0)); apply (in_map fst _ _ I)). apply keys_dget in In'. destruct In' as [c' ->]. eauto.
  - rewrite Ecs. cbn [bind]. destruct (_ && _); eauto.
Qed.
Lemma predictions_aux ds inits leads raw v b : PredictionsFromXarray ds inits (Some (ChunkArr leads)) = Ok raw -> dget raw v = Some b -> exists a, dget ds v = Some a /\ aux b = aux a /\ dnames b = dnames a.
Proof.
  intros H G. cbn [PredictionsFromXarray] in H. destruct (sel_labels _ _ ds) as [c|] eqn:E; [|discriminate]. cbn [bind] in H. destruct (sel_labels_spec _ _ _ _ E) as [K1 S1]. destruct (sel_labels_spec _ _ _ _ H) as [K2 S2].
  assert (forall d ls x y, (~ In d (dnames x) -> y = x) /\ (In d (dnames x) -> (forall l, In l ls -> In l (labels_of (dims x) d)) /\ y = restrict [(d, ls)] x) -> aux y = aux x /\ dnames y = dnames x) as Q.
  { intros d ls x y [A B]. destruct (in_dec string_dec d (dnames x)) as [i|n]; [|rewrite (A n); auto]. destruct (B i) as [_ ->]. split; [reflexivity|apply restrict_names]. }
  assert (In v (keys ds)) as I by (unfold keys; rewrite <- K1, <- K2; apply (dget_Some_keys _ _ G)). apply keys_dget in I. destruct I as [a Ga]. exists a. split; auto.
  destruct (S1 v a Ga) as (b1 & G1 & T1). destruct (S2 v b1 G1) as (b2 & G2 & T2). assert (b2 = b) as -> by congruence. destruct (Q _ _ _ _ T1) as [Q1 Q2]. destruct (Q _ _ _ _ T2) as [Q3 Q4]. split; congruence.
Qed.
Theorem C39_all_or_nothing : forall nominal latency ds inits leads, forecasts ds -> ds <> [] -> NoDup inits -> NoDup leads ->
  ((exists out, ConstantLatencyWrapper nominal latency "init_time" (PredictionsFromXarray ds) inits (Some (ChunkArr leads)) = Ok out) <->
   inits <> [] /\
   forall t, In t inits -> exists n, latest_issued nominal latency t n /\
     forall v a, In (v, a) ds -> In (LZ n) (labels_of (dims a) "init_time") /\ forall l, In l leads -> In (LZ (t + l - n)) (labels_of (dims a) "lead_time")).
Proof.
  intros nominal latency ds inits leads F Nd Ni Nl. pose proof F as [D Fv].
  assert (dataset_dim ds "init_time" /\ dataset_dim ds "lead_time") as [Dd1 Dd2]. { destruct ds as [|[v a] ds']; [congruence|]. destruct (Fv v a (or_introl eq_refl)) as [I1 I2]. split; exists v, a; split; auto; left; auto. }
  assert (forall t n, (exists raw, PredictionsFromXarray ds [n] (Some (ChunkArr (map (fun l => l + (t - n)) leads))) = Ok raw) <->
    forall v a, In (v, a) ds -> In (LZ n) (labels_of (dims a) "init_time") /\ forall l, In l leads -> In (LZ (t + l - n)) (labels_of (dims a) "lead_time")) as Src.
  { intros t n. rewrite C41_predictions_all_or_nothing. split.
    - intros (_ & _ & A & B) v a I. destruct (Fv v a I) as [I1 I2]. split; [apply (A v a n I I1); left; auto|]. intros l Il. replace (t + l - n) with (l + (t - n)) by lia. apply (B v a _ I I2). apply in_map_iff. exists l. auto.
    - intros H. split; auto. split; auto. split.
      + intros v a x I I1 [<-|[]]. apply (H v a I).
      + intros v a x I I2 Ix. apply in_map_iff in Ix. destruct Ix as (l & <- & Il). replace (l + (t - n)) with (t + l - n) by lia. apply (H v a I); auto. }
  cbn [ConstantLatencyWrapper]. split.
  - intros [out H]. destruct (mapM _ inits) as [chunks|] eqn:Ec; [|discriminate]. cbn [bind] in H. split; [intros ->; cbn in Ec; injection Ec as <-; discriminate|].
    intros t It. destruct (mapM_defined _ _ _ Ec _ It) as (c & _ & Hc). destruct (load_at_init_Ok _ _ _ _ _ _ (predictions_gridded ds F) Nl Hc) as (n & raw & L & Er & _). exists n. split; auto. apply Src. eauto.
  - intros [Ne H].
    assert (forall t, In t inits -> exists c, load_at_init nominal latency (PredictionsFromXarray ds) (ChunkArr leads) t = Ok c /\
      forall v a, dget ds v = Some a -> exists r, dget c v = Some r /\ dnames r = dnames a /\ keys (aux r) = keys (aux a)) as Hl.
    { intros t It. destruct (H t It) as (n & L & Hn). apply Src in Hn. destruct Hn as [raw Er]. unfold load_at_init. apply available_Ok in L. rewrite L. cbn [bind]. cbv zeta. rewrite Er. cbn [bind].
      assert (NoDup [n]) as N1 by (repeat constructor; intros []). assert (NoDup (map (fun l => l + (t - n)) leads)) as N2 by (apply FinFun.Injective_map_NoDup; auto; intros u w; lia).
      destruct (C41_predictions_are_the_requested_part _ _ _ _ D N1 N2 Er) as [Kr _].
      assert (NoDup (keys raw)) as Nr by (rewrite Kr; apply D).
      destruct (mapM_total (fun kv => do a <- adjust_init_and_lead_times (t - n) (snd kv); Ok (fst kv, a)) raw) as [c Hc].
      - intros [v b] I. cbn [fst snd]. pose proof (In_dget _ _ _ Nr I) as Gb. destruct (predictions_aux _ _ _ _ _ _ Er Gb) as (a & Ga & _ & Nm). destruct (Fv v a (dget_In _ _ Ga)) as [I1 I2]. rewrite <- Nm in I1, I2. destruct (adjust_total (t - n) b I1 I2) as (r & -> & _). cbn [bind]. eauto.
      - exists c. split; auto. intros v a Ga. assert (In v (keys raw)) as Iv by (rewrite Kr; apply (dget_Some_keys _ _ Ga)). apply keys_dget in Iv. destruct Iv as [b Gb].
        destruct (mapM_dget _ _ _ _ _ (adjust_fst _) Hc Gb) as (r & Ea & Gr). cbn [fst snd] in Ea. destruct (predictions_aux _ _ _ _ _ _ Er Gb) as (a' & Ga' & Ax & Nm). assert (a' = a) as -> by congruence.
        destruct (Fv v a (dget_In _ _ Ga)) as [I1 I2]. rewrite <- Nm in I1, I2. destruct (adjust_total (t - n) b I1 I2) as (r' & Er' & Nr' & Kr'). rewrite Er' in Ea. cbn [bind] in Ea. injection Ea as ->. exists r. split; auto. split; congruence. }
    destruct (mapM_total (load_at_init nominal latency (PredictionsFromXarray ds) (ChunkArr leads)) inits) as [chunks Ec]; [intros t It; destruct (Hl t It) as (c & Hc & _); eauto|]. rewrite Ec. cbn [bind].
    apply mapM_Ok_Forall2 in Ec. assert (forall c, In c chunks -> forall v a, dget ds v = Some a -> exists r, dget c v = Some r /\ dnames r = dnames a /\ keys (aux r) = keys (aux a)) as Hc.
    { intros c Ic. destruct (Forall2_flip_in _ _ _ Ec _ Ic) as (t & It & Et). destruct (Hl t It) as (c' & Hc' & Q). assert (c' = c) as -> by congruence. exact Q. }
    assert (exists t0 c0, In t0 inits /\ hd_error chunks = Some c0 /\ load_at_init nominal latency (PredictionsFromXarray ds) (ChunkArr leads) t0 = Ok c0) as (t0 & c0 & It0 & Hd0 & Hl0).
    { destruct Ec as [|t c ts cs Hh _]; [congruence|]. exists t, c. split; [left; auto|]. auto. }
    destruct (load_at_init_Ok _ _ _ _ _ _ (predictions_gridded ds F) Nl Hl0) as (n0 & raw0 & _ & Er0 & Kc0 & _).
    assert (keys c0 = keys ds) as K0. { rewrite Kc0. assert (NoDup [n0]) as N1 by (repeat constructor; intros []). assert (NoDup (map (fun l => l + (t0 - n0)) leads)) as N2 by (apply FinFun.Injective_map_NoDup; auto; intros u w; lia). apply (C41_predictions_are_the_requested_part _ _ _ _ D N1 N2 Er0). }
    unfold concat_chunks. destruct chunks as [|first rest]; [discriminate|]. cbn in Hd0. injection Hd0 as ->. apply mapM_total. intros [v r0] Ir. cbn [fst snd].
    assert (NoDup (keys c0)) as Nk by (rewrite K0; apply D). assert (exists a, dget ds v = Some a) as [a Ga] by (apply keys_dget; rewrite <- K0; apply (in_map fst _ _ Ir)).
    destruct (mapM_total (fun c => dgetE c v) rest) as [others Eo]. { intros c Ic. destruct (Hc c (or_intror Ic) v a Ga) as (r & Gr & _). unfold dgetE. rewrite Gr. eauto. }
    rewrite Eo. cbn [bind]. destruct (concat_total "init_time" (r0 :: others) (keys (aux a))) as [b ->]; [discriminate| |cbn [bind]; eauto].
    assert (forall r c, In c (c0 :: rest) -> dget c v = Some r -> In "init_time" (dnames r) /\ keys (aux r) = keys (aux a)) as Hr.
    { intros r c Ic Gr. destruct (Hc c Ic v a Ga) as (r' & Gr' & N' & K'). assert (r' = r) as -> by congruence. rewrite N'. split; auto. apply (Fv v a (dget_In _ _ Ga)). }
    intros x [<-|Ix]; [apply (Hr _ c0 (or_introl eq_refl)), In_dget; auto|]. apply mapM_Ok_Forall2 in Eo. destruct (Forall2_flip_in _ _ _ Eo _ Ix) as (c & Ic & Ex). apply (Hr x c (or_intror Ic)). unfold dgetE in Ex. destruct (dget c v); congruence.
Qed.

(** ** Example: runs every six hours, three hours latency *)
Definition ex_runs : vars da :=
  [("t", mkDa [("init_time", map LZ [0; h6; 2 * h6]); ("lead_time", map LZ [0; h6; 2 * h6; 3 * h6])]
              (fun e => if eqb (e "init_time") (LZ h6) && eqb (e "lead_time") (LZ (2 * h6)) then PInf else NaN) [])].
Lemma ex_forecasts : forecasts ex_runs.
Proof.
  split; [split|].
  - repeat constructor; intros [].
  - intros v a [[= <- <-]|[]]. split; [repeat constructor; cbn; intuition discriminate|]. split.
    + intros d ls [[= <- <-]|[[= <- <-]|[]]]; repeat constructor; cbn; unfold h6; intuition discriminate.
    + intros e e' H. cbn [get]. rewrite (H "init_time"), (H "lead_time"); [reflexivity|right; left; reflexivity|left; reflexivity].
  - intros v a [[= <- <-]|[]]. cbn. auto.
Qed.
Definition ex_latency : Z := 3 * 3600 * 1000000000.
(** At 12 h the run of 12 h is not issued yet: the answer at lead time 6 h is the one of the run of
    6 h at lead time 12 h. *)
Example C39_example : exists out b, ConstantLatencyWrapper [0; h6; 2 * h6] ex_latency "init_time" (PredictionsFromXarray ex_runs) [2 * h6; h6] (Some (ChunkArr [0; h6])) = Ok out /\
  dget out "t" = Some b /\ dget (dims b) "init_time" = Some [LZ (2 * h6); LZ h6] /\
  forall e, e "init_time" = LZ (2 * h6) -> e "lead_time" = LZ h6 -> get b e = PInf.
Proof.
  assert (NoDup [2 * h6; h6]) as N1 by (repeat constructor; cbn; unfold h6; intuition discriminate). assert (ex_runs <> []) as Ne by discriminate.
  assert (forall t n, In n [0; h6; 2 * h6] -> t = n + h6 -> latest_issued [0; h6; 2 * h6] ex_latency t n) as Lt.
  { intros t n I ->. split; [exact I|]. unfold issued, ex_latency, h6. split; [lia|]. intros n' I' H. unfold h6 in I, I'. cbn in I, I'. lia. }
  destruct (proj2 (C39_all_or_nothing [0; h6; 2 * h6] ex_latency ex_runs [2 * h6; h6] [0; h6] ex_forecasts Ne N1 ex_nodup)) as [out E].
  { split; [discriminate|]. intros t [<-|[<-|[]]].
    - exists h6. split; [apply Lt; [right; left; auto|unfold h6; lia]|]. intros v a [[= <- <-]|[]]. split; [right; left; reflexivity|]. intros l [<-|[<-|[]]]; [right; left|right; right; left]; reflexivity.
    - exists 0. split; [apply Lt; [left; auto|unfold h6; lia]|]. intros v a [[= <- <-]|[]]. split; [left; reflexivity|]. intros l [<-|[<-|[]]]; [right; left|right; right; left]; reflexivity. }
  destruct (C39_same_valid_time _ _ _ _ _ _ ex_forecasts N1 ex_nodup E) as [_ H]. destruct (H "t" _ eq_refl) as (b & G & A & _). specialize (A I). exists out, b. split; auto. split; auto. split; [apply (an_new _ _ _ _ _ A); left; reflexivity|].
  intros e E1 E2. pose (e' := upd (upd e "init_time" (LZ h6)) "lead_time" (LZ (2 * h6))). rewrite (an_value _ _ _ _ _ A e e'); [reflexivity| |].
  - intros d ls I. assert (dget (dims b) d = Some ls) as Eg by (apply In_dget; auto; apply (an_wf _ _ _ _ _ A)). destruct (string_dec d "init_time") as [->|Nd1]; [rewrite (an_new _ _ _ _ _ A _ _ (or_introl eq_refl)) in Eg; injection Eg as <-; rewrite E1; left; reflexivity|].
    destruct (string_dec d "lead_time") as [->|Nd2]; [rewrite (an_new _ _ _ _ _ A _ _ (or_intror (or_introl eq_refl))) in Eg; injection Eg as <-; rewrite E2; right; left; reflexivity|].
    rewrite (an_kept _ _ _ _ _ A) in Eg by (cbn; intuition congruence). apply dget_In in Eg. destruct Eg as [[= <- _]|[[= <- _]|[]]]; congruence.
  - exists (2 * h6), h6, h6, (2 * h6). split; [split; auto|]. split; [apply Lt; [right; left; auto|unfold h6; lia]|]. split; [split; reflexivity|]. split; [reflexivity|]. intros d Nd. unfold e'. rewrite !upd_other by (cbn in Nd; intuition congruence). reflexivity.
Qed.
(** One hour after the first run nothing is issued. *)
Example C39_too_early : ConstantLatencyWrapper [0; h6] ex_latency "init_time" (PredictionsFromXarray ex_runs) [3600 * 1000000000] (Some (ChunkArr [0])) = Err ValueError.
Proof. vm_compute. reflexivity. Qed.

Print Assumptions C39_latest_available_run.
Print Assumptions C39_served_from_latest_available_run.
Print Assumptions C39_no_look_ahead.
Print Assumptions C39_errors.
Print Assumptions C39_same_valid_time.
Print Assumptions C39_all_or_nothing.
