(** Loading for the example evaluation: the squared errors of a chunk. *)
From Coq Require Import String Ascii ZArith QArith Reals List Bool Lia.
Import ListNotations.
From Verif Require Import Prelude Values Model_XArray Spec_XArray Proofs_XArray Model_MetricsBase Model_Calendar Model_TimeChunks Spec_TimeChunks Proofs_TimeChunks Props_TimeChunks Model_Aggregation Model_Deterministic Proofs_Deterministic Model_Loaders Spec_Loaders Proofs_Loaders
  Model_Prepare Model_Binning Model_Weighting Model_Beam Spec_Beam Spec_RoundTrip Spec_Binning Spec_Weighting Spec_EndToEnd Spec_ExampleEvaluation.
Local Open Scope string_scope.
Local Open Scope list_scope.

Lemma mapM_Ok {A B} (f : A -> result B) (h : A -> B) l : (forall x, In x l -> f x = Ok (h x)) -> mapM f l = Ok (map h l).
Proof.
  induction l as [|x l IH]; intros H; [reflexivity|]. cbn [mapM map]. rewrite (H x) by now left. cbn [bind]. rewrite IH by (intros; apply H; now right). reflexivity.
Qed.
Lemma has_dim_all ds d : ds <> [] -> (forall v a, In (v, a) ds -> In d (dnames a)) -> has_dim ds d = true.
Proof. intros N H. apply has_dim_iff. destruct ds as [|[v a] ds]; [congruence|]. exists v, a. split; [now left|]. apply (H v). now left. Qed.

Lemma sel_labels_all d ls ds : ds <> [] -> (forall v a, In (v, a) ds -> In d (dnames a) /\ incl ls (labels_of (dims a) d)) ->
  sel_labels d ls ds = Ok (map (fun kv => (fst kv, restrict [(d, ls)] (snd kv))) ds).
Proof.
  intros N H. unfold sel_labels. rewrite has_dim_all by (auto; intros v a I; apply (H v a I)). apply mapM_Ok. intros [v a] I. cbn [fst snd].
  destruct (H v a I) as [Id Il]. apply keys_dget in Id. destruct Id as [have E]. rewrite E.
  assert (forallb (fun l => memb l have) ls = true) as ->; [|reflexivity].
  apply forallb_forall. intros l Hl. apply memb_In. specialize (Il l Hl). unfold labels_of in Il. rewrite E in Il. exact Il.
Qed.

(** The forecast chunk. *)
Definition forecast_at (I L : list Z) (a : da) : da := restrict [("lead_time", times L)] (restrict [("init_time", times I)] a).
Definition cut (I L : list Z) (p : string * list label) : string * list label :=
  if eq_dec (fst p) "init_time" then (fst p, times I) else if eq_dec (fst p) "lead_time" then (fst p, times L) else p.
Lemma forecast_dims I L a : dims (forecast_at I L a) = map (cut I L) (dims a).
Proof.
  unfold forecast_at. rewrite restrict_dims, restrict_dims, map_map. apply map_ext. intros [k l]. cbn [fst]. unfold cut. cbn [fst].
  destruct (eq_dec k "init_time") as [->|]; cbn [fst]; [destruct (eq_dec "init_time" "lead_time"); [discriminate|reflexivity]|reflexivity].
Qed.
Lemma cut_fst I L p : fst (cut I L p) = fst p.
Proof. unfold cut. destruct (eq_dec _ _); [reflexivity|destruct (eq_dec _ _); reflexivity]. Qed.
Lemma forecast_names I L a : dnames (forecast_at I L a) = dnames a.
Proof. unfold dnames. rewrite forecast_dims, map_map. apply map_ext. apply cut_fst. Qed.
Lemma forecast_get I L a : get (forecast_at I L a) = get a. Proof. reflexivity. Qed.
Lemma forecast_aux I L a : aux (forecast_at I L a) = aux a. Proof. reflexivity. Qed.
Lemma forecast_wf I L a : NoDup I -> NoDup L -> wf a -> wf (forecast_at I L a).
Proof. intros A B W. unfold forecast_at. apply wf_restrict; [apply wf_restrict; auto|]; apply times_NoDup; auto. Qed.
Lemma dget_cut I L ds k : dget (map (cut I L) ds) k =
  match dget ds k with Some ls => Some (if eq_dec k "init_time" then times I else if eq_dec k "lead_time" then times L else ls) | None => None end.
Proof.
  induction ds as [|[k0 l0] ds IH]; [reflexivity|]. cbn [map]. unfold cut at 1. cbn [fst]. 
  destruct (eq_dec k0 "init_time") as [->|N1]; [|destruct (eq_dec k0 "lead_time") as [->|N2]]; cbn [dget].
  - destruct (eq_dec k "init_time") as [->|]; [reflexivity|exact IH].
  - destruct (eq_dec k "lead_time") as [->|]; [destruct (eq_dec "lead_time" "init_time"); [discriminate|reflexivity]|exact IH].
  - destruct (eq_dec k k0) as [->|]; [|exact IH]. destruct (eq_dec k0 "init_time"); [congruence|]. destruct (eq_dec k0 "lead_time"); [congruence|reflexivity].
Qed.

Lemma load_predictions ds I L : ds <> [] ->
  (forall v a, In (v, a) ds -> incl ["init_time"; "lead_time"] (dnames a) /\ incl (times I) (labels_of (dims a) "init_time") /\ incl (times L) (labels_of (dims a) "lead_time")) ->
  PredictionsFromXarray ds I (Some (ChunkArr L)) = Ok (map (fun kv => (fst kv, forecast_at I L (snd kv))) ds).
Proof.
  intros N H. unfold PredictionsFromXarray. rewrite sel_labels_all; auto; cbn [bind].
  - rewrite sel_labels_all; [rewrite map_map; reflexivity|destruct ds; [congruence|discriminate]|].
    intros v a I0. apply in_map_iff in I0. destruct I0 as ([v0 a0] & [= <- <-] & I0). cbn [fst snd] in *. destruct (H _ _ I0) as (A & B & C). split.
    + rewrite restrict_names. apply A. cbn; auto.
    + unfold labels_of. rewrite dget_restrict. destruct (eq_dec "lead_time" "init_time"); [discriminate|]. exact C.
  - intros v a I0. destruct (H _ _ I0) as (A & B & C). split; auto. apply A. now left.
Qed.

(** The targets chunk. *)
Definition vt_index : list (string * (env -> label)) := [("valid_time", fun e => LZ (valid_time e))].
Definition target_at (I L : list Z) (a : da) : da :=
  mkDa (init_lead I L ++ filter (fun p => negb (memb (fst p) ["valid_time"]) && negb (memb (fst p) ["init_time"; "lead_time"])) (dims a))
       (fun e => get a (fun d => match dget vt_index d with Some f => f e | None => e d end))
       (aux_without ["valid_time"] (aux a) ++ [("valid_time", mkCoord ["init_time"; "lead_time"] (fun e => LZ (valid_time e)))]).
Lemma target_points I L a : NoDup I -> NoDup L -> (forall i l, In i I -> In l L -> In (LZ (i + l)) (labels_of (dims a) "valid_time")) ->
  sel_points a (init_lead I L) [("valid_time", mkCoord ["init_time"; "lead_time"] (fun e => LZ (valid_time e)))] vt_index = Ok (target_at I L a).
Proof.
  intros NI NL H. unfold sel_points.
  assert (forallb (fun e => forallb (fun df => memb (snd df e) (labels_of (dims a) (fst df))) vt_index) (envs (init_lead I L) env0) = true) as ->; [|reflexivity].
  apply forallb_forall. intros e Ie. apply forallb_forall. intros df [<-|[]]. cbn [fst snd]. apply memb_In.
  destruct (envs_init_lead I L e NI NL Ie) as (t & l & It & Il & At). rewrite (at_valid e t l At). apply H; auto.
Qed.
Lemma load_targets ds I L : ds <> [] -> NoDup I -> NoDup L ->
  (forall v a, In (v, a) ds -> In "valid_time" (dnames a) /\ forall i l, In i I -> In l L -> In (LZ (i + l)) (labels_of (dims a) "valid_time")) ->
  TargetsFromXarray ds I (Some (ChunkArr L)) = Ok (map (fun kv => (fst kv, target_at I L (snd kv))) ds).
Proof.
  intros N NI NL H. unfold TargetsFromXarray, sel_arrays. cbn [forallb fst]. rewrite has_dim_all by (auto; intros v a I0; apply (H v a I0)). cbn [andb].
  apply mapM_Ok. intros [v a] I0. destruct (H v a I0) as [Hd Hl]. cbn [fst snd filter]. rewrite (proj2 (memb_In _ _) Hd).
  match goal with |- bind (sel_points ?a ?i ?x ?y) _ = _ => change (bind (sel_points a (init_lead I L) [("valid_time", mkCoord ["init_time"; "lead_time"] (fun e => LZ (valid_time e)))] vt_index) (fun a0 => Ok (v, a0)) = Ok (v, target_at I L a)) end.
  rewrite target_points; auto.
Qed.
Lemma target_dget I L a k : ~ In "init_time" (dnames a) -> ~ In "lead_time" (dnames a) ->
  dget (dims (target_at I L a)) k = if eq_dec k "init_time" then Some (times I) else if eq_dec k "lead_time" then Some (times L) else if eq_dec k "valid_time" then None else dget (dims a) k.
Proof.
  intros N1 N2. cbn [target_at dims init_lead app dget]. destruct (eq_dec k "init_time") as [->|H1]; [reflexivity|]. destruct (eq_dec k "lead_time") as [->|H2]; [reflexivity|].
  rewrite (dget_filter_fst (fun d => negb (memb d ["valid_time"]) && negb (memb d ["init_time"; "lead_time"]))). 
  destruct (eq_dec k "valid_time") as [->|H3]; [reflexivity|].
  assert (memb k ["valid_time"] = false) as -> by (apply memb_false; cbn; intuition congruence).
  assert (memb k ["init_time"; "lead_time"] = false) as -> by (apply memb_false; cbn; intuition congruence). reflexivity.
Qed.
Lemma target_names I L a k : ~ In "init_time" (dnames a) -> ~ In "lead_time" (dnames a) ->
  (In k (dnames (target_at I L a)) <-> k = "init_time" \/ k = "lead_time" \/ k <> "valid_time" /\ In k (dnames a)).
Proof.
  intros N1 N2. unfold dnames at 1. change (In k (keys (dims (target_at I L a))) <-> k = "init_time" \/ k = "lead_time" \/ k <> "valid_time" /\ In k (dnames a)).
  split.
  - intros H. apply keys_dget in H. destruct H as [x H]. rewrite (target_dget I L a k N1 N2) in H.
    destruct (eq_dec k "init_time"); [auto|]. destruct (eq_dec k "lead_time"); [auto|]. destruct (eq_dec k "valid_time"); [discriminate|]. right. right. split; auto. eapply dget_Some_keys, H.
  - intros H. assert (exists x, dget (dims (target_at I L a)) k = Some x) as [x E]; [|eapply dget_Some_keys, E]. rewrite (target_dget I L a k N1 N2).
    destruct (eq_dec k "init_time"); [eauto|]. destruct (eq_dec k "lead_time"); [eauto|]. destruct H as [H|[H|[H1 H2]]]; [congruence..|]. destruct (eq_dec k "valid_time"); [congruence|]. apply keys_dget, H2.
Qed.
Lemma target_wf I L a : NoDup I -> NoDup L -> wf a -> (forall i l, In i I -> In l L -> In (LZ (i + l)) (labels_of (dims a) "valid_time")) -> wf (target_at I L a).
Proof.
  intros NI NL W H. destruct (init_lead_ok I L NI NL) as [K1 K2].
  pose proof (sel_points_answers a (init_lead I L) [("valid_time", mkCoord ["init_time"; "lead_time"] (fun e => LZ (valid_time e)))] vt_index (target_at I L a) W K1 K2) as K.
  assert (answers (map fst vt_index) (init_lead I L) (fun e e' => forall d, e' d = match dget vt_index d with Some f => f e | None => e d end) a (target_at I L a)) as An.
  { apply K.
    - intros d f [[= <- <-]|[]] e e' E. f_equal. apply (valid_local I L), E.
    - apply target_points; auto. }
  destruct An as [A _ _ _ _]. exact A.
Qed.

(** The squared errors of a chunk. *)
Definition errors_at (I L : list Z) (P T : da) : da := squared_error_var (forecast_at I L P) (target_at I L T).
(** Forecast and target of one variable. *)
Record matched (P T : da) : Prop := {
  ma_P : wf P; ma_T : wf T; ma_auxP : aux P = []; ma_auxT : aux T = [];
  ma_times : In "init_time" (dnames P) /\ In "lead_time" (dnames P) /\ ~ In "valid_time" (dnames P);
  ma_vt : ~ In "init_time" (dnames T) /\ ~ In "lead_time" (dnames T);
  ma_grid : forall d, d <> "init_time" -> d <> "lead_time" -> d <> "valid_time" -> dget (dims P) d = dget (dims T) d }.
Lemma matched_box I L P T : matched P T -> same_box (forecast_at I L P) (target_at I L T).
Proof.
  intros [WP WT AP AT (T1 & T2 & T3) (V1 & V2) G] d. rewrite forecast_dims, dget_cut, (target_dget I L T d V1 V2).
  destruct (eq_dec d "init_time") as [->|N1]; [apply keys_dget in T1; destruct T1 as [x ->]; reflexivity|].
  destruct (eq_dec d "lead_time") as [->|N2]; [apply keys_dget in T2; destruct T2 as [x ->]; reflexivity|].
  destruct (eq_dec d "valid_time") as [->|N3].
  - destruct (dget (dims P) "valid_time") eqn:E; [|reflexivity]. exfalso. apply T3. eapply dget_Some_keys, E.
  - rewrite (G d N1 N2 N3). destruct (dget (dims T) d); reflexivity.
Qed.
Lemma errors_dims I L P T : matched P T -> dims (errors_at I L P T) = dims (forecast_at I L P).
Proof.
  intros M. pose proof (matched_box I L P T M) as B. unfold errors_at, squared_error_var. cbn [da_map dims binop]. unfold merge_dims.
  assert (forall p, In p (dims (forecast_at I L P)) -> dget (dims (forecast_at I L P)) (fst p) = Some (snd p)) as K.
  { intros [k l] Ip. apply In_dget; auto. change (keys (dims (forecast_at I L P))) with (dnames (forecast_at I L P)). rewrite forecast_names. apply (ma_P _ _ M). }
  assert (filter (fun p => negb (memb (fst p) (map fst (dims (forecast_at I L P))))) (dims (target_at I L T)) = []) as ->.
  { assert (forall l, incl l (dims (target_at I L T)) -> filter (fun p => negb (memb (fst p) (map fst (dims (forecast_at I L P))))) l = []) as X; [|apply X, incl_refl].
    induction l as [|[k x] l IH]; intros Hi; [reflexivity|]. cbn [filter fst]. assert (memb k (map fst (dims (forecast_at I L P))) = true) as ->.
    { apply memb_In. assert (In k (dnames (target_at I L T))) as Ik by (change k with (fst (k, x)); apply in_map, Hi; now left).
      apply keys_dget in Ik. destruct Ik as [y Ey]. rewrite <- (B k) in Ey. eapply dget_Some_keys, Ey. }
    cbn [negb]. apply IH. intros z Hz. apply Hi. now right. }
  rewrite app_nil_r. rewrite <- (map_id (dims (forecast_at I L P))) at 2. apply map_ext_in. intros [k l] Ip. cbn [fst snd]. rewrite <- (B k). pose proof (K _ Ip) as E. cbn [fst snd] in E. rewrite E.
  now rewrite inter_self.
Qed.
Lemma errors_aux I L P T : matched P T -> aux (errors_at I L P T) = [("valid_time", mkCoord ["init_time"; "lead_time"] (fun e => LZ (valid_time e)))].
Proof. intros M. unfold errors_at, squared_error_var, forecast_at, target_at. cbn [da_map aux binop restrict]. rewrite (ma_auxP _ _ M), (ma_auxT _ _ M). reflexivity. Qed.
Lemma errors_wf I L P T : matched P T -> NoDup I -> NoDup L -> (forall i l, In i I -> In l L -> In (LZ (i + l)) (labels_of (dims T) "valid_time")) -> wf (errors_at I L P T).
Proof. intros M NI NL H. apply wf_map, wf_binop; [apply forecast_wf|apply target_wf]; auto; apply M. Qed.

Lemma piece_filter (l p : list Z) ps s : NoDup l -> pieces_of s l ps -> In p ps -> filter (fun x => memb x (times p)) (times l) = times p.
Proof.
  intros N H Ip. assert (concat ps = l) as E by apply H. apply in_split in Ip. destruct Ip as (a & b & ->). rewrite concat_app in E. cbn [concat] in E. subst l.
  unfold times. rewrite !map_app, !filter_app.
  assert (forall x, In x p -> ~ In x (concat a) /\ ~ In x (concat b)) as D.
  { clear - N. intros x Ip. split; intros I.
    - induction (concat a) as [|y l IH]; [destruct I|]. cbn [app] in N. inversion N as [|? ? N1 N2]; subst. destruct I as [->|I]; [apply N1, in_or_app; right; apply in_or_app; auto|auto].
    - assert (NoDup (p ++ concat b)) as N2 by (induction (concat a); [exact N|]; apply IHl; now inversion N). clear N. induction p as [|y p IH]; [destruct Ip|]. cbn [app] in N2. inversion N2 as [|? ? N1 N3]; subst.
      destruct Ip as [->|Ip]; [apply N1, in_or_app; auto|auto]. }
  assert (forall q, (forall x, In x q -> ~ In x p) -> filter (fun x => memb x (map LZ p)) (map LZ q) = []) as F0.
  { induction q as [|x q IH]; intros Hq; [reflexivity|]. cbn [map filter]. assert (memb (LZ x) (map LZ p) = false) as ->.
    { apply memb_false. intros I. apply in_map_iff in I. destruct I as (y & [= ->] & I). apply (Hq x); [now left|exact I]. }
    apply IH. intros y Iy. apply Hq. now right. }
  rewrite (F0 (concat a)), (F0 (concat b)), app_nil_r by (intros x I1 I2; apply (D x) in I2; tauto). cbn [app].
  assert (forall q, incl q p -> filter (fun x => memb x (map LZ p)) (map LZ q) = map LZ q) as F1; [|apply F1, incl_refl].
  induction q as [|x q IH]; intros Hq; [reflexivity|]. cbn [map filter]. rewrite (proj2 (memb_In (LZ x) (map LZ p))) by (apply in_map, Hq; now left). f_equal. apply IH. intros y Iy. apply Hq. now right.
Qed.
Lemma errors_slice inits leads I L P T : matched P T ->
  filter (fun x => memb x (times I)) (times inits) = times I -> filter (fun x => memb x (times L)) (times leads) = times L ->
  time_slice (times I) (times L) (errors_at inits leads P T) (errors_at I L P T).
Proof.
  intros M FI FL. split; [|split; [rewrite !errors_aux; auto|reflexivity]].
  rewrite !errors_dims, !forecast_dims; auto. unfold chunk_dims. rewrite map_map. apply map_ext. intros [k l]. unfold cut. cbn [fst snd].
  destruct (eq_dec k "init_time") as [->|N1]; cbn [fst snd].
  - f_equal. symmetry. etransitivity; [|exact FI]. apply filter_ext. intros x. reflexivity.
  - destruct (eq_dec k "lead_time") as [->|N2]; cbn [fst snd].
    + f_equal. symmetry. etransitivity; [|exact FL]. apply filter_ext. intros x. reflexivity.
    + f_equal. assert (forall x, in_chunkb (times I) (times L) k x = true) as E.
      { intros x. unfold in_chunkb. destruct (String.eqb_spec k "init_time"); [congruence|]. destruct (String.eqb_spec k "lead_time"); [congruence|reflexivity]. }
      symmetry. induction l as [|x l IH]; [reflexivity|]. cbn [filter]. rewrite E, IH. reflexivity.
Qed.
