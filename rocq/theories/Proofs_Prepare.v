(** Lemmas about the preparation of a dataset. *)
From Coq Require Import String ZArith List Bool Lia.
Import ListNotations.
From Verif Require Import Prelude Values Model_XArray Spec_XArray Proofs_XArray Model_MetricsBase Model_Aggregation Model_TimeChunks Model_Deterministic Proofs_Beam9 Proofs_AggState
  Model_Loaders Spec_Loaders Proofs_Loaders Model_Latency Model_Prepare Spec_Prepare.
Local Open Scope string_scope.
Local Open Scope list_scope.

(** ** Names *)
Lemma in_coord_names ds n : In n (coord_names ds) <-> coordinate_of ds n.
Proof.
  unfold coord_names, coordinate_of. rewrite in_flat_map. split.
  - intros ([v a] & I & J). apply in_app_iff in J. eauto.
  - intros (v & a & I & J). exists (v, a). split; auto. apply in_app_iff. auto.
Qed.
Lemma is_coord_iff ds n : is_coord ds n = true <-> coordinate_of ds n.
Proof. unfold is_coord. rewrite memb_In. apply in_coord_names. Qed.
Lemma is_coord_false ds n : is_coord ds n = false <-> ~ coordinate_of ds n.
Proof. rewrite <- is_coord_iff. destruct (is_coord ds n); split; congruence. Qed.
Lemma in_ds_names ds n : In n (ds_names ds) <-> name_of ds n.
Proof. unfold ds_names. rewrite nodup_In, in_app_iff, in_coord_names. reflexivity. Qed.

Definition ren (rho : string -> string) (a : da) : da :=
  mkDa (map (fun p => (rho (fst p), snd p)) (dims a)) (fun e => get a (fun d => e (rho d)))
       (map (fun c => (rho (fst c), mkCoord (map rho (c_dims (snd c))) (fun e => c_get (snd c) (fun d => e (rho d))))) (aux a)).
Definition inj_on (ds : vars da) (rho : string -> string) : Prop :=
  forall n n', name_of ds n -> name_of ds n' -> rho n = rho n' -> n = n'.
(** [out] is [ds] under the names [rho]. *)
Definition renamed (rho : string -> string) (ds out : vars da) : Prop :=
  inj_on ds rho /\ out = map (fun kv => (rho (fst kv), ren rho (snd kv))) ds.

Lemma NoDup_map_inj {A B} (f : A -> B) l : NoDup (map f l) -> forall x y, In x l -> In y l -> f x = f y -> x = y.
Proof.
  induction l as [|a l IH]; intros N x y Ix Iy E; [contradiction|]. cbn [map] in N. apply NoDup_cons_iff in N. destruct N as [N1 N2].
  destruct Ix as [<-|Ix], Iy as [<-|Iy]; auto; exfalso; apply N1; [rewrite E|rewrite <- E]; apply in_map; auto.
Qed.
Lemma NoDup_map_on {A B} (f : A -> B) l : (forall x y, In x l -> In y l -> f x = f y -> x = y) -> NoDup l -> NoDup (map f l).
Proof.
  induction l as [|a l IH]; intros J N; [constructor|]. apply NoDup_cons_iff in N. destruct N as [N1 N2]. cbn [map]. constructor.
  - intros I. apply in_map_iff in I. destruct I as (x & E & I). apply N1. rewrite <- (J x a); auto; [right; auto|left; auto].
  - apply IH; auto. intros x y Ix Iy. apply J; right; auto.
Qed.
Lemma rename_ds_spec m ds out : rename_ds m ds = Ok out ->
  (forall n, In n (keys m) -> name_of ds n) /\ renamed (new_name m) ds out.
Proof.
  unfold rename_ds. destruct (forallb _ _) eqn:F; [|discriminate]. destruct (nodupb _) eqn:N; [|discriminate]. cbn [andb]. intros [= <-].
  rewrite forallb_forall in F. split; [intros n I; apply in_ds_names, memb_In, F, I|]. split; [|reflexivity].
  intros n n' I I' E. apply (NoDup_map_inj (new_name m) (ds_names ds)); auto; [apply nodupb_NoDup, N| |]; apply in_ds_names; auto.
Qed.
Lemma rename_ds_err m ds e : rename_ds m ds = Err e -> e = ValueError.
Proof. unfold rename_ds. destruct (_ && _); [discriminate|]. intros [= <-]. reflexivity. Qed.
Lemma renamed_id ds rho : (forall n, rho n = n) -> exists out, renamed rho ds out.
Proof. intros H. eexists. split; [|reflexivity]. intros n n' _ _ E. rewrite !H in E. exact E. Qed.
Lemma dnames_ren rho a : dnames (ren rho a) = map rho (dnames a).
Proof. unfold dnames. cbn [ren dims]. rewrite !map_map. reflexivity. Qed.
Lemma auxkeys_ren rho a : keys (aux (ren rho a)) = map rho (keys (aux a)).
Proof. unfold keys. cbn [ren aux]. rewrite !map_map. reflexivity. Qed.
Lemma name_of_renamed rho ds out : renamed rho ds out -> forall n', name_of out n' <-> exists n, name_of ds n /\ n' = rho n.
Proof.
  intros [_ ->] n'. unfold name_of. split.
  - intros [I|(v & b & I & J)].
    + unfold keys in I. rewrite map_map in I. apply in_map_iff in I. destruct I as (kv & <- & I). exists (fst kv). split; auto. left. apply in_map, I.
    + apply in_map_iff in I. destruct I as ([v0 a] & [= <- <-] & I). rewrite dnames_ren, auxkeys_ren in J.
      destruct J as [J|J]; apply in_map_iff in J; destruct J as (n & <- & J); exists n; split; auto; right; exists v0, a; auto.
  - intros (n & [I|(v & a & I & J)] & ->).
    + left. unfold keys. rewrite map_map. cbn [fst]. unfold keys in I. apply in_map_iff in I. destruct I as (kv & <- & I). apply in_map_iff. eauto.
    + right. exists (rho v), (ren rho a). split; [apply in_map_iff; exists (v, a); auto|]. rewrite dnames_ren, auxkeys_ren. destruct J as [J|J]; [left|right]; apply in_map, J.
Qed.
Lemma coord_of_renamed rho ds out : renamed rho ds out -> forall n', coordinate_of out n' <-> exists n, coordinate_of ds n /\ n' = rho n.
Proof.
  intros [_ ->] n'. split.
  - intros (v & b & I & J). apply in_map_iff in I. destruct I as ([v0 a] & [= <- <-] & I). rewrite dnames_ren, auxkeys_ren in J.
    destruct J as [J|J]; apply in_map_iff in J; destruct J as (n & <- & J); exists n; split; auto; exists v0, a; auto.
  - intros (n & (v & a & I & J) & ->). exists (rho v), (ren rho a). split; [apply in_map_iff; exists (v, a); auto|]. rewrite dnames_ren, auxkeys_ren. destruct J as [J|J]; [left|right]; apply in_map, J.
Qed.
Lemma renamed_compose r1 r2 ds d1 d2 : renamed r1 ds d1 -> renamed r2 d1 d2 -> renamed (fun n => r2 (r1 n)) ds d2.
Proof.
  intros H1 [J2 ->]. pose proof (name_of_renamed _ _ _ H1) as Nm. destruct H1 as [J1 ->]. split.
  - intros n n' I I' E. apply J1; auto. apply J2; auto; apply Nm; eauto.
  - rewrite map_map. apply map_ext. intros [v a]. cbn [fst snd]. f_equal. unfold ren. cbn [dims get aux]. rewrite !map_map. cbn [fst snd c_dims c_get]. f_equal. apply map_ext. intros [k c]. cbn [fst snd]. rewrite map_map. reflexivity.
Qed.
Lemma renamed_self ds : renamed (fun n => n) ds ds.
Proof.
  split; [intros n n' _ _ E; exact E|]. rewrite <- (List.map_id ds) at 1. apply map_ext. intros [v a]. cbn [fst snd]. f_equal. destruct a as [di g au]. unfold ren. cbn [dims get aux]. f_equal.
  - rewrite <- (List.map_id di) at 1. apply map_ext. intros []. reflexivity.
  - rewrite <- (List.map_id au) at 1. apply map_ext. intros [k [cd cg]]. cbn [fst snd c_dims c_get]. rewrite List.map_id. reflexivity.
Qed.
(** _rename_dataset *)
Lemma new_name_dict m : by_dictionary m (new_name m).
Proof. intros n. unfold new_name. split; [intros n' ->; reflexivity|intros ->; reflexivity]. Qed.
Ltac name_cases := unfold new_name; cbn [dget]; repeat match goal with |- context [eq_dec ?a ?b] => destruct (eq_dec a b); try congruence end.
Lemma coord_geo (c : bool) ds d1 rho : renamed rho ds d1 -> (forall n, rho n = n \/ (n = "lat" /\ rho n = "latitude") \/ (n = "lon" /\ rho n = "longitude")) ->
  (coordinate_of d1 "prediction_timedelta" <-> coordinate_of ds "prediction_timedelta").
Proof.
  intros H Hr. rewrite (coord_of_renamed _ _ _ H). split.
  - intros (n & I & E). destruct (Hr n) as [En|[[_ En]|[_ En]]]; [rewrite En in E; subst; auto|rewrite En in E; discriminate|rewrite En in E; discriminate].
  - intros I. exists "prediction_timedelta". split; auto. destruct (Hr "prediction_timedelta") as [->|[[E _]|[E _]]]; [reflexivity|discriminate|discriminate].
Qed.
Lemma rename_dataset_spec o ds out : rename_dataset ds (o_rename_dimensions o) (o_rename_variables o) (o_convert_lat_lon o) = Ok out ->
  exists rho, asked_names o ds rho /\ renamed rho ds out.
Proof.
  unfold rename_dataset. intros H.
  match type of H with bind ?x _ = _ => destruct x as [d1|] eqn:E1; [|discriminate] end. cbn [bind] in H.
  match type of H with bind ?x _ = _ => destruct x as [d2|] eqn:E2; [|discriminate] end. cbn [bind] in H.
  assert (exists geo, renamed geo ds d1 /\ geographic (o_convert_lat_lon o = true /\ coordinate_of ds "lat" /\ coordinate_of ds "lon") geo /\
    (forall n, geo n = n \/ (n = "lat" /\ geo n = "latitude") \/ (n = "lon" /\ geo n = "longitude"))) as (geo & R1 & G & Gc).
  { destruct (o_convert_lat_lon o); cbn [andb] in E1.
    - destruct (is_coord ds "lat" && is_coord ds "lon") eqn:B; cbn [andb] in E1.
      + apply andb_true_iff in B. rewrite !is_coord_iff in B. apply rename_ds_spec in E1. destruct E1 as [_ R1]. eexists. split; [exact R1|]. split; [split|].
        * intros _. split; reflexivity.
        * intros n Hn. destruct (Hn (conj eq_refl B)) as [A1 A2]. name_cases; reflexivity.
        * intros n. name_cases; auto.
      + injection E1 as <-. exists (fun n => n). split; [apply renamed_self|]. split; [split; auto|auto]. intros (_ & A1 & A2). rewrite <- is_coord_iff in A1, A2. rewrite A1, A2 in B. discriminate.
    - injection E1 as <-. exists (fun n => n). split; [apply renamed_self|]. split; [split; auto|auto]. intros (A1 & _). discriminate. }
  assert (exists time, renamed time d1 d2 /\ match o_rename_dimensions o with
    | Ecmwf => ecmwf_names (coordinate_of ds "prediction_timedelta") time | RenameMap m => by_dictionary m time | RenameNone => unchanged time | RenameOther => False end) as (time & R2 & T).
  { destruct (o_rename_dimensions o) as [|m| |]; [|apply rename_ds_spec in E2; destruct E2 as [_ R2]; eexists; split; [exact R2|apply new_name_dict]|injection E2 as <-; exists (fun n => n); split; [apply renamed_self|intros n; reflexivity]|discriminate].
    pose proof (coord_geo true _ _ _ R1 Gc) as Cp. destruct (is_coord d1 "prediction_timedelta") eqn:B; [apply is_coord_iff in B|apply is_coord_false in B]; rewrite Cp in B;
      apply rename_ds_spec in E2; destruct E2 as [_ R2]; eexists; (split; [exact R2|]); (split; [|split]).
    - intros _. split; reflexivity.
    - contradiction.
    - intros n A1 A2. specialize (A2 B). name_cases; reflexivity.
    - contradiction.
    - intros _. reflexivity.
    - intros n A1 _. name_cases; reflexivity. }
  assert (exists var, renamed var d2 out /\ match o_rename_variables o with Some m => by_dictionary m var | None => unchanged var end) as (var & R3 & V).
  { destruct (o_rename_variables o) as [m|]; [apply rename_ds_spec in H; destruct H as [_ R3]; eexists; split; [exact R3|apply new_name_dict]|injection H as <-; exists (fun n => n); split; [apply renamed_self|intros n; reflexivity]]. }
  exists (fun n => var (time (geo n))). split; [exists geo, time, var; auto|]. apply (renamed_compose (fun n => time (geo n)) var ds d2 out); auto. apply (renamed_compose geo time ds d1 d2); auto.
Qed.
Lemma rename_dataset_err ds rd rv c e : rename_dataset ds rd rv c = Err e -> e = ValueError.
Proof.
  unfold rename_dataset. match goal with |- bind ?x _ = _ -> _ => destruct x as [d1|] eqn:E1 end; cbn [bind].
  - match goal with |- bind ?x _ = _ -> _ => destruct x as [d2|] eqn:E2 end; cbn [bind].
    + destruct rv; [apply rename_ds_err|discriminate].
    + intros [= <-]. destruct rd as [|m| |]; [destruct (is_coord d1 _); apply (rename_ds_err _ _ _ E2)|apply (rename_ds_err _ _ _ E2)|discriminate|congruence].
  - intros [= <-]. destruct (_ && _) in E1; [apply (rename_ds_err _ _ _ E1)|discriminate].
Qed.

(** ** Arrays *)
(** Distinct dimensions, values that depend on them only. *)
Definition tidy (a : da) : Prop :=
  NoDup (dnames a) /\ (forall e e', (forall d, In d (dnames a) -> e d = e' d) -> get a e = get a e').
Lemma wf_tidy a : wf a -> tidy a.
Proof. intros (A & _ & B). split; auto. Qed.
Lemma tidy_ren ds v a rho : In (v, a) ds -> inj_on ds rho -> tidy a -> tidy (ren rho a).
Proof.
  intros I J [N L]. split.
  - rewrite dnames_ren. apply NoDup_map_on; auto. intros n n' A A' E. apply J; auto; right; exists v, a; auto.
  - intros e e' H. cbn [ren get]. apply L. intros d Id. apply H. rewrite dnames_ren. apply in_map, Id.
Qed.
Lemma wf_ren ds v a rho : In (v, a) ds -> inj_on ds rho -> wf a -> wf (ren rho a).
Proof.
  intros I J W. destruct (tidy_ren _ _ _ _ I J (wf_tidy _ W)) as [A B]. split; auto. split; auto. destruct W as (_ & L & _). intros d ls K. cbn [ren dims] in K. apply in_map_iff in K. destruct K as ([n l] & [= <- <-] & K). apply (L n l K).
Qed.
Lemma keys_renamed rho ds out : renamed rho ds out -> keys out = map rho (keys ds).
Proof. intros [_ ->]. unfold keys. rewrite !map_map. reflexivity. Qed.
Lemma dataset_renamed rho ds out : dataset ds -> renamed rho ds out -> dataset out.
Proof.
  intros [N W] R. split.
  - rewrite (keys_renamed _ _ _ R). apply NoDup_map_on; auto. intros n n' A A' E. destruct R as [J _]. apply J; auto; left; auto.
  - destruct R as [J ->]. intros v b I. apply in_map_iff in I. destruct I as ([v0 a] & [= <- <-] & I). apply (wf_ren ds v0); auto. apply (W v0 a I).
Qed.
Lemma dget_renamed rho ds out v a : renamed rho ds out -> dget ds v = Some a -> dget out (rho v) = Some (ren rho a).
Proof.
  intros [J ->] G. assert (forall l : vars da, incl l ds -> dget l v = Some a -> dget (map (fun kv => (rho (fst kv), ren rho (snd kv))) l) (rho v) = Some (ren rho a)) as Q; [|apply Q; auto; intros x; auto].
  assert (name_of ds v) as Nv by (left; apply (dget_Some_keys _ _ G)). induction l as [|[k x] l IH]; intros Hi H; [discriminate|]. cbn [map fst snd dget] in *.
  destruct (eq_dec v k) as [->|Ne].
  - injection H as ->. destruct (eq_dec (rho k) (rho k)); [reflexivity|congruence].
  - destruct (eq_dec (rho v) (rho k)) as [E|_]; [|apply IH; auto; intros y Iy; apply Hi; right; auto].
    exfalso. apply Ne. apply J; auto. left. apply (in_map fst ds (k, x)). apply Hi. left. reflexivity.
Qed.
Lemma dget_renamed_inv rho ds out v' b : renamed rho ds out -> dget out v' = Some b -> exists v a, dget ds v = Some a /\ v' = rho v /\ b = ren rho a.
Proof.
  intros [J ->]. clear J. induction ds as [|[k x] ds IH]; [discriminate|]. cbn [map fst snd dget]. destruct (eq_dec v' (rho k)) as [->|Ne].
  - intros [= <-]. exists k, x. destruct (eq_dec k k); [auto|congruence].
  - intros H. destruct (IH H) as (v & a & G & -> & ->). exists v, a. split; auto. destruct (eq_dec v k) as [->|]; [congruence|exact G].
Qed.

(** ** Selection of variables *)
Lemma select_variables_spec names ds out : select_variables names ds = Ok out ->
  keys out = nodup string_dec names /\ forall v, (In v names -> dget out v = dget ds v /\ exists a, dget ds v = Some a).
Proof.
  unfold select_variables. intros H. assert (keys out = nodup string_dec names) as K.
  { generalize (nodup string_dec names) out H. clear. intros l. induction l as [|v l IH]; intros out H; [injection H as <-; reflexivity|]. cbn [mapM] in H.
    destruct (dgetE ds v); [|discriminate]. cbn [bind] in H. destruct (mapM _ l) eqn:E; [|discriminate]. injection H as <-. change (v :: keys a0 = v :: l). f_equal. apply IH. reflexivity. }
  split; auto. intros v I. apply (nodup_In string_dec) in I. rewrite <- K in I. apply keys_dget in I. destruct I as [a G]. rewrite G. pose proof (dget_In _ _ G) as Ia.
  destruct (mapM_In _ _ _ H _ Ia) as (v0 & _ & E). unfold dgetE in E. destruct (dget ds v0) eqn:E0; [|discriminate]. injection E as -> ->. rewrite E0. eauto.
Qed.
Lemma select_variables_sub names ds out v a : select_variables names ds = Ok out -> dget out v = Some a -> dget ds v = Some a.
Proof.
  intros H G. destruct (select_variables_spec _ _ _ H) as [K S]. assert (In v names) as I. { apply (nodup_In string_dec). rewrite <- K. apply (dget_Some_keys _ _ G). }
  destruct (S v I) as [E _]. congruence.
Qed.
Lemma select_variables_err names ds e : select_variables names ds = Err e -> e = KeyError.
Proof.
  unfold select_variables. generalize (nodup string_dec names). intros l. induction l as [|v l IH]; [discriminate|]. cbn [mapM]. unfold dgetE at 1. destruct (dget ds v); cbn [bind].
  - destruct (mapM _ l); cbn [bind]; [discriminate|]. intros [= <-]. apply IH. reflexivity.
  - intros [= <-]. reflexivity.
Qed.
Lemma dataset_select names ds out : dataset ds -> select_variables names ds = Ok out -> dataset out.
Proof.
  intros [N W] H. destruct (select_variables_spec _ _ _ H) as [K S]. assert (NoDup (keys out)) as No by (rewrite K; apply NoDup_nodup). split; auto.
  intros v a I. apply (In_dget _ _ _ No) in I. apply (W v a). apply dget_In. apply (select_variables_sub _ _ _ _ _ H I).
Qed.
