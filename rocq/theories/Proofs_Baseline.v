(** Proofs about baseline_comparison.py. *)
From Coq Require Import String List Bool FinFun.
Import ListNotations.
From Verif Require Import Prelude Values Model_XArray Model_Tree Proofs_Tree Model_MetricsBase Model_Aggregation Model_Wrappers
  Model_Baseline Spec_Baseline.
Local Open Scope string_scope.
Local Open Scope list_scope.

Lemma strip_app p s : strip_prefix p (p ++ s)%string = Some s.
Proof. induction p as [|a p IH]; [reflexivity|]. cbn. rewrite Ascii.eqb_refl. exact IH. Qed.
Lemma strip_Some p s r : strip_prefix p s = Some r -> s = (p ++ r)%string.
Proof.
  revert s. induction p as [|a p IH]; intros [|b s]; cbn; try congruence.
  destruct (Ascii.eqb_spec a b); [|discriminate]. intros H. subst. f_equal. now apply IH.
Qed.
Lemma app_prefix_inj p a b : (p ++ a = p ++ b)%string -> a = b.
Proof. induction p as [|c p IH]; [auto|]. cbn. intros [= H]. auto. Qed.
Lemma main_ne_baseline a b : (main_ ++ a)%string <> (baseline_ ++ b)%string.
Proof. discriminate. Qed.

Lemma keys_prefixed {A B} p (f : A -> B) l : keys (prefixed p f l) = map (fun k => (p ++ k)%string) (keys l).
Proof. unfold keys, prefixed. now rewrite !map_map. Qed.
Lemma NoDup_keys_prefixed {A B} p (f : A -> B) l : NoDup (keys l) -> NoDup (keys (prefixed p f l)).
Proof.
  rewrite keys_prefixed. apply FinFun.Injective_map_NoDup. intros a b. apply app_prefix_inj.
Qed.
Lemma NoDup_both {A B C} (f : A -> C) (g : B -> C) l l' : NoDup (keys l) -> NoDup (keys l') ->
  NoDup (map fst (prefixed main_ f l ++ prefixed baseline_ g l')).
Proof.
  intros N N'. rewrite map_app. change (NoDup (keys (prefixed main_ f l) ++ keys (prefixed baseline_ g l'))).
  pose proof (NoDup_keys_prefixed main_ f l N) as M. pose proof (NoDup_keys_prefixed baseline_ g l' N') as M'.
  assert (forall x, In x (keys (prefixed main_ f l)) -> ~ In x (keys (prefixed baseline_ g l'))) as D.
  { intros x. rewrite !keys_prefixed, !in_map_iff. intros (a & <- & _) (b & E & _). now apply (main_ne_baseline a b). }
  induction (keys (prefixed main_ f l)) as [|x t IH]; [exact M'|]. inversion M; subst. cbn. constructor.
  - rewrite in_app_iff. intros [I|I]; [contradiction|]. apply (D x); cbn; auto.
  - apply IH; auto. intros y Hy. apply D. cbn; auto.
Qed.

Lemma dget_app_l {V} (a b : dict string V) k v : dget a k = Some v -> dget (a ++ b) k = Some v.
Proof. induction a as [|[k' v'] a IH]; [discriminate|]. cbn. destruct (eq_dec k k'); auto. Qed.
Lemma dget_app_r {V} (a b : dict string V) k : dget a k = None -> dget (a ++ b) k = dget b k.
Proof. induction a as [|[k' v'] a IH]; [reflexivity|]. cbn. destruct (eq_dec k k'); [discriminate|auto]. Qed.
Lemma dget_prefixed {A B} p (f : A -> B) l k : dget (prefixed p f l) (p ++ k)%string = option_map f (dget l k).
Proof.
  induction l as [|[k' v] l IH]; [reflexivity|]. cbn. destruct (eq_dec (p ++ k)%string (p ++ k')%string) as [E|E].
  - apply app_prefix_inj in E. destruct (eq_dec k k'); [reflexivity|contradiction].
  - destruct (eq_dec k k'); [subst; contradiction|]. exact IH.
Qed.
Lemma dget_other {A B} p q (f : A -> B) l k : (forall a b, (p ++ a)%string <> (q ++ b)%string) -> dget (prefixed p f l) (q ++ k)%string = None.
Proof.
  intros H. apply dget_None. rewrite keys_prefixed, in_map_iff. intros (x & E & _). now apply (H x k).
Qed.
Lemma dget_main {A B C} (f : A -> C) (g : B -> C) l l' k :
  dget (prefixed main_ f l ++ prefixed baseline_ g l') (main_ ++ k)%string = option_map f (dget l k).
Proof.
  rewrite <- (dget_prefixed main_ f). destruct (dget (prefixed main_ f l) (main_ ++ k)%string) as [v|] eqn:E.
  - now apply dget_app_l.
  - rewrite dget_app_r; auto. apply dget_other. intros a b H. symmetry in H. now apply main_ne_baseline in H.
Qed.
Lemma dget_baseline {A B C} (f : A -> C) (g : B -> C) l l' k :
  dget (prefixed main_ f l ++ prefixed baseline_ g l') (baseline_ ++ k)%string = option_map g (dget l' k).
Proof.
  rewrite dget_app_r; [apply dget_prefixed|]. apply dget_other. apply main_ne_baseline.
Qed.

Lemma mapM_app {A B} (f : A -> result B) l l' : mapM f (l ++ l') = do a <- mapM f l; do b <- mapM f l'; Ok (a ++ b).
Proof.
  induction l as [|x l IH]; [cbn; now destruct (mapM f l')|]. cbn. destruct (f x); [|reflexivity]. cbn. rewrite IH.
  destruct (mapM f l); [|reflexivity]. cbn. destruct (mapM f l'); reflexivity.
Qed.
Lemma mapM_prefixed {A B C} p (f : string * A -> result (string * C)) (g : string * A -> result (string * C)) (h : B -> A) (l : list (string * B)) :
  (forall k v, f ((p ++ k)%string, v) = do r <- g (k, v); Ok ((p ++ fst r)%string, snd r)) ->
  mapM f (prefixed p h l) = do r <- mapM (fun kv => g (fst kv, h (snd kv))) l; Ok (prefixed p (fun v => v) r).
Proof.
  intros H. induction l as [|[k v] l IH]; [reflexivity|]. cbn [prefixed map mapM fst snd]. rewrite H. destruct (g (k, h v)) as [[k' v']|]; [|reflexivity].
  cbn. fold (@prefixed B A p h l). rewrite IH. destruct (mapM _ l); reflexivity.
Qed.

(** One statistic's mean. *)
Definition stat_mean (w : list (string * tree da)) (kt : string * tree da) : result (string * vars da) :=
  do o <- dgetE w (fst kt);
  do b <- map_first (fun ss => do a <- arrays ss; match a with [p; q] => Ok (binop vdiv p q) | _ => Err TypeError end) rebuild_ds (snd kt) [o];
  match b with
  | Dict vs => do r <- mapM (fun va => match snd va with Leaf a => Ok (fst va, a) | _ => Err TypeError end) vs; Ok (fst kt, r)
  | _ => Err TypeError
  end.
Definition means (s : state) : result (dict string (vars da)) := do m <- mean_statistics s; nested m.

Lemma means_iff ws w n : means (Some (Dict ws, Dict w)) = Ok n <-> mapM (stat_mean w) ws = Ok n.
Proof.
  unfold means, mean_statistics, map_structure. rewrite map_first_Dict. set (F := fun ss => _). revert n.
  induction ws as [|[k t] ws IH]; intros n; [reflexivity|].
  cbn [mapM go_dict]. fold (go_dict F rebuild_ds [Dict w]). unfold stat_mean at 1. cbn [fst snd mapM child]. fold F.
  destruct (dgetE w k) as [o|]; [|cbn; split; discriminate]. cbn [bind].
  destruct (map_first F _ t [o]) as [b|]; [|cbn; split; discriminate]. cbn [bind].
  destruct (go_dict F rebuild_ds [Dict w] ws) as [r|]; cbn [bind] in IH |- *.
  - cbn [nested mapM fst snd] in IH |- *. destruct b as [a|vs|ts|ds]; cbn; try (split; discriminate).
    destruct (mapM _ vs) as [x|]; cbn; [|split; discriminate]. specialize (IH (match n with [] => [] | _ :: t => t end)).
    split.
    + intros H. destruct (mapM _ r) as [y|] in IH, H; [|discriminate]. cbn in H. injection H as <-. cbn in IH. destruct IH as [IH _]. now rewrite IH.
    + intros H. destruct (mapM (stat_mean w) ws) as [y|]; [|discriminate]. cbn in H. injection H as <-. cbn in IH. destruct IH as [_ IH]. now rewrite IH.
  - split; [discriminate|]. intros H. exfalso.
    assert (exists x y, mapM (stat_mean w) ws = Ok y /\ n = x :: y) as (x & y & E & ->).
    { destruct b as [a|vs|ts|ds]; cbn in H; try discriminate. destruct (mapM _ vs); cbn in H; [|discriminate].
      destruct (mapM (stat_mean w) ws); cbn in H; [|discriminate]. injection H as <-. eauto. }
    apply IH in E. discriminate.
Qed.

Lemma dgetE_Some {V} (d : dict string V) k v : dgetE d k = Ok v <-> dget d k = Some v.
Proof. unfold dgetE. destruct (dget d k); split; congruence. Qed.
Lemma dgetE_eq {V} (d d' : dict string V) k k' : dget d k = dget d' k' -> dgetE d k = dgetE d' k'.
Proof. unfold dgetE. now intros ->. Qed.
Lemma option_map_id {A} (x : option A) : option_map (fun v => v) x = x.
Proof. now destruct x. Qed.
Lemma bind_Ok {A B} (r : result A) (f : A -> result B) y : bind r f = Ok y <-> exists x, r = Ok x /\ f x = Ok y.
Proof. destruct r; cbn; split; [eauto|intros (x & [= <-] & H); exact H|discriminate|intros (x & H & _); discriminate]. Qed.

Lemma combined_means ws w bws bw c n : NoDup (keys ws) -> NoDup (keys w) -> NoDup (keys bws) -> NoDup (keys bw) ->
  combine_aggregation_states (Some (Dict ws, Dict w)) (Some (Dict bws, Dict bw)) = Ok c ->
  (means c = Ok n <-> exists n1 n2, means (Some (Dict ws, Dict w)) = Ok n1 /\ means (Some (Dict bws, Dict bw)) = Ok n2 /\
                      n = prefixed main_ (fun v => v) n1 ++ prefixed baseline_ (fun v => v) n2).
Proof.
  intros N1 N2 N3 N4 H. cbn in H. injection H as <-.
  rewrite !dict_of_NoDup by (apply NoDup_both; assumption).
  rewrite means_iff. setoid_rewrite means_iff. rewrite mapM_app.
  rewrite (mapM_prefixed main_ _ (stat_mean w)).
  2:{ intros k v. unfold stat_mean. cbn [fst snd]. rewrite (dgetE_eq _ w _ k). 2:{ rewrite dget_main. apply option_map_id. }
      destruct (dgetE w k); [|reflexivity]. cbn [bind]. destruct (map_first _ _ v _) as [b|]; [|reflexivity]. cbn [bind].
      destruct b; try reflexivity. destruct (mapM _ _); reflexivity. }
  rewrite (mapM_prefixed baseline_ _ (stat_mean bw)).
  2:{ intros k v. unfold stat_mean. cbn [fst snd]. rewrite (dgetE_eq _ bw _ k). 2:{ rewrite dget_baseline. apply option_map_id. }
      destruct (dgetE bw k); [|reflexivity]. cbn [bind]. destruct (map_first _ _ v _) as [b|]; [|reflexivity]. cbn [bind].
      destruct b; try reflexivity. destruct (mapM _ _); reflexivity. }
  rewrite (mapM_ext _ (stat_mean w)) by (intros [? ?] _; reflexivity). rewrite (mapM_ext _ (stat_mean bw) bws) by (intros [? ?] _; reflexivity).
  rewrite !bind_Ok. split.
  - intros (x & H & K). apply bind_Ok in H. destruct H as (n1 & H1 & [= <-]). apply bind_Ok in K. destruct K as (y & K & [= <-]).
    apply bind_Ok in K. destruct K as (n2 & H2 & [= <-]). eauto.
  - intros (n1 & n2 & -> & -> & ->). eexists. split; [reflexivity|]. reflexivity.
Qed.

Lemma state_metrics_means metrics s r : state_metrics metrics s = Ok r <-> exists n, means s = Ok n /\ compute_metrics_from_statistics metrics n = Ok r.
Proof.
  unfold state_metrics, means. rewrite bind_Ok. split.
  - intros (m & E & K). apply bind_Ok in K. destruct K as (n & K & L). exists n. split; auto. apply bind_Ok. eauto.
  - intros (n & E & K). apply bind_Ok in E. destruct E as (m & E & L). exists m. split; auto. apply bind_Ok. eauto.
Qed.

Lemma unprefixed_main {A} (r1 r2 : list (string * A)) : NoDup (keys r1) -> 
  unprefixed main_ (prefixed main_ (fun v => v) r1 ++ prefixed baseline_ (fun v => v) r2) = r1.
Proof.
  intros N. unfold unprefixed. rewrite flat_map_app. rewrite <- (dict_of_NoDup r1) at 2 by exact N. f_equal.
  assert (forall l : list (string * A), flat_map (fun kv => match strip_prefix main_ (fst kv) with Some n => [(n, snd kv)] | None => [] end) (prefixed baseline_ (fun v => v) l) = []) as ->.
  { induction l as [|[k v] l IH]; [reflexivity|]. cbn [prefixed map flat_map fst snd]. exact IH. }
  rewrite app_nil_r. clear N. induction r1 as [|[k v] l IH]; [reflexivity|]. cbn [prefixed map flat_map fst snd]. rewrite strip_app. cbn [app]. now f_equal.
Qed.
Lemma unprefixed_baseline {A} (r1 r2 : list (string * A)) : NoDup (keys r2) -> 
  unprefixed baseline_ (prefixed main_ (fun v => v) r1 ++ prefixed baseline_ (fun v => v) r2) = r2.
Proof.
  intros N. unfold unprefixed. rewrite flat_map_app. rewrite <- (dict_of_NoDup r2) at 2 by exact N. f_equal.
  assert (forall l : list (string * A), flat_map (fun kv => match strip_prefix baseline_ (fst kv) with Some n => [(n, snd kv)] | None => [] end) (prefixed main_ (fun v => v) l) = []) as ->.
  { induction l as [|[k v] l IH]; [reflexivity|]. cbn [prefixed map flat_map fst snd]. exact IH. }
  cbn [app]. clear N. induction r2 as [|[k v] l IH]; [reflexivity|]. cbn [prefixed map flat_map fst snd]. rewrite strip_app. cbn [app]. now f_equal.
Qed.

Definition lookup (vals : dict string (vars da)) (kv : string * statistic da) : result (string * vars da) :=
  do x <- dgetE vals (unique_name (snd kv)); Ok (fst kv, x).
Lemma lookup_keys vals l r : mapM (lookup vals) l = Ok r -> keys r = keys l.
Proof.
  revert r. induction l as [|[k s] l IH]; intros r; cbn.
  - now intros [= <-].
  - unfold lookup at 1. cbn. destruct (dgetE vals (unique_name s)); [|discriminate]. cbn. destruct (mapM _ l); [|discriminate].
    intros [= <-]. cbn. f_equal. now apply IH.
Qed.

Lemma comparison_metric m b cmp n1 n2 v : NoDup (keys (statistics m)) -> NoDup (keys (statistics b)) ->
  (compute_metric_from_statistics (BaselineComparison m (Some b) cmp) (prefixed main_ (fun v => v) n1 ++ prefixed baseline_ (fun v => v) n2) = Ok v
   <-> exists x y, compute_metric_from_statistics m n1 = Ok x /\ compute_metric_from_statistics b n2 = Ok y /\ cmp x y = Ok v).
Proof.
  intros N N'. unfold compute_metric_from_statistics. cbn [BaselineComparison statistics values_from_mean_statistics].
  unfold comparison_statistics. rewrite dict_of_NoDup by (apply NoDup_both; assumption).
  set (vals := prefixed main_ _ n1 ++ _). fold (lookup vals) (lookup n1) (lookup n2). rewrite mapM_app.
  rewrite (mapM_prefixed main_ (lookup vals) (fun kv => do x <- dgetE vals (unique_name (snd kv)); Ok (fst kv, x))).
  2:{ intros k s. unfold lookup. cbn [fst snd]. destruct (dgetE _ _); reflexivity. }
  rewrite (mapM_prefixed baseline_ (lookup vals) (fun kv => do x <- dgetE vals (unique_name (snd kv)); Ok (fst kv, x))).
  2:{ intros k s. unfold lookup. cbn [fst snd]. destruct (dgetE _ _); reflexivity. }
  rewrite (mapM_ext _ (lookup n1)).
  2:{ intros [k s] _. unfold lookup. cbn [fst snd renamed_statistic RenamedStatistic unique_name].
      rewrite (dgetE_eq _ n1 _ (unique_name s)); [reflexivity|]. unfold vals. rewrite dget_main. apply option_map_id. }
  rewrite (mapM_ext _ (lookup n2) (statistics b)).
  2:{ intros [k s] _. unfold lookup. cbn [fst snd renamed_statistic RenamedStatistic unique_name].
      rewrite (dgetE_eq _ n2 _ (unique_name s)); [reflexivity|]. unfold vals. rewrite dget_baseline. apply option_map_id. }
  rewrite bind_Ok. split.
  - intros (r & H & V). apply bind_Ok in H. destruct H as (x1 & H & K). apply bind_Ok in H. destruct H as (r1 & E1 & [= <-]). apply bind_Ok in K. destruct K as (x2 & K & [= <-]).
    apply bind_Ok in K. destruct K as (r2 & E2 & [= <-]). unfold comparison_values in V.
    rewrite unprefixed_main in V by (rewrite (lookup_keys _ _ _ E1); exact N).
    rewrite unprefixed_baseline in V by (rewrite (lookup_keys _ _ _ E2); exact N').
    apply bind_Ok in V. destruct V as (x & V1 & V). apply bind_Ok in V. destruct V as (y & V2 & V). exists x, y.
    split; [apply bind_Ok; exists r1; auto|split; [apply bind_Ok; exists r2; auto|exact V]].
  - intros (x & y & H1 & H2 & V). apply bind_Ok in H1. destruct H1 as (r1 & E1 & V1). apply bind_Ok in H2. destruct H2 as (r2 & E2 & V2). exists (prefixed main_ (fun v => v) r1 ++ prefixed baseline_ (fun v => v) r2).
    split.
    + rewrite E1. cbn [bind]. rewrite E2. reflexivity.
    + unfold comparison_values.
      rewrite unprefixed_main by (rewrite (lookup_keys _ _ _ E1); exact N).
      rewrite unprefixed_baseline by (rewrite (lookup_keys _ _ _ E2); exact N').
      rewrite V1. cbn [bind]. rewrite V2. exact V.
Qed.

Lemma value_for_means m s v : value_for m s v <-> exists n, means s = Ok n /\ compute_metric_from_statistics m n = Ok v.
Proof.
  unfold value_for. rewrite state_metrics_means. split; intros (n & E & K); exists n; split; auto.
  - cbn in K. destruct (compute_metric_from_statistics m n); [|discriminate]. cbn in K. congruence.
  - cbn. rewrite K. reflexivity.
Qed.
