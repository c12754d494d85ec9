From Coq Require Import String Ascii List Bool Lia Arith.
Import ListNotations.
From Verif Require Import Prelude Values Model_XArray Spec_XArray Proofs_XArray Model_Tree Spec_Tree Proofs_Tree Model_Aggregation Spec_Aggregation Spec_RoundTrip Proofs_AggState.
Local Open Scope string_scope.
Local Open Scope list_scope.

(** ** Strings *)
Lemma has_char_occurs c s : has_char c s = true <-> occurs c s.
Proof.
  induction s as [|a s IH]; simpl; [split; [discriminate|tauto]|]. rewrite orb_true_iff, IH, Ascii.eqb_eq. reflexivity.
Qed.
Lemma occurs_app c s t : occurs c (s ++ t)%string <-> occurs c s \/ occurs c t.
Proof. induction s as [|a s IH]; simpl; [tauto|]. rewrite IH. tauto. Qed.
Lemma str_app_assoc (a b c : string) : ((a ++ b) ++ c = a ++ (b ++ c))%string.
Proof. induction a; simpl; [reflexivity|]. now rewrite IHa. Qed.

(** [c]a[c]b... *)
Fixpoint joinp (c : ascii) (ps : list string) : string :=
  match ps with [] => "" | p :: ps' => String c (p ++ joinp c ps') end.
Lemma joinp_app c ps qs : joinp c (ps ++ qs) = (joinp c ps ++ joinp c qs)%string.
Proof. induction ps as [|p ps IH]; simpl; [reflexivity|]. rewrite IH, str_app_assoc. reflexivity. Qed.

Lemma replace_none c d s : ~ occurs c s -> replace_char c d s = s.
Proof.
  induction s as [|a s IH]; simpl; intros H; [reflexivity|].
  destruct (Ascii.eqb_spec a c); [exfalso; auto|]. rewrite IH; auto.
Qed.
Lemma replace_app c d s t : replace_char c d (s ++ t)%string = (replace_char c d s ++ replace_char c d t)%string.
Proof. induction s as [|a s IH]; simpl; [reflexivity|]. now rewrite IH. Qed.
Lemma replace_joinp c d ps : Forall (fun p => ~ occurs c p) ps -> replace_char c d (joinp c ps) = joinp d ps.
Proof.
  induction 1 as [|p ps Hp _ IH]; simpl; [reflexivity|]. rewrite Ascii.eqb_refl, replace_app, IH, (replace_none _ _ _ Hp). reflexivity.
Qed.
Lemma lstrip_id c s : (match s with String a _ => a <> c | EmptyString => True end) -> lstrip c s = s.
Proof. destruct s as [|a s]; simpl; [reflexivity|]. intros H. destruct (Ascii.eqb_spec a c); [tauto|reflexivity]. Qed.

Definition tailstr (c : ascii) (ps : list string) : string :=
  match ps with [] => "" | p :: ps' => (p ++ joinp c ps')%string end.
Lemma lstrip_joinp c ps : Forall (fun p => p <> "" /\ ~ occurs c p) ps -> lstrip c (joinp c ps) = tailstr c ps.
Proof.
  intros H. destruct ps as [|p ps]; simpl; [reflexivity|]. rewrite Ascii.eqb_refl. apply lstrip_id.
  inversion H as [|? ? [H1 H2] _]; subst. destruct p as [|a p]; [congruence|]. simpl in *. tauto.
Qed.
Lemma replace_tail c d ps : Forall (fun p => ~ occurs c p) ps -> replace_char c d (tailstr c ps) = tailstr d ps.
Proof.
  intros H. destruct ps as [|p ps]; simpl; [reflexivity|]. inversion H; subst.
  rewrite replace_app, replace_joinp, replace_none; auto.
Qed.

Lemma rsplit1_none c s : ~ occurs c s -> rsplit1 c s = None.
Proof.
  induction s as [|a s IH]; simpl; intros H; [reflexivity|]. rewrite IH by tauto.
  destruct (Ascii.eqb_spec a c); [exfalso; auto|reflexivity].
Qed.
Lemma rsplit1_app c u v : ~ occurs c v -> rsplit1 c (u ++ String c v)%string = Some (u, v).
Proof.
  intros H. induction u as [|a u IH]; simpl.
  - rewrite rsplit1_none by auto. now rewrite Ascii.eqb_refl.
  - now rewrite IH.
Qed.
Lemma split_char_no c s : ~ occurs c s -> split_char c s = [s].
Proof.
  induction s as [|a s IH]; simpl; intros H; [reflexivity|]. destruct (Ascii.eqb_spec a c); [exfalso; auto|].
  rewrite IH; auto.
Qed.
Lemma split_char_app c s ps : ~ occurs c s -> split_char c (s ++ joinp c ps)%string = s :: match ps with [] => [] | p :: ps' => split_char c (p ++ joinp c ps')%string end.
Proof.
  induction s as [|a s IH]; simpl; intros H.
  - destruct ps; simpl; [reflexivity|]. now rewrite Ascii.eqb_refl.
  - destruct (Ascii.eqb_spec a c); [exfalso; auto|]. rewrite IH by tauto. reflexivity.
Qed.
Lemma split_joinp c ps : Forall (fun p => ~ occurs c p) ps -> split_char c (joinp c ps) = "" :: ps.
Proof.
  intros H. change (joinp c ps) with ("" ++ joinp c ps)%string. rewrite split_char_app by (simpl; auto). f_equal.
  induction H as [|p ps Hp H IH]; [reflexivity|]. rewrite split_char_app by auto. now rewrite IH.
Qed.
Definition pathname (ps : list string) : string := match joinp slash ps with EmptyString => "/" | s => s end.
Lemma pathname_spec ps : Forall (fun p => p <> "" /\ ~ occurs slash p) ps -> 
  pathname ps = match ps with [] => "/" | _ => joinp slash ps end.
Proof. unfold pathname. destruct ps; reflexivity. Qed.
Lemma path_parts_pathname ps : Forall (fun p => p <> "" /\ p <> "." /\ ~ occurs slash p) ps ->
  path_parts (String slash (tailstr slash ps)) = ps.
Proof.
  intros H. unfold path_parts. destruct ps as [|p ps]; [reflexivity|].
  change (String slash (tailstr slash (p :: ps))) with (joinp slash (p :: ps)).
  rewrite split_joinp by (eapply Forall_impl; [|exact H]; simpl; tauto).
  change (filter (fun x => negb (String.eqb x "") && negb (String.eqb x ".")) ("" :: p :: ps)) with (filter (fun x => negb (String.eqb x "") && negb (String.eqb x ".")) (p :: ps)).
  apply filter_true. intros x Hx. rewrite Forall_forall in H. destruct (H x Hx) as (H1 & H2 & _).
  apply andb_true_iff. split; apply negb_true_iff, String.eqb_neq; auto.
Qed.

(** ** DataTrees *)
Section DtInd.
  Variable P : dtree -> Prop.
  Hypothesis H : forall data cs, Forall (fun kn => P (snd kn)) cs -> P (DT data cs).
  Fixpoint dtree_ind' (d : dtree) : P d :=
    match d with
    | DT data cs => H data cs ((fix go l : Forall (fun kn => P (snd kn)) l :=
        match l with [] => Forall_nil _ | kn :: l' => Forall_cons kn (dtree_ind' (snd kn)) (go l') end) cs)
    end.
End DtInd.

Fixpoint dt_leaves (d : dtree) : list (list string * (da * da)) :=
  match d with
  | DT (Some ab) _ => [([], ab)]
  | DT None cs => flat_map (fun kn => map (fun pl => (fst kn :: fst pl, snd pl)) (dt_leaves (snd kn))) cs
  end.
Fixpoint dt_map (f : da -> da) (d : dtree) : dtree :=
  match d with
  | DT (Some (a, b)) cs => DT (Some (f a, f b)) []
  | DT None cs => DT None (map (fun kn => (fst kn, dt_map f (snd kn))) cs)
  end.
Inductive good_dt (N : string -> Prop) : dtree -> Prop :=
| GD_leaf ab : good_dt N (DT (Some ab) [])
| GD_node cs : NoDup (map fst cs) -> Forall (fun kn => N (fst kn) /\ good_dt N (snd kn)) cs -> good_dt N (DT None cs).
Inductive nonempty_dt : dtree -> Prop :=
| ND_leaf ab cs : nonempty_dt (DT (Some ab) cs)
| ND_node kn cs : Forall (fun kn => nonempty_dt (snd kn)) (kn :: cs) -> nonempty_dt (DT None (kn :: cs)).
Definition inner_nonempty_dt (d : dtree) : Prop :=
  match d with DT _ cs => Forall (fun kn => nonempty_dt (snd kn)) cs end.

Lemma leaves_nonempty d : nonempty_dt d -> dt_leaves d <> [].
Proof.
  induction d as [data cs IH] using dtree_ind'. intros Hn. inversion Hn as [|kn cs' HF]; subst; simpl; [discriminate|].
  inversion HF; subst. inversion IH; subst. destruct (dt_leaves (snd kn)) eqn:E; [exfalso; apply H3; auto|]. discriminate.
Qed.

Lemma flat_map_flat_map {A B C} (f : B -> list C) (g : A -> list B) l :
  flat_map f (flat_map g l) = flat_map (fun x => flat_map f (g x)) l.
Proof. induction l; simpl; [reflexivity|]. rewrite flat_map_app. now rewrite IHl. Qed.
Lemma flat_map_map {A B C} (f : B -> list C) (g : A -> B) l : flat_map f (map g l) = flat_map (fun x => f (g x)) l.
Proof. induction l; simpl; congruence. Qed.
Lemma map_flat_map {A B C} (f : B -> C) (g : A -> list B) l : map f (flat_map g l) = flat_map (fun x => map f (g x)) l.
Proof. induction l; simpl; [reflexivity|]. now rewrite map_app, IHl. Qed.
Lemma flat_map_ext_in {A B} (f g : A -> list B) l : (forall x, In x l -> f x = g x) -> flat_map f l = flat_map g l.
Proof. induction l; simpl; intros H; [reflexivity|]. rewrite H, IHl; auto. Qed.

(** The variables written by to_dataset. *)
Definition item_of (sep : ascii) (pl : list string * (da * da)) : list (string * da) :=
  [((tailstr sep (fst pl) ++ String sep "sum_weighted_statistics")%string, fst (snd pl));
   ((tailstr sep (fst pl) ++ String sep "sum_weights")%string, snd (snd pl))].
Definition item_fun (sep : ascii) (pd : string * option (da * da)) : list (string * da) :=
  let path := replace_char slash sep (lstrip slash (fst pd)) in
        match snd pd with
        | None => []
        | Some (a, b) =>
            [((path ++ String sep "sum_weighted_statistics")%string, a);
             ((path ++ String sep "sum_weights")%string, b)]
        end.

Lemma items_leaves sep d : good_dt (plain_name sep) d -> forall ps, Forall (plain_name sep) ps ->
  flat_map (item_fun sep) (tree_items (joinp slash ps) d) =
  flat_map (fun pl => item_of sep (ps ++ fst pl, snd pl)) (dt_leaves d).
Proof.
  induction d as [data cs IH] using dtree_ind'. intros Hg ps Hps.
  assert (replace_char slash sep (lstrip slash (match joinp slash ps with EmptyString => "/" | _ => joinp slash ps end)) = tailstr sep ps) as Hname.
  { destruct ps as [|p ps]; [reflexivity|]. change (match joinp slash (p :: ps) with EmptyString => "/" | _ => joinp slash (p :: ps) end) with (joinp slash (p :: ps)).
    rewrite lstrip_joinp by (eapply Forall_impl; [|exact Hps]; intros x (H1 & _ & _ & H2 & _); auto).
    apply replace_tail. eapply Forall_impl; [|exact Hps]; intros x (H1 & _ & _ & H2 & _); auto. }
  inversion Hg as [ab|cs' Hn HF]; subst.
  - cbn [tree_items flat_map dt_leaves]. unfold item_fun. cbn [fst snd]. rewrite Hname. destruct ab as [a b]. cbn. rewrite app_nil_r. reflexivity.
  - cbn [tree_items flat_map dt_leaves]. unfold item_fun at 1. cbn [snd app].
    rewrite !flat_map_flat_map. apply flat_map_ext_in. intros [k n] Hin. cbn [fst snd].
    rewrite Forall_forall in IH, HF. destruct (HF _ Hin) as [HN HG]. cbn [fst snd] in *.
    rewrite flat_map_map.
    replace (joinp slash ps ++ "/" ++ k)%string with (joinp slash (ps ++ [k])).
    + pose proof (IH _ Hin HG (ps ++ [k])) as IHk. cbn [snd] in IHk. rewrite IHk by (apply Forall_app; split; auto).
      apply flat_map_ext_in. intros [q l] _. cbn [fst snd]. now rewrite <- app_assoc.
    + rewrite joinp_app. simpl. assert (forall s, (s ++ "")%string = s) as E by (induction s; simpl; congruence). now rewrite E.
Qed.

(** ** Reading back: grouping *)
Definition var1 : string := "sum_weighted_statistics".
Definition var2 : string := "sum_weights".
Definition grp (pl : list string * (da * da)) : string * list (string * da) :=
  (String slash (tailstr slash (fst pl)), [(var1, fst (snd pl)); (var2, snd (snd pl))]).
Definition grp_step (sep : ascii) (r : result (list (string * list (string * da)))) (kv : string * da) :=
  do g <- r;
        match rsplit1 sep (fst kv) with
        | None => Err ValueError
        | Some (path, var) =>
            let p := String slash (replace_char sep slash path) in
            let old := match dget g p with Some d => d | None => [] end in
            Ok (dset g p (dset old var (snd kv)))
        end.

Lemma dset_new {V} (d : list (string * V)) k v : dget d k = None -> dset d k v = d ++ [(k, v)].
Proof.
  induction d as [|[k' v'] d IH]; simpl; intros H; [reflexivity|]. destruct (eq_dec k k'); [discriminate|]. now rewrite IH.
Qed.
Lemma dget_app_last {V} (d : list (string * V)) k v : dget d k = None -> dget (d ++ [(k, v)]) k = Some v.
Proof.
  induction d as [|[k' v'] d IH]; simpl; intros H; [destruct (eq_dec k k); congruence|]. destruct (eq_dec k k'); [discriminate|]. auto.
Qed.
Lemma dset_app_last {V} (d : list (string * V)) k v v' : dget d k = None -> dset (d ++ [(k, v)]) k v' = d ++ [(k, v')].
Proof.
  induction d as [|[k' w] d IH]; simpl; intros H; [destruct (eq_dec k k); congruence|]. destruct (eq_dec k k'); [discriminate|]. now rewrite IH.
Qed.

Lemma tailstr_inj ps qs : Forall (fun p => p <> "" /\ p <> "." /\ ~ occurs slash p) ps ->
  Forall (fun p => p <> "" /\ p <> "." /\ ~ occurs slash p) qs -> tailstr slash ps = tailstr slash qs -> ps = qs.
Proof.
  intros H1 H2 E. rewrite <- (path_parts_pathname ps H1), <- (path_parts_pathname qs H2). now rewrite E.
Qed.

Lemma plain_ok sep p : plain_name sep p -> p <> "" /\ p <> "." /\ ~ occurs slash p.
Proof. intros (H1 & H2 & _ & H3 & _). auto. Qed.
Lemma plain_ok_all sep ps : Forall (plain_name sep) ps -> Forall (fun p => p <> "" /\ p <> "." /\ ~ occurs slash p) ps.
Proof. intros H. eapply Forall_impl; [|exact H]. apply plain_ok. Qed.

Lemma group_leaves sep ls : 
  ~ occurs sep var1 -> ~ occurs sep var2 ->
  Forall (fun pl => Forall (plain_name sep) (fst pl)) ls -> NoDup (map fst ls) ->
  forall acc, (forall pl, In pl ls -> dget acc (String slash (tailstr slash (fst pl))) = None) ->
  fold_left (grp_step sep) (flat_map (item_of sep) ls) (Ok acc) = Ok (acc ++ map grp ls).
Proof.
  intros V1 V2 HF Hn. induction ls as [|[ps [a b]] ls IH]; intros acc Hacc; [simpl; now rewrite app_nil_r|].
  cbn [flat_map app item_of fst snd fold_left]. inversion HF as [|? ? Hps HF']; subst. inversion Hn as [|? ? Hni Hn']; subst. cbn [fst] in *.
  assert (forall var v g, ~ occurs sep var -> grp_step sep (Ok g) ((tailstr sep ps ++ String sep var)%string, v) =
     Ok (dset g (String slash (tailstr slash ps)) (dset (match dget g (String slash (tailstr slash ps)) with Some d => d | None => [] end) var v))) as Hstep.
  { intros var v g Hv. unfold grp_step. cbn [bind fst snd]. rewrite rsplit1_app by auto.
    rewrite replace_tail by (eapply Forall_impl; [|exact Hps]; intros x (H1 & H2 & H3 & H4 & H5); auto). reflexivity. }
  pose proof (Hacc _ (or_introl eq_refl)) as Ha. cbn [fst] in Ha.
  change "sum_weighted_statistics" with var1. change "sum_weights" with var2.
  rewrite Hstep by exact V1. rewrite Ha. cbn [fst snd].
  rewrite dset_new by exact Ha. rewrite Hstep by exact V2.
  rewrite dget_app_last by exact Ha. rewrite dset_app_last by exact Ha.
  cbn [dset]. rewrite IH; auto.
  - cbn [map]. rewrite <- app_assoc. reflexivity.
  - intros [qs l] Hin. cbn [fst]. 
    assert (qs <> ps) as Hne. { intros ->. apply Hni. change ps with (fst (ps, l)). now apply in_map. }
    assert (tailstr slash qs <> tailstr slash ps) as Hne2.
    { intros E. apply Hne. apply (tailstr_inj qs ps); auto; eapply plain_ok_all; [|exact Hps].
      rewrite Forall_forall in HF'. apply (HF' _ Hin). }
    specialize (Hacc (qs, l) (or_intror Hin)). cbn [fst] in Hacc. clear - Hacc Hne2.
    induction acc as [|[k v] acc IH]; simpl in *.
    + destruct (eq_dec _ _) as [E|]; [congruence|reflexivity].
    + destruct (eq_dec (String slash (tailstr slash qs)) k); [discriminate|]. auto.
Qed.

(** ** Reading back: building the tree *)
Fixpoint build (d : dtree) : ftree :=
  match d with
  | DT (Some (a, b)) _ => FT [(var1, a); (var2, b)] []
  | DT None cs => FT [] (map (fun kn => (fst kn, build (snd kn))) cs)
  end.
Definition ins (t : ftree) (pl : list string * (da * da)) : ftree :=
  insert_at (fst pl) [(var1, fst (snd pl)); (var2, snd (snd pl))] t.

Lemma ins_under k ls : forall d cs t, dget cs k = None ->
  fold_left ins (map (fun pl => (k :: fst pl, snd pl)) ls) (FT d (cs ++ [(k, t)])) = FT d (cs ++ [(k, fold_left ins ls t)]).
Proof.
  induction ls as [|pl ls IH]; intros d cs t Hk; [reflexivity|]. cbn [map fold_left]. unfold ins at 2. cbn [fst snd insert_at].
  rewrite dget_app_last by auto. rewrite dset_app_last by auto. apply IH; auto.
Qed.
Lemma ins_under_first k ls d cs : dget cs k = None -> ls <> [] ->
  fold_left ins (map (fun pl => (k :: fst pl, snd pl)) ls) (FT d cs) = FT d (cs ++ [(k, fold_left ins ls (FT [] []))]).
Proof.
  intros Hk Hne. destruct ls as [|pl ls]; [congruence|]. cbn [map fold_left]. unfold ins at 2. cbn [fst snd insert_at]. rewrite Hk.
  rewrite ins_under by auto. reflexivity.
Qed.

Lemma build_inner N d : good_dt N d -> nonempty_dt d -> fold_left ins (dt_leaves d) (FT [] []) = build d.
Proof.
  induction d as [data cs IH] using dtree_ind'. intros Hg Hne. inversion Hg as [[a b]|cs' Hn HF]; subst; [reflexivity|].
  cbn [dt_leaves build].
  assert (Forall (fun kn => nonempty_dt (snd kn)) cs) as HN by (inversion Hne; auto).
  clear Hne Hg. 
  assert (forall cs2 acc, NoDup (map fst cs2) -> (forall kn, In kn cs2 -> In kn cs) -> (forall kn, In kn cs2 -> dget acc (fst kn) = None) ->
    fold_left ins (flat_map (fun kn => map (fun pl => (fst kn :: fst pl, snd pl)) (dt_leaves (snd kn))) cs2) (FT [] acc)
    = FT [] (acc ++ map (fun kn => (fst kn, build (snd kn))) cs2)) as K.
  { rewrite Forall_forall in IH, HF, HN. induction cs2 as [|kn cs2 IHc]; intros acc Hn2 Hin Hacc; [simpl; now rewrite app_nil_r|].
    cbn [flat_map]. rewrite fold_left_app. inversion Hn2 as [|? ? Hni Hn2']; subst.
    pose proof (Hin kn (or_introl eq_refl)) as Hkn. destruct (HF kn Hkn) as [_ HG].
    rewrite ins_under_first; [|apply Hacc; now left|now apply leaves_nonempty, HN].
    rewrite (IH kn Hkn HG (HN kn Hkn)). rewrite IHc; auto.
    - rewrite <- app_assoc. reflexivity.
    - intros; apply Hin; now right.
    - intros kn' Hkn'. pose proof (Hacc kn' (or_intror Hkn')) as Ha.
      assert (fst kn' <> fst kn) as Hne by (intros E; apply Hni; rewrite <- E; now apply in_map). clear - Ha Hne.
      induction acc as [|[k v] acc IH]; simpl in *; [destruct (eq_dec (fst kn') (fst kn)); congruence|].
      destruct (eq_dec (fst kn') k); [discriminate|]. auto. }
  rewrite (K cs []); auto.
Qed.
Lemma build_root N d : good_dt N d -> inner_nonempty_dt d -> fold_left ins (dt_leaves d) (FT [] []) = build d.
Proof.
  intros Hg Hi. destruct d as [[ab|] [|kn cs]].
  - eapply build_inner; eauto. constructor.
  - inversion Hg.
  - reflexivity.
  - eapply build_inner; eauto. constructor. exact Hi.
Qed.

Lemma from_build N d : good_dt N d -> from_ftree (build d) = Ok (from_data_tree_aux d).
Proof.
  induction d as [data cs IH] using dtree_ind'. intros Hg. inversion Hg as [[a b]|cs' Hn HF]; subst; [reflexivity|].
  cbn [build from_ftree].
  set (go := fix go (l : list (string * ftree)) : result (list (string * (tree da * tree da))) :=
    match l with [] => Ok [] | (k, n) :: l' => do r <- from_ftree n; do rs <- go l'; Ok ((k, r) :: rs) end).
  assert (go (map (fun kn => (fst kn, build (snd kn))) cs) = Ok (map (fun kn => (fst kn, from_data_tree_aux (snd kn))) cs)) as ->.
  { clear Hg Hn. induction cs as [|[k n] cs IHc]; [reflexivity|]. inversion IH; subst. inversion HF as [|? ? [? ?] ?]; subst. cbn [map fst snd go].
    simpl in *. rewrite H1 by auto. simpl. fold go. rewrite IHc; auto. }
  cbn [bind]. rewrite !map_map. reflexivity.
Qed.

(** from_dict with well-formed paths *)
Lemma from_dict_ins sep ls : Forall (fun pl => Forall (plain_name sep) (fst pl)) ls -> forall t,
  fold_left (fun r pd => do t <- r;
               if existsb (String.eqb "..") (path_parts (fst pd)) then Err KeyError
               else Ok (insert_at (path_parts (fst pd)) (snd pd) t)) (map grp ls) (Ok t) = Ok (fold_left ins ls t).
Proof.
  induction 1 as [|[ps ab] ls Hps HF IH]; intros t; [reflexivity|]. cbn [map fold_left grp fst snd bind].
  cbn [fst] in Hps. rewrite path_parts_pathname by (eapply plain_ok_all; eauto).
  assert (existsb (String.eqb "..") ps = false) as ->.
  { apply not_true_is_false. intros H. apply existsb_exists in H. destruct H as [x [Hx E]]. apply String.eqb_eq in E. subst x.
    rewrite Forall_forall in Hps. destruct (Hps _ Hx) as (_ & _ & H & _). congruence. }
  rewrite IH. reflexivity.
Qed.

Lemma leaves_plain sep d : good_dt (plain_name sep) d -> Forall (fun pl => Forall (plain_name sep) (fst pl)) (dt_leaves d).
Proof.
  induction d as [data cs IH] using dtree_ind'. intros Hg. inversion Hg as [ab|cs' Hn HF]; subst; simpl.
  - repeat constructor.
  - apply Forall_forall. intros pl Hin. apply in_flat_map in Hin. destruct Hin as [kn [Hkn Hin]]. apply in_map_iff in Hin.
    destruct Hin as [pl' [<- Hin]]. simpl. rewrite Forall_forall in IH, HF. destruct (HF kn Hkn). constructor; auto.
    specialize (IH kn Hkn H0). rewrite Forall_forall in IH. auto.
Qed.
Lemma leaves_NoDup N d : good_dt N d -> NoDup (map fst (dt_leaves d)).
Proof.
  induction d as [data cs IH] using dtree_ind'. intros Hg. inversion Hg as [ab|cs' Hn HF]; subst; simpl.
  - repeat constructor. simpl. tauto.
  - clear Hg. induction cs as [|kn cs IHc]; simpl; [constructor|].
    inversion IH; subst. inversion HF as [|? ? [? ?] ?]; subst. inversion Hn as [|? ? Hnk Hn']; subst.
    rewrite map_app. apply NoDup_app_intro; auto.
    + rewrite map_map. simpl. rewrite <- (map_map fst (fun q => fst kn :: q)).
      apply FinFun.Injective_map_NoDup; auto. intros x y [= E]. exact E.
    + intros q H' H''. rewrite map_map in H'. apply in_map_iff in H'. destruct H' as [pl [<- _]]. simpl in *.
      apply in_map_iff in H''. destruct H'' as [pl' [E Hin]]. apply in_flat_map in Hin. destruct Hin as [kn' [Hkn' Hin]].
      apply in_map_iff in Hin. destruct Hin as [pl'' [<- _]]. simpl in E. injection E as E _. apply Hnk. rewrite <- E. now apply in_map.
Qed.

Definition all_arrays (d : dtree) : list da := flat_map (fun pl => [fst (snd pl); snd (snd pl)]) (dt_leaves d).
Definition reindex (J : dimlist) (fill : val) (a : da) : da :=
  mkDa (map (fun p => (fst p, labels_of J (fst p))) (dims a)) (fun e => if in_box (dims a) e then get a e else fill) (aux a).
Lemma align_reindex fill arrs : align_outer [] fill arrs = map (reindex (fold_left (merge_dims union_labels) (map dims arrs) []) fill) arrs.
Proof. unfold align_outer. apply map_ext. intros a. unfold reindex. rewrite keep_all. reflexivity. Qed.

Lemma leaves_map f d N : good_dt N d -> dt_leaves (dt_map f d) = map (fun pl => (fst pl, (f (fst (snd pl)), f (snd (snd pl))))) (dt_leaves d).
Proof.
  induction d as [data cs IH] using dtree_ind'. intros Hg. inversion Hg as [[a b]|cs' Hn HF]; subst; [reflexivity|].
  cbn [dt_map dt_leaves]. rewrite flat_map_map, map_flat_map. apply flat_map_ext_in. intros kn Hkn. cbn [fst snd].
  rewrite Forall_forall in IH, HF. destruct (HF kn Hkn). rewrite (IH kn Hkn) by auto. rewrite !map_map. reflexivity.
Qed.
Lemma good_map f d N : good_dt N d -> good_dt N (dt_map f d).
Proof.
  induction d as [data cs IH] using dtree_ind'. intros Hg. inversion Hg as [[a b]|cs' Hn HF]; subst; simpl; [constructor|].
  constructor; [now rewrite map_map|]. rewrite Forall_forall in *. intros kn Hin. apply in_map_iff in Hin. destruct Hin as [kn' [<- Hin]]. simpl.
  destruct (HF kn' Hin). split; auto.
Qed.
Lemma nonempty_map f d : nonempty_dt d -> nonempty_dt (dt_map f d).
Proof.
  induction d as [data cs IH] using dtree_ind'. intros Hg. inversion Hg as [[a b]|cs' Hn HF]; subst; simpl; [constructor|].
  constructor. change ((fst cs', dt_map f (snd cs')) :: map (fun kn => (fst kn, dt_map f (snd kn))) Hn) with (map (fun kn => (fst kn, dt_map f (snd kn))) (cs' :: Hn)).
  rewrite Forall_forall in *. intros kn Hin. apply in_map_iff in Hin. destruct Hin as [kn' [<- Hin]]. simpl. auto.
Qed.
Lemma inner_map f d N : good_dt N d -> inner_nonempty_dt d -> inner_nonempty_dt (dt_map f d).
Proof.
  destruct d as [[[a b]|] cs]; intros Hg H; inversion Hg; subst; simpl in *; auto. rewrite Forall_forall in *.
  intros kn Hin. apply in_map_iff in Hin. destruct Hin as [kn' [<- Hin]]. simpl. apply nonempty_map; auto.
Qed.

(** Writing and reading a DataTree: every array is reindexed to the common labels. *)
(** The variables of the dataset. *)
Theorem dataset_items sep s d ds :
  to_data_tree s = Ok d -> to_dataset sep s = Ok ds ->
  good_dt (plain_name sep) d -> ~ occurs sep var1 -> ~ occurs sep var2 ->
  ds = flat_map (item_of sep) (dt_leaves (dt_map (reindex (fold_left (merge_dims union_labels) (map dims (all_arrays d)) []) NaN) d)).
Proof.
  intros Hd Hds Hg V1 V2. unfold to_dataset in Hds. rewrite Hd in Hds. cbn [bind] in Hds.
  change (fun pd : string * option (da * da) => _) with (item_fun sep) in Hds.
  pose proof (items_leaves sep d Hg [] (Forall_nil _)) as HI. cbn [joinp app] in HI. 
  rewrite (flat_map_ext_in _ (item_of sep) (dt_leaves d)) in HI by (intros [? ?] _; reflexivity).
  rewrite HI in Hds.
  assert (NoDup (map fst (flat_map (item_of sep) (dt_leaves d)))) as Hnd.
  { pose proof (leaves_plain sep d Hg) as HP. pose proof (leaves_NoDup _ d Hg) as HN. clear Hds HI.
    induction (dt_leaves d) as [|[ps ab] ls IH]; simpl; [constructor|].
    inversion HP as [|? ? Hps HP']; subst. inversion HN as [|? ? Hni HN']; subst. cbn [fst] in *.
    assert (forall v v' qs ab', In (qs, ab') ls -> ~ occurs sep v -> ~ occurs sep v' -> (tailstr sep qs ++ String sep v)%string <> (tailstr sep ps ++ String sep v')%string) as Hdiff.
    { intros v v' qs ab' Hin Hv Hv' E. pose proof (rsplit1_app sep (tailstr sep qs) v Hv) as R1. rewrite E, rsplit1_app in R1 by auto. injection R1 as E1 _.
      assert (Forall (plain_name sep) qs) as Hqs by (rewrite Forall_forall in HP'; apply (HP' _ Hin)).
      assert (qs = ps) as ->; [|apply Hni; change ps with (fst (ps, ab')); now apply in_map].
      apply tailstr_inj; [eapply plain_ok_all; eauto|eapply plain_ok_all; eauto|].
      rewrite <- (replace_tail sep slash qs), <- (replace_tail sep slash ps); [now rewrite E1| |];
        (eapply Forall_impl; [|eassumption]; intros x (H1 & H2 & H3 & H4 & H5); auto). }
    constructor; [|constructor].
    - intros [E|Hin].
      + pose proof (rsplit1_app sep (tailstr sep ps) var1 V1) as R1. pose proof (rsplit1_app sep (tailstr sep ps) var2 V2) as R2. unfold var1, var2 in *.
        rewrite E in R2. rewrite R1 in R2. discriminate.
      + apply in_map_iff in Hin. destruct Hin as [[z w] [Ez Hin]]. apply in_flat_map in Hin. destruct Hin as [[qs ab'] [Hq Hin]].
        simpl in Ez. subst z. destruct Hin as [E|[E|[]]]; injection E as E _; revert E; [apply (Hdiff var1 _ qs ab')|apply (Hdiff var2 _ qs ab')]; auto.
    - intros Hin. apply in_map_iff in Hin. destruct Hin as [[z w] [Ez Hin]]. apply in_flat_map in Hin. destruct Hin as [[qs ab'] [Hq Hin]].
        simpl in Ez. subst z. destruct Hin as [E|[E|[]]]; injection E as E _; revert E; [apply (Hdiff var1 _ qs ab')|apply (Hdiff var2 _ qs ab')]; auto.
    - auto. }
  rewrite dict_of_NoDup in Hds by exact Hnd. injection Hds as <-.
  set (J := fold_left (merge_dims union_labels) (map dims (all_arrays d)) []).
  unfold align_dataset. rewrite align_reindex.
    assert (map snd (flat_map (item_of sep) (dt_leaves d)) = all_arrays d) as -> by (rewrite map_flat_map; reflexivity).
    fold J. rewrite (leaves_map _ _ _ Hg). unfold all_arrays. generalize J. generalize (dt_leaves d). clear. intros ls J. 
    induction ls as [|[ps [a b]] ls IH]; simpl; [reflexivity|]. simpl in IH. rewrite IH; auto.
Qed.

Theorem dataset_round_trip sep s d ds :
  to_data_tree s = Ok d -> to_dataset sep s = Ok ds ->
  good_dt (plain_name sep) d -> inner_nonempty_dt d -> ~ occurs sep var1 -> ~ occurs sep var2 ->
  from_dataset sep ds = Ok (Some (from_data_tree_aux (dt_map (reindex (fold_left (merge_dims union_labels) (map dims (all_arrays d)) []) NaN) d))).
Proof.
  intros Hd Hds Hg Hi V1 V2. rewrite (dataset_items sep s d ds Hd Hds Hg V1 V2). clear Hds Hd.
  set (J := fold_left (merge_dims union_labels) (map dims (all_arrays d)) []).
  set (d' := dt_map (reindex J NaN) d).
  assert (good_dt (plain_name sep) d') as Hg' by now apply good_map.
  assert (inner_nonempty_dt d') as Hi' by (eapply inner_map; eauto).
  assert (forall L, from_dataset sep L = (do groups <- fold_left (grp_step sep) L (Ok []); do t <- from_dict groups; do r <- from_ftree t; Ok (Some r))) as Hfd by reflexivity.
  pose proof (group_leaves sep (dt_leaves d') V1 V2 (leaves_plain sep d' Hg') (leaves_NoDup _ d' Hg') [] (fun _ _ => eq_refl)) as HG.
  rewrite Hfd. unfold dict in *. rewrite HG.
  cbn [bind app]. unfold from_dict. rewrite (from_dict_ins sep _ (leaves_plain sep d' Hg')). cbn [bind].
  rewrite (build_root _ d' Hg' Hi'). rewrite (from_build _ d' Hg'). reflexivity.
Qed.

(** ** From nested dictionaries to DataTrees *)
Lemma nested_Dict N kvs : nested_dict N (Dict kvs) <-> NoDup (map fst kvs) /\ Forall (fun kt => N (fst kt) /\ nested_dict N (snd kt)) kvs.
Proof.
  simpl. assert (forall l, (fix go (l : list (string * tree da)) := match l with [] => True | (k, t) :: l' => (N k /\ nested_dict N t) /\ go l' end) l
     <-> Forall (fun kt => N (fst kt) /\ nested_dict N (snd kt)) l) as K.
  { induction l as [|[k t] l IH]; [split; constructor|]. split; [intros [H1 H2]; constructor; [exact H1|now apply IH]|].
    inversion 1; subst. split; [assumption|now apply IH]. }
  now rewrite K.
Qed.
Lemma inner_Dict kvs : inner_nonempty (Dict kvs) <-> Forall (fun kt => snd kt <> Dict [] /\ inner_nonempty (snd kt)) kvs.
Proof.
  simpl. induction kvs as [|[k t] l IH]; [split; constructor|]. split; [intros [H1 H2]; constructor; [exact H1|now apply IH]|].
  inversion 1; subst. split; [assumption|now apply IH].
Qed.

Definition J2 (a b : da) : dimlist := fold_left (merge_dims union_labels) (map dims [a; b]) [].
Definition al (a b : da) : da * da := (reindex (J2 a b) NaN a, reindex (J2 a b) NaN b).

Definition go_dt (y : tree da) := fix go (l : list (string * tree da)) : result (list (string * dtree)) :=
                  match l with
                  | [] => Ok []
                  | (k, t) :: l' =>
                      do u <- child y k;
                      do n <- to_data_tree_aux t u;
                      do ns <- go l';
                      Ok ((k, n) :: ns)
                  end.
Lemma to_dt_Dict kvs y : to_data_tree_aux (Dict kvs) y = do cs <- go_dt y kvs;
      if existsb (fun k => has_char slash k) (map fst kvs) then Err ValueError else Ok (DT None cs).
Proof. reflexivity. Qed.

Lemma dget_items {A B} (f : A -> B) (l : list (string * A)) k :
  dget (map (fun kr => (fst kr, f (snd kr))) l) k = match dget l k with Some a => Some (f a) | None => None end.
Proof. induction l as [|[k' a] l IH]; simpl; [reflexivity|]. destruct (eq_dec k k'); auto. Qed.

Lemma conv (N : string -> Prop) (HN : forall k, N k -> ~ occurs slash k) x : nested_dict N x -> forall y, same_keys x y ->
  exists d, to_data_tree_aux x y = Ok d /\ good_dt N d /\
    (inner_nonempty x -> inner_nonempty_dt d) /\ (inner_nonempty x -> x <> Dict [] -> nonempty_dt d) /\
    (forall f (Q : da -> da -> Prop),
       (forall p a b, at_path x p = Some (Leaf a) -> at_path y p = Some (Leaf b) -> Q (f (fst (al a b))) a /\ Q (f (snd (al a b))) b) ->
       tree_rel Q (fst (from_data_tree_aux (dt_map f d))) x /\ tree_rel Q (snd (from_data_tree_aux (dt_map f d))) y) /\
    (forall p a b, at_path x p = Some (Leaf a) -> at_path y p = Some (Leaf b) -> In (fst (al a b)) (all_arrays d) /\ In (snd (al a b)) (all_arrays d)) /\
    (forall c, In c (all_arrays d) -> exists p a b, at_path x p = Some (Leaf a) /\ at_path y p = Some (Leaf b) /\ (c = fst (al a b) \/ c = snd (al a b))).
Proof.
  induction x as [a|kvs IH|ts IH|kvs] using tree_ind'; intros Hx y Hy; try (destruct Hx; fail).
  - pose proof (Hy []) as H0. destruct y as [b| | |]; simpl in H0; try tauto.
    exists (DT (Some (al a b)) []). split; [cbn [to_data_tree_aux]; unfold align_dataset; rewrite align_reindex; reflexivity|].
    split; [constructor|]. split; [intros; constructor|]. split; [intros; constructor|]. split; [|split].
    + intros f Q HQ. destruct (HQ [] a b eq_refl eq_refl) as [Q1 Q2]. split; intros [|[|] p]; simpl; auto.
    + intros p a' b'. destruct p as [|[|] p]; simpl; try discriminate. intros [= <-] [= <-]. auto.
    + intros c [<-|[<-|[]]]; exists [], a, b; auto.
  - pose proof (Hy []) as H0. destruct y as [|kvs'| |]; simpl in H0; try tauto.
    apply nested_Dict in Hx. destruct Hx as [Hnd HF]. rewrite to_dt_Dict.
    assert (existsb (fun k => has_char slash k) (map fst kvs) = false) as ->.
    { apply not_true_is_false. intros H. apply existsb_exists in H. destruct H as [k [Hk Ho]]. apply in_map_iff in Hk. destruct Hk as [kt [<- Hkt]].
      rewrite Forall_forall in HF. destruct (HF _ Hkt) as [HK _]. apply HN in HK. apply HK. now apply has_char_occurs. }
    (* children *)
    assert (forall k t, dget kvs k = Some t -> exists u, dget kvs' k = Some u /\ same_keys t u) as Hch.
    { intros k t Hk. pose proof (Hy [Key k]) as H1. cbn [at_path] in H1. rewrite Hk in H1. destruct (dget kvs' k) as [u|] eqn:E.
      - exists u. split; auto. intros p. pose proof (Hy (Key k :: p)) as Hp. cbn [at_path] in Hp. rewrite Hk, E in Hp. exact Hp.
      - cbn in H1. destruct t; tauto. }
    assert (forall k, dget kvs k = None -> dget kvs' k = None) as Hno.
    { intros k Hk. pose proof (Hy [Key k]) as H1. cbn [at_path] in H1. rewrite Hk in H1. destruct (dget kvs' k); [tauto|reflexivity]. }
    set (P := fun (kt : string * tree da) (kn : string * dtree) => fst kt = fst kn /\ exists u, dget kvs' (fst kt) = Some u /\
      let x := snd kt in let y := u in let d := snd kn in
      good_dt N d /\ (inner_nonempty x -> inner_nonempty_dt d) /\ (inner_nonempty x -> x <> Dict [] -> nonempty_dt d) /\
    (forall f (Q : da -> da -> Prop),
       (forall p a b, at_path x p = Some (Leaf a) -> at_path y p = Some (Leaf b) -> Q (f (fst (al a b))) a /\ Q (f (snd (al a b))) b) ->
       tree_rel Q (fst (from_data_tree_aux (dt_map f d))) x /\ tree_rel Q (snd (from_data_tree_aux (dt_map f d))) y) /\
    (forall p a b, at_path x p = Some (Leaf a) -> at_path y p = Some (Leaf b) -> In (fst (al a b)) (all_arrays d) /\ In (snd (al a b)) (all_arrays d)) /\
    (forall c, In c (all_arrays d) -> exists p a b, at_path x p = Some (Leaf a) /\ at_path y p = Some (Leaf b) /\ (c = fst (al a b) \/ c = snd (al a b)))).
    assert (forall l, (forall kt, In kt l -> In kt kvs) -> exists cs, go_dt (Dict kvs') l = Ok cs /\ Forall2 P l cs) as Hgo.
    { rewrite Forall_forall in IH, HF. induction l as [|[k t] l IHl]; intros Hsub; [exists []; split; [reflexivity|constructor]|].
      assert (In (k, t) kvs) as Hin by (apply Hsub; now left).
      assert (dget kvs k = Some t) as Hk by now apply In_dget. destruct (Hch k t Hk) as (u & Hu & Hsk).
      destruct (HF _ Hin) as [_ HNt]. destruct (IH (k, t) Hin HNt u Hsk) as (d & Hd & Hrest).
      destruct IHl as (cs & Hcs & HFc); [intros; apply Hsub; now right|].
      exists ((k, d) :: cs). split.
      - cbn [go_dt child]. unfold dgetE. rewrite Hu. cbn [bind]. cbn [snd] in Hd. rewrite Hd. cbn [bind]. fold (go_dt (Dict kvs')). now rewrite Hcs.
      - constructor; auto. split; [reflexivity|]. exists u. split; [exact Hu|]. exact Hrest. }
    destruct (Hgo kvs (fun _ H => H)) as (cs & Hcs & HFP). rewrite Hcs. cbn [bind]. exists (DT None cs).
    assert (map fst cs = map fst kvs) as Hkeys by (clear - HFP; induction HFP as [|? ? ? ? [E _]]; simpl; congruence).
    assert (forall k, match dget kvs k, dget cs k with Some t, Some n => P (k, t) (k, n) | None, None => True | _, _ => False end) as Hlook.
    { intros k. clear - HFP. induction HFP as [|[k1 t] [k2 n] l l' HP HFP IHP]; simpl; [exact I|]. destruct HP as [E HP]. cbn [fst] in E. subst k2.
      destruct (eq_dec k k1) as [->|]; [split; auto|]. exact IHP. }
    split; [reflexivity|]. split.
    { constructor; [congruence|]. clear - HFP HF. induction HFP as [|kt kn l l' [E (u & _ & HG & _)] HFP IHP]; constructor; inversion HF as [|? ? [HK _] HF']; subst; auto.
      rewrite <- E. auto. }
    assert (inner_nonempty (Dict kvs) -> Forall (fun kn => nonempty_dt (snd kn)) cs) as Hinn.
    { intros Hi. apply inner_Dict in Hi. clear - HFP Hi. induction HFP as [|kt kn l l' [E (u & _ & _ & _ & HG & _)] HFP IHP]; constructor; inversion Hi as [|? ? [H1 H2] Hi']; subst; auto. }
    split; [exact Hinn|]. split.
    { intros Hi Hne. specialize (Hinn Hi). destruct cs as [|kn cs]; [|now constructor]. exfalso. apply Hne. f_equal. destruct kvs; [reflexivity|discriminate]. }
    split; [|split].
    + intros f Q HQ.
      assert (forall p, (match at_path (fst (from_data_tree_aux (dt_map f (DT None cs)))) p, at_path (Dict kvs) p with
            | None, None => True | Some (Leaf a), Some (Leaf b) => Q a b | Some (Dict _), Some (Dict _) => True
            | Some (Seq x), Some (Seq y) => length x = length y | _, _ => False end) /\
          (match at_path (snd (from_data_tree_aux (dt_map f (DT None cs)))) p, at_path (Dict kvs') p with
            | None, None => True | Some (Leaf a), Some (Leaf b) => Q a b | Some (Dict _), Some (Dict _) => True
            | Some (Seq x), Some (Seq y) => length x = length y | _, _ => False end)) as K.
      { intros p. destruct p as [|[k|n] p]; [simpl; auto| |simpl; auto].
        cbn [dt_map from_data_tree_aux fst snd at_path]. rewrite !map_map. cbn [fst snd].
        change (map (fun x => (fst x, fst (from_data_tree_aux (dt_map f (snd x))))) cs) with (map (fun x => (fst x, (fun n => fst (from_data_tree_aux (dt_map f n))) (snd x))) cs).
        change (map (fun x => (fst x, snd (from_data_tree_aux (dt_map f (snd x))))) cs) with (map (fun x => (fst x, (fun n => snd (from_data_tree_aux (dt_map f n))) (snd x))) cs).
        rewrite (dget_items (fun n => fst (from_data_tree_aux (dt_map f n)))), (dget_items (fun n => snd (from_data_tree_aux (dt_map f n)))). specialize (Hlook k). destruct (dget kvs k) as [t|] eqn:Ek.
        - destruct (dget cs k) as [n|]; [|destruct Hlook]. destruct Hlook as [_ (u & Hu & _ & _ & _ & HP & _)]. cbn [fst snd] in *.
          destruct (HP f Q) as [T1 T2].
          + intros q a b Ha Hb. apply (HQ (Key k :: q) a b); cbn [at_path]; [now rewrite Ek|now rewrite Hu].
          + split; [apply T1|]. rewrite Hu. apply T2.
        - destruct (dget cs k) as [n|]; [destruct Hlook|]. rewrite (Hno k Ek). auto. }
      split; intros p; apply K.
    + intros p a b Ha Hb. destruct p as [|[k|n] p]; try discriminate. cbn [at_path] in Ha, Hb. specialize (Hlook k).
      destruct (dget kvs k) as [t|] eqn:Ek; [|discriminate]. destruct (dget cs k) as [n|] eqn:En; [|destruct Hlook].
      destruct Hlook as [_ (u & Hu & _ & _ & _ & _ & HP & _)]. cbn [fst snd] in *. rewrite Hu in Hb. destruct (HP p a b Ha Hb) as [I1 I2].
      unfold all_arrays in *. cbn [dt_leaves]. rewrite flat_map_flat_map.
      split; apply in_flat_map; exists (k, n); (split; [now apply dget_In|]); cbn [fst snd]; rewrite flat_map_map; cbn [fst snd]; assumption.
    + intros c Hc. unfold all_arrays in Hc. cbn [dt_leaves] in Hc. rewrite flat_map_flat_map in Hc. apply in_flat_map in Hc.
      destruct Hc as [[k n] [Hkn Hc]]. cbn [fst snd] in Hc. rewrite flat_map_map in Hc. cbn [fst snd] in Hc.
      assert (dget cs k = Some n) as En by (apply In_dget; auto; unfold keys; congruence). specialize (Hlook k). rewrite En in Hlook.
      destruct (dget kvs k) as [t|] eqn:Ek; [|destruct Hlook]. destruct Hlook as [_ (u & Hu & _ & _ & _ & _ & _ & HP)]. cbn [fst snd] in *.
      destruct (HP c Hc) as (p & a & b & Ha & Hb & Hab). exists (Key k :: p), a, b. cbn [at_path]. rewrite Ek, Hu. auto.
Qed.

(** ** Reindexing to agreeing labels *)
Lemma reindex_dnames J f a : dnames (reindex J f a) = dnames a.
Proof. unfold dnames, reindex. cbn [dims]. rewrite map_map. reflexivity. Qed.
Lemma reindex_labels J f a d : In d (dnames a) -> labels_of (dims (reindex J f a)) d = labels_of J d.
Proof.
  intros Hd. unfold labels_of at 1, reindex. cbn [dims].
  rewrite (dget_map_snd (fun d _ => labels_of J d)). unfold dnames in Hd. apply names_dget in Hd. destruct (dget (dims a) d); congruence.
Qed.
Lemma reindex_wf J f a : wf a -> (forall d, NoDup (labels_of J d)) -> wf (reindex J f a).
Proof.
  intros (H1 & H2 & H3) HJ. split; [now rewrite reindex_dnames|]. split.
  - intros d ls Hin. unfold reindex in Hin. cbn [dims] in Hin. apply in_map_iff in Hin. destruct Hin as [[d' ls'] [[= <- <-] _]]. apply HJ.
  - intros e e' He. rewrite reindex_dnames in He. unfold reindex. cbn [get]. rewrite (in_box_local (dims a) e e' He), (H3 e e' He). reflexivity.
Qed.
Lemma reindex_equiv J f a : wf a -> (forall d l, In d (dnames a) -> (In l (labels_of J d) <-> In l (labels_of (dims a) d))) ->
  da_equiv (reindex J f a) a.
Proof.
  intros Hw HJ. assert (forall d x, In x (labels_of (dims (reindex J f a)) d) <-> In x (labels_of (dims a) d)) as HL.
  { intros d x. destruct (in_dec string_dec d (dnames a)) as [Hd|Hd].
    - rewrite reindex_labels by auto. auto.
    - split; intros H; exfalso; apply Hd; apply labels_of_In in H; auto. fold (dnames (reindex J f a)) in H. now rewrite reindex_dnames in H. }
  split; [intros; now rewrite reindex_dnames|]. split; [exact HL|].
  intros e He. unfold reindex. cbn [get]. replace (in_box (dims a) e) with true; [reflexivity|]. symmetry. apply in_box_iff.
  rewrite point_of_labels by apply Hw. intros d Hd. apply HL. rewrite point_of_labels in He; [|fold (dnames (reindex J f a)); rewrite reindex_dnames; apply Hw].
  apply He. fold (dnames (reindex J f a)). now rewrite reindex_dnames.
Qed.

Lemma joint_labels arrs d l : In l (labels_of (fold_left (merge_dims union_labels) (map dims arrs) []) d) <-> exists a, In a arrs /\ In l (labels_of (dims a) d).
Proof.
  rewrite labels_joint. split.
  - intros [H|[ds [H1 H2]]]; [destruct H|]. apply in_map_iff in H1. destruct H1 as [a [<- Ha]]. eauto.
  - intros [a [H1 H2]]. right. exists (dims a). split; auto. now apply in_map.
Qed.
Lemma joint_NoDup arrs : (forall a, In a arrs -> wf a) -> forall d, NoDup (labels_of (fold_left (merge_dims union_labels) (map dims arrs) []) d).
Proof.
  intros H d. apply NoDup_labels_joint; [intros; constructor|]. intros ds d' Hds. apply in_map_iff in Hds. destruct Hds as [a [<- Ha]].
  now apply wf_labels_NoDup, H.
Qed.

Lemma al_equiv a b : wf a -> wf b -> labels_agree a b ->
  (wf (fst (al a b)) /\ da_equiv (fst (al a b)) a) /\ (wf (snd (al a b)) /\ da_equiv (snd (al a b)) b).
Proof.
  intros Ha Hb Hab.
  assert (forall d, NoDup (labels_of (J2 a b) d)) as HJ by (apply joint_NoDup; intros c [<-|[<-|[]]]; auto).
  unfold al. cbn [fst snd]. split; (split; [now apply reindex_wf|]); apply reindex_equiv; auto; intros d l Hd; unfold J2; rewrite joint_labels; split.
  - intros [c [[<-|[<-|[]]] Hc]]; auto. apply (Hab d); auto. eapply labels_of_In; eauto.
  - intros H. exists a. simpl. auto.
  - intros [c [[<-|[<-|[]]] Hc]]; auto. apply (Hab d); auto. eapply labels_of_In; eauto.
  - intros H. exists b. simpl. auto.
Qed.

Theorem data_tree_round_trip x y :
  nested_dict node_name x -> same_keys x y ->
  (forall p a b, at_path x p = Some (Leaf a) -> at_path y p = Some (Leaf b) -> wf a /\ wf b /\ labels_agree a b) ->
  exists d, to_data_tree (Some (x, y)) = Ok d /\ state_equiv (from_data_tree d) (Some (x, y)).
Proof.
  intros Hx Hy Hab. destruct (conv node_name (fun k H => H) x Hx y Hy) as (d & Hd & Hg & _ & _ & HQ & _).
  exists d. split; [exact Hd|]. destruct (HQ (fun a => a) da_equiv) as [T1 T2].
  - intros p a b Ha Hb. destruct (Hab p a b Ha Hb) as (W1 & W2 & L). destruct (al_equiv a b W1 W2 L) as [[_ E1] [_ E2]]. auto.
  - assert (dt_map (fun a => a) d = d) as E.
    { clear - Hg. induction d as [data cs IH] using dtree_ind'. inversion Hg as [[a b]|cs' Hn HF]; subst; [reflexivity|]. cbn [dt_map]. f_equal.
      rewrite <- (List.map_id cs) at 2. apply map_ext_in. intros [k n] Hin. rewrite Forall_forall in IH, HF. cbn [fst snd]. f_equal. apply (IH _ Hin). now apply (HF _ Hin). }
    rewrite E in T1, T2. unfold from_data_tree. cbn. destruct (from_data_tree_aux d). split; assumption.
Qed.

Theorem dataset_round_trip_state sep x y :
  ~ occurs sep "sum_weighted_statistics" -> ~ occurs sep "sum_weights" ->
  nested_dict (plain_name sep) x -> inner_nonempty x -> same_keys x y ->
  (forall a, in_state (x, y) a -> wf a) ->
  (forall a b, in_state (x, y) a -> in_state (x, y) b -> labels_agree a b) ->
  exists ds s, to_dataset sep (Some (x, y)) = Ok ds /\ from_dataset sep ds = Ok s /\ state_equiv s (Some (x, y)).
Proof.
  intros V1 V2 Hx Hi Hy Hwf Hag.
  destruct (conv (plain_name sep) (fun k H => proj1 (proj2 (proj2 (proj2 H)))) x Hx y Hy) as (d & Hd & Hg & Hin & _ & HQ & HA1 & HA2).
  assert (exists ds, to_dataset sep (Some (x, y)) = Ok ds) as [ds Hds].
  { unfold to_dataset, to_data_tree. rewrite Hd. cbn [bind]. eauto. }
  pose proof (dataset_round_trip sep (Some (x, y)) d ds Hd Hds Hg (Hin Hi) V1 V2) as HR.
  do 2 eexists. split; [exact Hds|]. split; [exact HR|].
  set (J := fold_left (merge_dims union_labels) (map dims (all_arrays d)) []).
  assert (forall p a b, at_path x p = Some (Leaf a) -> at_path y p = Some (Leaf b) ->
     (wf (fst (al a b)) /\ da_equiv (fst (al a b)) a) /\ (wf (snd (al a b)) /\ da_equiv (snd (al a b)) b)) as Hal.
  { intros p a b Ha Hb. apply al_equiv.
    - apply Hwf. exists p. now left. - apply Hwf. exists p. now right. - apply Hag; exists p; [now left|now right]. }
  assert (forall c, In c (all_arrays d) -> wf c /\ exists a, in_state (x, y) a /\ da_equiv c a) as Hall.
  { intros c Hc. destruct (HA2 c Hc) as (p & a & b & Ha & Hb & E). destruct (Hal p a b Ha Hb) as [[W1 E1] [W2 E2]].
    destruct E as [-> | ->]; (split; [assumption|]); [exists a|exists b]; (split; [exists p; auto|assumption]). }
  assert (forall d', NoDup (labels_of J d')) as HJ by (apply joint_NoDup; intros c Hc; apply (Hall c Hc)).
  assert (forall c a, In c (all_arrays d) -> in_state (x, y) a -> da_equiv c a -> da_equiv (reindex J NaN c) a) as HE.
  { intros c a Hc Ha E. destruct (Hall c Hc) as [Wc _].
    apply da_equiv_trans with c; auto; [now apply reindex_wf|]. apply reindex_equiv; auto.
    intros d' l Hd'. unfold J. rewrite joint_labels. split; [|intros H; exists c; auto].
    intros [c' [Hc' Hl]]. destruct (Hall c' Hc') as [Wc' [a' [Ha' E']]].
    destruct E as (E1 & E2 & _), E' as (E1' & E2' & _).
    apply E2. apply (Hag a' a Ha' Ha d'); [apply E1'; eapply labels_of_In; eauto|now apply E1|]. now apply E2'. }
  destruct (HQ (reindex J NaN) da_equiv) as [T1 T2].
  - intros p a b Ha Hb. destruct (HA1 p a b Ha Hb) as [I1 I2]. destruct (Hal p a b Ha Hb) as [[_ E1] [_ E2]]. split; apply HE; auto; exists p; auto.
  - unfold from_data_tree. cbn. destruct (from_data_tree_aux (dt_map (reindex J NaN) d)). split; assumption.
Qed.

(** All variables of the dataset are proper arrays. *)
Theorem dataset_wf sep x y ds :
  ~ occurs sep "sum_weighted_statistics" -> ~ occurs sep "sum_weights" ->
  nested_dict (plain_name sep) x -> same_keys x y ->
  (forall a, in_state (x, y) a -> wf a) ->
  to_dataset sep (Some (x, y)) = Ok ds -> forall n a, In (n, a) ds -> wf a.
Proof.
  intros V1 V2 Hx Hy Hwf Hds n a I.
  destruct (conv (plain_name sep) (fun k H => proj1 (proj2 (proj2 (proj2 H)))) x Hx y Hy) as (d & Hd & Hg & _ & _ & _ & _ & HA2).
  rewrite (dataset_items sep (Some (x, y)) d ds Hd Hds Hg V1 V2) in I. set (J := fold_left (merge_dims union_labels) (map dims (all_arrays d)) []) in I.
  assert (forall c, In c (all_arrays d) -> wf c) as Hall.
  { intros c Hc. destruct (HA2 c Hc) as (p & u & v & Hu & Hv & E).
    assert (forall d', NoDup (labels_of (J2 u v) d')) as HJ by (apply joint_NoDup; intros w [<-|[<-|[]]]; apply Hwf; exists p; auto).
    destruct E as [-> | ->]; unfold al; cbn [fst snd]; apply reindex_wf; auto; apply Hwf; exists p; auto. }
  rewrite (leaves_map _ _ _ Hg), flat_map_map in I. apply in_flat_map in I. destruct I as ([ps [u v]] & I & K). unfold item_of in K. cbn [fst snd] in K.
  assert (In u (all_arrays d) /\ In v (all_arrays d)) as [Iu Iv].
  { unfold all_arrays. split; apply in_flat_map; exists (ps, (u, v)); (split; [exact I|]); cbn; auto. }
  destruct K as [[= _ <-]|[[= _ <-]|[]]]; (apply reindex_wf; [now apply Hall|]); apply joint_NoDup; auto.
Qed.
