(** C45: which observations are returned, and with which times. *)
From Coq Require Import Ascii String ZArith List Bool Lia Permutation.
Import ListNotations.
From Verif Require Import Prelude Values Model_XArray Proofs_Baseline Model_Calendar Spec_Calendar Model_Spatial Model_Parquet Spec_Parquet Proofs_Strings Proofs_Parquet Props_Parquet.
Local Open Scope string_scope.
Local Open Scope list_scope.
Local Open Scope Z_scope.

(** ** One valid time *)
(** The name a column of the files has in the result. *)
Definition new_name (cfg : config) (c : string) : string :=
  let c' := match c_rename cfg with Some m => renamed m c | None => c end in
  if eqb c' (c_time_dim cfg) then "valid_time" else c'.
(** The preprocessing function returns rows of its argument, with other cells perhaps, but with
    their times. *)
Definition keeps_times (cfg : config) : Prop :=
  forall f df df' r', c_preprocess cfg = Some f -> f df = Ok df' -> In r' (rows df') -> exists r, In r (rows df) /\ r' (c_time_dim cfg) = r (c_time_dim cfg).
(** The time column keeps its name until it becomes valid_time, and no two columns get the same name. *)
Definition time_column (cfg : config) : Prop :=
  c_rename cfg = None \/ exists m, c_rename cfg = Some m /\ dget m (c_time_dim cfg) = None.
Definition no_clash (cfg : config) (df : frame) : Prop := NoDup (map (new_name cfg) (cols df)).

Lemma find_unique (f : string -> string) cs c : NoDup (map f cs) -> In c cs -> find (fun x => eqb (f x) (f c)) cs = Some c.
Proof.
  induction cs as [|x cs IH]; intros N I; [destruct I|]. cbn [find map] in *. inversion N; subst. unfold eqb. destruct (eq_dec (f x) (f c)) as [E|E].
  - destruct I as [->|I]; [reflexivity|]. exfalso. apply H1. rewrite E. now apply in_map.
  - destruct I as [->|I]; [congruence|]. now apply IH.
Qed.
Lemma rename_step (f : string -> string) m cs r c : (forall x, renamed m x = f x) -> NoDup (map f cs) -> In c cs ->
  (fun k => match find (fun x => eqb (renamed m x) k) cs with Some c => r c | None => missing end) (f c) = (r : row) c.
Proof.
  intros E N I. cbn beta. assert (find (fun x => eqb (renamed m x) (f c)) cs = find (fun x => eqb (f x) (f c)) cs) as ->. { clear I N. induction cs as [|x cs IH]; [reflexivity|]. cbn [find]. rewrite E. destruct (eqb _ _); [reflexivity|exact IH]. }
  now rewrite find_unique.
Qed.
Lemma NoDup_compose (g f : string -> string) cs : NoDup (map (fun c => g (f c)) cs) -> NoDup (map f cs).
Proof. intros H. rewrite <- map_map in H. exact (NoDup_map_inv g (map f cs) H). Qed.

Section Single.
  Variable sort_values : (row -> option Z) -> list row -> list row.
  Hypothesis sort_perm : forall key rs, Permutation (sort_values key rs) rs.
  (** Ascending, missing keys last. *)
  Definition key_le (a b : option Z) : Prop := match a, b with Some x, Some y => x <= y | None, Some _ => False | _, None => True end.
  Hypothesis sort_sorted : forall key rs i j ri rj, (i < j)%nat -> nth_error (sort_values key rs) i = Some ri -> nth_error (sort_values key rs) j = Some rj -> key_le (key ri) (key rj).

  Lemma first_of_each_In k seen rs r : In r (first_of_each k seen rs) -> In r rs.
  Proof. revert seen. induction rs as [|x rs IH]; intros seen H; [destruct H|]. cbn [first_of_each] in H. destruct (existsb _ seen); [right; eapply IH; eauto|]. destruct H as [->|H]; [now left|right; eapply IH; eauto]. Qed.
  Lemma pick_In cfg df v df' r : pick_closest_from_duplicates sort_values cfg df v = Ok df' -> In r (rows df') -> In r (rows df).
  Proof.
    unfold pick_closest_from_duplicates. intros H I. match type of H with (do m <- ?x; _) = _ => destruct x as [srt|] eqn:Es; [|discriminate] end. cbn [bind] in H.
    destruct (c_observation_dim cfg) as [k|]; [|discriminate]. destruct (memb k (cols df)); [|discriminate]. injection H as <-. cbn [rows] in I. apply first_of_each_In in I.
    destruct (c_pick_by cfg) as [q|]; [|injection Es as <-; exact I]. destruct (negb _); [discriminate|]. destruct (forallb _ _); [|discriminate]. injection Es as <-. exact (Permutation_in _ (sort_perm _ _) I).
  Qed.
  Lemma pick_cols cfg df v df' : pick_closest_from_duplicates sort_values cfg df v = Ok df' -> cols df' = cols df.
  Proof.
    unfold pick_closest_from_duplicates. intros H. match type of H with (do m <- ?x; _) = _ => destruct x as [srt|] eqn:Es; [|discriminate] end. cbn [bind] in H.
    destruct (c_observation_dim cfg) as [k|]; [|discriminate]. destruct (memb k (cols df)); [|discriminate]. injection H as <-. reflexivity.
  Qed.
  (** The last step: renaming and selecting columns. *)
  Lemma finish_rows cfg df out :
    loc (c_variables cfg ++ c_coordinates cfg) (rename_columns [(c_time_dim cfg, "valid_time")] (match c_rename cfg with None => df | Some m => rename_columns m df end)) = Ok out ->
    cols out = c_variables cfg ++ c_coordinates cfg /\
    (no_clash cfg df -> (forall c, In c (cols out) -> exists c0, In c0 (cols df) /\ new_name cfg c0 = c) /\
      Forall2 (fun r o => forall c, In c (cols df) -> o (new_name cfg c) = r c) (rows df) (rows out)).
  Proof.
    unfold loc. destruct (forallb _ _) eqn:Fa; [|discriminate]. intros [= <-]. cbn [cols rows]. split; [reflexivity|]. intros N.
    assert (forall x, renamed [(c_time_dim cfg, "valid_time")] x = if eqb x (c_time_dim cfg) then "valid_time" else x) as R.
    { intros x. unfold renamed. cbn [dget]. unfold eqb. destruct (eq_dec x (c_time_dim cfg)); reflexivity. }
    rewrite forallb_forall in Fa. unfold no_clash, new_name in N. unfold new_name. destruct (c_rename cfg) as [m|]; cbn [rename_columns cols rows] in *.
    - split.
      + intros c I. apply Fa in I. apply memb_In in I. rewrite map_map in I. apply in_map_iff in I. destruct I as (c0 & <- & I). exists c0. split; [exact I|]. now rewrite R.
      + rewrite map_map. assert (NoDup (map (renamed m) (cols df))) as N1. { apply (NoDup_compose (fun x => if eqb x (c_time_dim cfg) then "valid_time" else x)). exact N. }
        assert (NoDup (map (fun x => if eqb x (c_time_dim cfg) then "valid_time" else x) (map (renamed m) (cols df)))) as N2 by (rewrite map_map; exact N).
        clear Fa. induction (rows df) as [|r rs IH]; cbn [map]; constructor; [|exact IH]. intros c I.
        pose proof (rename_step _ _ _ (fun k => match find (fun x => eqb (renamed m x) k) (cols df) with Some c => r c | None => missing end) (renamed m c) R N2 (in_map _ _ _ I)) as S1. cbn beta in S1. rewrite S1.
        exact (rename_step (renamed m) m (cols df) r c (fun _ => eq_refl) N1 I).
    - split.
      + intros c I. apply Fa in I. apply memb_In in I. apply in_map_iff in I. destruct I as (c0 & <- & I). exists c0. split; [exact I|]. now rewrite R.
      + clear Fa. induction (rows df) as [|r rs IH]; cbn [map]; constructor; [|exact IH]. intros c I. exact (rename_step _ _ _ r c R N I).
  Qed.

  (** Every returned row is a row of the window read for the valid time, with its own time as
      valid_time. *)
  Theorem C45_window : forall cfg files valid sl out o,
    load_data_for_single_time sort_values cfg files valid sl = Ok out -> In o (rows out) ->
    keeps_times cfg -> time_column cfg -> (forall w df df', time_window cfg valid sl = Ok w -> read_window cfg files w = Ok df -> (match c_preprocess cfg with None => Ok df | Some f => f df end) = Ok df' -> no_clash cfg df' /\ In (c_time_dim cfg) (cols df')) ->
    exists w t, time_window cfg valid sl = Ok w /\ o "valid_time" = CTime t /\ asked w t.
  Proof.
    intros cfg files valid sl out o H Ho Kt Tc Nc. unfold load_data_for_single_time in H. destruct (time_window cfg valid sl) as [w|] eqn:Ew; [|discriminate]. cbn [bind] in H.
    destruct (read_window cfg files w) as [df|] eqn:Er; [|discriminate]. cbn [bind] in H. destruct (match c_preprocess cfg with None => Ok df | Some f => f df end) as [df'|] eqn:Ep; [|discriminate]. cbn [bind] in H.
    destruct (Nc w df df' eq_refl Er Ep) as [Ncl Tin].
    match type of H with (do m <- ?x; _) = _ => destruct x as [df''|] eqn:Ed; [|discriminate] end. cbn [bind] in H. cbv zeta in H.
    assert (cols df'' = cols df' /\ forall r, In r (rows df'') -> In r (rows df')) as [Cd Rd].
    { destruct (c_remove_duplicates cfg); [|injection Ed as <-; auto]. destruct sl; [discriminate|]. split; [exact (pick_cols _ _ _ _ Ed)|intros r; exact (pick_In _ _ _ _ r Ed)]. }
    destruct (finish_rows cfg df'' out H) as (_ & K). unfold no_clash in K. rewrite Cd in K. destruct (K Ncl) as [_ F].
    assert (new_name cfg (c_time_dim cfg) = "valid_time") as Nt.
    { unfold new_name. destruct Tc as [->|(m & -> & Hm)]; [|unfold renamed; rewrite Hm]; now rewrite eqb_refl. }
    assert (exists r, In r (rows df'') /\ o "valid_time" = r (c_time_dim cfg)) as (r & Ir & Eo).
    { clear - F Ho Nt Tin. induction F as [|r o' rs os E F IH]; [destruct Ho|]. destruct Ho as [->|Ho]; [exists r; split; [now left|]; rewrite <- Nt; now apply E|]. destruct (IH Ho) as (r' & I & E'). exists r'. split; [now right|exact E']. }
    apply Rd in Ir. assert (exists r0, In r0 (rows df) /\ r (c_time_dim cfg) = r0 (c_time_dim cfg)) as (r0 & I0 & E0).
    { destruct (c_preprocess cfg) as [f|] eqn:Ec; [|injection Ep as <-; exists r; auto]. exact (Kt f df df' r Ec Ep Ir). }
    unfold read_window in Er. destruct (get_parquet_files_subset _ _ _ _) as [fns|]; [|discriminate]. cbn [bind] in Er. destruct (mapM _ fns) as [dfs|] eqn:Em; [|discriminate]. cbn [bind] in Er.
    unfold pd_concat in Er. destruct dfs as [|d0 dfs0] eqn:Edfs; [discriminate|]. rewrite <- Edfs in *. assert (rows df = flat_map (fun f => map (fit (cols f)) (rows f)) dfs) as Rw by (injection Er as <-; now rewrite Edfs). rewrite Rw in I0.
    apply in_flat_map in I0. destruct I0 as (d & Hd & I0). apply in_map_iff in I0. destruct I0 as (r1 & <- & I1).
    apply mapM_Ok_Forall2 in Em. assert (exists fn, read_parquet files w (c_time_dim cfg) fn = Ok d) as (fn & Hfn).
    { clear - Em Hd. induction Em as [|fn x fns ds E Em IH]; [destruct Hd|]. destruct Hd as [->|Hd]; [eauto|auto]. }
    unfold read_parquet in Hfn. destruct (files fn) as [fr|]; [|discriminate]. destruct (memb (c_time_dim cfg) (cols fr)) eqn:Mt; [|discriminate]. cbn [negb] in Hfn. destruct (forallb _ _); [|discriminate]. injection Hfn as <-. cbn [rows cols] in *.
    apply filter_In in I1. destruct I1 as [_ P]. apply passes_asked in P. destruct P as (t & Et & At). exists w, t. split; [reflexivity|]. split; [|exact At]. rewrite Eo, E0. unfold fit. rewrite Mt. exact Et.
  Qed.
  (** Nothing is lost: without preprocessing and removal of duplicates, every row read (see C44) is
      returned, its cells under their new names. *)
  Theorem C45_rows : forall cfg files valid sl out,
    c_preprocess cfg = None -> c_remove_duplicates cfg = false -> load_data_for_single_time sort_values cfg files valid sl = Ok out ->
    exists w df, time_window cfg valid sl = Ok w /\ read_window cfg files w = Ok df /\ cols out = c_variables cfg ++ c_coordinates cfg /\
      (no_clash cfg df -> (forall c, In c (cols out) -> exists c0, In c0 (cols df) /\ new_name cfg c0 = c) /\
         Forall2 (fun r o => forall c, In c (cols df) -> o (new_name cfg c) = r c) (rows df) (rows out)).
  Proof.
    intros cfg files valid sl out Hp Hd H. unfold load_data_for_single_time in H. destruct (time_window cfg valid sl) as [w|] eqn:Ew; [|discriminate]. cbn [bind] in H.
    destruct (read_window cfg files w) as [df|] eqn:Er; [|discriminate]. cbn [bind] in H. rewrite Hp, Hd in H. cbn [bind] in H. cbv zeta in H. exists w, df. split; [reflexivity|]. split; [exact Er|]. now apply finish_rows.
  Qed.
  (** Duplicates: one row per station, at least as close to the valid time as any other. *)
  Lemma first_of_each_spec k seen rs :
    (forall i j ri rj, (i < j)%nat -> nth_error (first_of_each k seen rs) i = Some ri -> nth_error (first_of_each k seen rs) j = Some rj -> cell_eqb (rj k) (ri k) = false) /\
    (forall r, In r (first_of_each k seen rs) -> existsb (cell_eqb (r k)) seen = false) /\
    (forall r, In r rs -> existsb (cell_eqb (r k)) seen = true \/ (exists i j r', (i <= j)%nat /\ nth_error rs i = Some r' /\ nth_error rs j = Some r /\ In r' (first_of_each k seen rs) /\ (r' = r \/ cell_eqb (r k) (r' k) = true))).
  Proof.
    revert seen. induction rs as [|x rs IH]; intros seen.
    - split; [intros i j ri rj _ H; destruct i; discriminate|]. split; [intros r []|intros r []].
    - cbn [first_of_each]. destruct (existsb (cell_eqb (x k)) seen) eqn:Ex.
      + destruct (IH seen) as (A & B & C). split; [exact A|]. split; [exact B|]. intros r [->|Hr]; [now left|]. destruct (C r Hr) as [D|(i & j & r' & L & E1 & E2 & I & E3)]; [now left|]. right. exists (S i), (S j), r'. split; [lia|]. auto.
      + destruct (IH (x k :: seen)) as (A & B & C). split; [|split].
        * intros i j ri rj L Hi Hj. destruct j as [|j]; [lia|]. destruct i as [|i].
          -- injection Hi as <-. cbn [nth_error] in Hj. apply nth_error_In in Hj. apply B in Hj. cbn [existsb] in Hj. apply orb_false_iff in Hj. exact (proj1 Hj).
          -- cbn [nth_error] in Hi, Hj. apply (A i j); auto. lia.
        * intros r [<-|Hr]; [exact Ex|]. apply B in Hr. cbn [existsb] in Hr. apply orb_false_iff in Hr. exact (proj2 Hr).
        * intros r [->|Hr].
          -- right. exists 0%nat, 0%nat, r. split; [lia|]. split; [reflexivity|]. split; [reflexivity|]. split; [now left|now left].
          -- destruct (C r Hr) as [D|(i & j & r' & L & E1 & E2 & I & E3)].
             ++ cbn [existsb] in D. apply orb_true_iff in D. destruct D as [D|D]; [|now left]. right. apply In_nth_error in Hr. destruct Hr as [n Hn]. exists 0%nat, (S n), x. split; [lia|]. split; [reflexivity|]. split; [exact Hn|]. split; [now left|now right].
             ++ right. exists (S i), (S j), r'. split; [lia|]. split; [exact E1|]. split; [exact E2|]. split; [now right|exact E3].
  Qed.
  Theorem C45_duplicates : forall cfg df valid df' station,
    pick_closest_from_duplicates sort_values cfg df valid = Ok df' -> c_observation_dim cfg = Some station ->
    (forall o, In o (rows df') -> In o (rows df)) /\
    (forall i j oi oj, (i < j)%nat -> nth_error (rows df') i = Some oi -> nth_error (rows df') j = Some oj -> cell_eqb (oj station) (oi station) = false) /\
    (forall r, In r (rows df) -> exists o, In o (rows df') /\ (o = r \/ cell_eqb (r station) (o station) = true) /\
       forall k t, c_pick_by cfg = Some k -> r k = CTime t -> exists t', o k = CTime t' /\ Z.abs (t' - valid) <= Z.abs (t - valid)).
  Proof.
    intros cfg df valid df' station H Hs. split; [intros o; exact (pick_In _ _ _ _ o H)|]. unfold pick_closest_from_duplicates in H. match type of H with (do m <- ?x; _) = _ => destruct x as [srt|] eqn:Es; [|discriminate] end. cbn [bind] in H.
    rewrite Hs in H. destruct (memb station (cols df)); [|discriminate]. injection H as <-. cbn [rows]. destruct (first_of_each_spec station [] srt) as (A & _ & C). split; [exact A|].
    intros r Hr. assert (In r srt) as Hr'.
    { destruct (c_pick_by cfg) as [q|]; [|injection Es as <-; exact Hr]. destruct (negb _); [discriminate|]. destruct (forallb _ _); [|discriminate]. injection Es as <-. apply (Permutation_in _ (Permutation_sym (sort_perm _ _))). exact Hr. }
    destruct (C r Hr') as [D|(i & j & o & L & E1 & E2 & I & E3)]; [discriminate|]. exists o. split; [exact I|]. split; [exact E3|]. intros k t Ek Et. rewrite Ek in Es. destruct (negb _); [discriminate|]. destruct (forallb _ _); [|discriminate]. injection Es as <-.
    destruct (Nat.eq_dec i j) as [->|Nij].
    - assert (o = r) by congruence. subst o. exists t. split; [exact Et|lia].
    - pose proof (sort_sorted _ _ i j o r ltac:(lia) E1 E2) as Q. unfold time_diff in Q. rewrite Et in Q. destruct (o k) as [t'| | | |]; cbn [key_le] in Q; try contradiction. exists t'. split; [reflexivity|exact Q].
  Qed.
End Single.
Print Assumptions C45_window.
Print Assumptions C45_rows.
Print Assumptions C45_duplicates.
