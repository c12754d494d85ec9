From Coq Require Import List ZArith Lia Bool Arith Permutation.
Import ListNotations.
From Verif Require Import Prelude Model_TimeChunks Spec_TimeChunks.
Local Open Scope Z_scope.

Lemma zlen_nonneg {A} (l : list A) : 0 <= zlen l.
Proof. unfold zlen. lia. Qed.

(** Piece [k] in natural-number form. *)
Definition piece (s : nat) (l : list Z) (k : nat) : list Z := firstn s (skipn (k * s) l).

Lemma skipn_skipn' {A} (l : list A) : forall a b, skipn a (skipn b l) = skipn (a + b) l.
Proof.
  intros a b. revert l a. induction b as [|b IH]; intros l a.
  - now rewrite Nat.add_0_r.
  - destruct l; [now rewrite !skipn_nil|]. rewrite Nat.add_succ_r. simpl. apply IH.
Qed.

Lemma firstn_add {A} (l : list A) : forall a b, firstn (a + b) l = firstn a l ++ firstn b (skipn a l).
Proof.
  intros a. revert l. induction a as [|a IH]; intros l b; [reflexivity|].
  destruct l; simpl; [now rewrite firstn_nil|]. now rewrite IH.
Qed.

Lemma concat_pieces s l m : concat (map (piece s l) (seq 0 m)) = firstn (m * s) l.
Proof.
  induction m as [|m IH]; [reflexivity|].
  rewrite seq_S, map_app, concat_app, IH. simpl. rewrite app_nil_r.
  rewrite (Nat.add_comm s (m * s)), firstn_add. reflexivity.
Qed.

Lemma piece_length s l k : length (piece s l k) = Nat.min s (length l - k * s).
Proof. unfold piece. now rewrite firstn_length, skipn_length. Qed.

Definition npieces (n s : Z) : nat := Z.to_nat ((n + s - 1) / s).

Lemma npieces_cover n s : 0 <= n -> 0 < s -> n <= Z.of_nat (npieces n s) * s.
Proof.
  intros Hn Hs. unfold npieces.
  assert (0 <= (n + s - 1) / s) by (apply Z.div_pos; lia).
  rewrite Z2Nat.id by auto.
  pose proof (Z.mod_pos_bound (n + s - 1) s Hs).
  pose proof (Z.div_mod (n + s - 1) s). nia.
Qed.

Lemma npieces_tight n s k : 0 <= n -> 0 < s -> (k < npieces n s)%nat -> Z.of_nat k * s < n.
Proof.
  intros Hn Hs Hk. unfold npieces in Hk.
  assert (0 <= (n + s - 1) / s) by (apply Z.div_pos; lia).
  assert (Z.of_nat k + 1 <= (n + s - 1) / s) by lia.
  pose proof (Z.mod_pos_bound (n + s - 1) s Hs).
  pose proof (Z.div_mod (n + s - 1) s). nia.
Qed.

Lemma split_chunks_eq l size ps :
  0 < size -> split_chunks l size = Ok ps ->
  ps = map (piece (Z.to_nat size) l) (seq 0 (npieces (zlen l) size)).
Proof.
  intros Hs. unfold split_chunks, py_range0.
  replace (size =? 0) with false by (symmetry; apply Z.eqb_neq; lia).
  replace (size <? 0) with false by (symmetry; apply Z.ltb_ge; lia).
  simpl. intros [= <-]. rewrite map_map. apply map_ext_in.
  intros k _. unfold py_slice, piece. f_equal; [lia|]. f_equal. nia.
Qed.

Lemma split_chunks_pos l size : 0 < size -> exists ps, split_chunks l size = Ok ps.
Proof.
  intros Hs. unfold split_chunks, py_range0.
  replace (size =? 0) with false by (symmetry; apply Z.eqb_neq; lia).
  replace (size <? 0) with false by (symmetry; apply Z.ltb_ge; lia).
  simpl. eauto.
Qed.

Lemma nth_error_pieces s l m k :
  nth_error (map (piece s l) (seq 0 m)) k = if (k <? m)%nat then Some (piece s l k) else None.
Proof.
  destruct (k <? m)%nat eqn:E.
  - apply Nat.ltb_lt in E. erewrite map_nth_error; [reflexivity|].
    rewrite nth_error_nth' with (d := 0%nat) by (rewrite seq_length; auto).
    now rewrite seq_nth by auto.
  - apply Nat.ltb_ge in E. apply nth_error_None. now rewrite map_length, seq_length.
Qed.

Lemma split_chunks_pieces l size ps :
  0 < size -> split_chunks l size = Ok ps -> pieces_of size l ps.
Proof.
  intros Hs Hps. pose proof (split_chunks_eq _ _ _ Hs Hps) as E. clear Hps.
  pose proof (zlen_nonneg l) as Hn. unfold zlen in Hn.
  split; [|split].
  - rewrite E, concat_pieces. apply firstn_all2.
    pose proof (npieces_cover (zlen l) size (zlen_nonneg l) Hs). unfold zlen in *. nia.
  - subst ps. apply Forall_forall. intros p Hp. apply in_map_iff in Hp.
    destruct Hp as [k [<- Hk]]. apply in_seq in Hk.
    pose proof (npieces_tight (zlen l) size k (zlen_nonneg l) Hs ltac:(lia)).
    rewrite piece_length. unfold zlen in *. nia.
  - intros q p rest Eq Hr. rewrite E in Eq.
    assert (nth_error (map (piece (Z.to_nat size) l) (seq 0 (npieces (zlen l) size))) (length q) = Some p) as H1.
    { rewrite Eq. rewrite nth_error_app2 by lia. now rewrite Nat.sub_diag. }
    rewrite nth_error_pieces in H1.
    destruct (length q <? npieces (zlen l) size)%nat eqn:E1; [|discriminate].
    injection H1 as <-.
    assert (length (map (piece (Z.to_nat size) l) (seq 0 (npieces (zlen l) size))) = length (q ++ piece (Z.to_nat size) l (length q) :: rest)) as H2 by now f_equal.
    rewrite map_length, seq_length, app_length in H2. simpl in H2.
    destruct rest as [|r0 rest]; [congruence|]. simpl in H2.
    pose proof (npieces_tight (zlen l) size (S (length q)) (zlen_nonneg l) Hs ltac:(lia)).
    rewrite piece_length. unfold zlen in *. nia.
Qed.

Lemma effective_size_pos s l :
  negative s = false -> (l <> [] \/ falsy s = false) -> 0 < effective_size s l.
Proof.
  unfold negative, falsy, effective_size, zlen. destruct s as [z|].
  - intros H1 H2. apply Z.ltb_ge in H1. destruct (z =? 0) eqn:E.
    + destruct H2 as [H2|H2]; [|discriminate]. destruct l; [congruence|]. simpl. lia.
    + apply Z.eqb_neq in E. lia.
  - intros _ [H|H]; [|discriminate]. destruct l; [congruence|]. simpl. lia.
Qed.

Lemma effective_size_zero s l :
  l = [] -> falsy s = true -> effective_size s l = 0.
Proof.
  intros -> Hs. unfold effective_size, falsy in *. destruct s; [|reflexivity]. now rewrite Hs.
Qed.

(** When does the split succeed? *)
Lemma split_effective s l :
  negative s = false ->
  (exists ps, split_chunks l (effective_size s l) = Ok ps) <-> (l <> [] \/ falsy s = false).
Proof.
  intros Hs. split.
  - intros [ps Hps]. destruct l; [|left; discriminate]. right.
    destruct (falsy s) eqn:E; [|reflexivity].
    rewrite (effective_size_zero s [] eq_refl E) in Hps. discriminate.
  - intros H. apply split_chunks_pos. now apply effective_size_pos.
Qed.

Lemma split_Ok_pos s l ps :
  negative s = false -> split_chunks l (effective_size s l) = Ok ps -> 0 < effective_size s l.
Proof.
  intros Hs H. apply effective_size_pos; auto. apply split_effective; eauto.
Qed.

Lemma split_err s l e : split_chunks l s = Err e -> e = ValueError.
Proof.
  unfold split_chunks, py_range0. destruct (s =? 0); simpl; [congruence|].
  destruct (s <? 0); simpl; discriminate.
Qed.

(** Shape of a successfully built object with array lead times. *)
Lemma make_arr_inv init lead isz lsz tc :
  make_time_chunks init (LeadArr lead) isz lsz = Ok tc ->
  exists ics lcs,
    negative isz = false /\ negative lsz = false /\
    split_chunks init (effective_size isz init) = Ok ics /\
    split_chunks lead (effective_size lsz lead) = Ok lcs /\
    tc = {| tc_init_times := init; tc_lead_times := LeadArr lead;
            tc_init_size := effective_size isz init;
            tc_lead_size := Some (effective_size lsz lead);
            tc_init_chunks := ics; tc_lead_chunks := map ChunkArr lcs |}.
Proof.
  unfold make_time_chunks. destruct (negative isz); [discriminate|].
  destruct (negative lsz); [discriminate|].
  destruct (split_chunks init _) as [ics|] eqn:E1; simpl; [|discriminate].
  destruct (split_chunks lead _) as [lcs|] eqn:E2; simpl; [|discriminate].
  intros [= <-]. exists ics, lcs. auto.
Qed.

(** Pairs of a product of chunks are, up to order, the product of the concatenations. *)
Lemma list_prod_app_l {A B} (a b : list A) (c : list B) :
  list_prod (a ++ b) c = list_prod a c ++ list_prod b c.
Proof. induction a; simpl; [reflexivity|]. now rewrite IHa, app_assoc. Qed.

Lemma list_prod_app_r {A B} (a : list A) (b c : list B) :
  Permutation (list_prod a (b ++ c)) (list_prod a b ++ list_prod a c).
Proof.
  induction a; simpl; [reflexivity|]. rewrite map_app, <- !app_assoc.
  apply Permutation_app_head. rewrite IHa. rewrite !app_assoc.
  apply Permutation_app_tail. apply Permutation_app_comm.
Qed.

Lemma list_prod_nil_r {A B} (a : list A) : list_prod a (@nil B) = [].
Proof. induction a; auto. Qed.

Lemma flat_map_row {A B} (a : list A) (bs : list (list B)) :
  Permutation (flat_map (list_prod a) bs) (list_prod a (concat bs)).
Proof.
  induction bs as [|b bs IH]; simpl; [now rewrite list_prod_nil_r|].
  rewrite list_prod_app_r. now apply Permutation_app_head.
Qed.

Lemma product_cover {A B} (xs : list (list A)) (ys : list (list B)) :
  Permutation (flat_map (fun c => list_prod (fst c) (snd c)) (list_prod xs ys))
              (list_prod (concat xs) (concat ys)).
Proof.
  induction xs as [|x xs IH]; simpl; [reflexivity|].
  rewrite flat_map_app, list_prod_app_l. apply Permutation_app; [|exact IH].
  clear IH. rewrite <- flat_map_row.
  induction ys as [|y ys IH]; simpl; [reflexivity|]. now apply Permutation_app_head.
Qed.

Lemma list_prod_map_r {A B C} (f : B -> C) (a : list A) (b : list B) :
  list_prod a (map f b) = map (fun p => (fst p, f (snd p))) (list_prod a b).
Proof.
  induction a; simpl; [reflexivity|]. now rewrite map_app, !map_map, IHa.
Qed.

(** Random access into a product. *)
Lemma nth_error_list_prod {A B} (xs : list A) (ys : list B) k :
  (k < length xs * length ys)%nat ->
  nth_error (list_prod xs ys) k =
  match nth_error xs (k / length ys), nth_error ys (k mod length ys) with
  | Some x, Some y => Some (x, y) | _, _ => None end.
Proof.
  revert k. induction xs as [|x xs IH]; intros k Hk; simpl in Hk; [lia|].
  assert (length ys <> 0)%nat as Hy by (intros E; rewrite E in Hk; lia).
  simpl list_prod. destruct (lt_dec k (length ys)) as [Hl|Hl].
  - rewrite nth_error_app1 by now rewrite map_length.
    rewrite Nat.div_small, Nat.mod_small by auto. simpl.
    destruct (nth_error ys k) eqn:E.
    + now apply map_nth_error with (f := fun y => (x, y)) in E.
    + apply nth_error_None in E. lia.
  - rewrite nth_error_app2 by (rewrite map_length; lia). rewrite map_length.
    rewrite IH by lia.
    assert (k / length ys = S ((k - length ys) / length ys))%nat as ->.
    { replace k with ((k - length ys) + 1 * length ys)%nat at 1 by lia.
      rewrite Nat.div_add by auto. lia. }
    assert (k mod length ys = (k - length ys) mod length ys)%nat as ->.
    { replace k with ((k - length ys) + 1 * length ys)%nat at 1 by lia.
      now rewrite Nat.mod_add by auto. }
    reflexivity.
Qed.

Lemma tc_len_iter tc : tc_len tc = Z.of_nat (length (tc_iter tc)).
Proof. unfold tc_len, tc_iter, zlen. rewrite prod_length. lia. Qed.

Lemma getitem_spec tc i :
  tc_getitem tc i =
  if (i <? 0) then Err IndexError
  else match nth_error (tc_iter tc) (Z.to_nat i) with
       | Some c => Ok c | None => Err IndexError end.
Proof.
  unfold tc_getitem. destruct (i <? 0) eqn:E0; [reflexivity|]. apply Z.ltb_ge in E0. simpl.
  rewrite tc_len_iter. destruct (i >=? _) eqn:E1.
  - apply Z.geb_le in E1. replace (nth_error _ _) with (@None (list Z * lead_chunk)); [reflexivity|].
    symmetry. apply nth_error_None. lia.
  - rewrite Z.geb_leb in E1. apply Z.leb_gt in E1. unfold tc_iter in *. rewrite prod_length in E1.
    rewrite nth_error_list_prod by lia. unfold py_index, zlen.
    assert (0 < Z.of_nat (length (tc_lead_chunks tc))) by nia.
    assert (Z.to_nat (i / Z.of_nat (length (tc_lead_chunks tc))) = (Z.to_nat i / length (tc_lead_chunks tc))%nat) as ->.
    { rewrite Z2Nat.inj_div by lia. now rewrite Nat2Z.id. }
    assert (Z.to_nat (i mod Z.of_nat (length (tc_lead_chunks tc))) = (Z.to_nat i mod length (tc_lead_chunks tc))%nat) as ->.
    { rewrite Z2Nat.inj_mod by lia. now rewrite Nat2Z.id. }
    destruct (nth_error (tc_init_chunks tc) _) eqn:E2; simpl.
    + destruct (nth_error (tc_lead_chunks tc) _) eqn:E3; simpl; reflexivity.
    + apply nth_error_None in E2.
      pose proof (Nat.div_lt_upper_bound (Z.to_nat i) (length (tc_lead_chunks tc)) (length (tc_init_chunks tc)) ltac:(lia) ltac:(lia)). lia.
Qed.

Theorem getitem_agrees tc i :
  (0 <= i < tc_len tc -> exists c, nth_error (tc_iter tc) (Z.to_nat i) = Some c /\ tc_getitem tc i = Ok c) /\
  (~ (0 <= i < tc_len tc) -> tc_getitem tc i = Err IndexError).
Proof.
  rewrite tc_len_iter, getitem_spec. split.
  - intros Hi. destruct (i <? 0) eqn:E; [apply Z.ltb_lt in E; lia|].
    destruct (nth_error (tc_iter tc) (Z.to_nat i)) eqn:E1; [eauto|].
    apply nth_error_None in E1. lia.
  - intros Hi. destruct (i <? 0) eqn:E; [reflexivity|]. apply Z.ltb_ge in E.
    destruct (nth_error (tc_iter tc) (Z.to_nat i)) eqn:E1; [|reflexivity].
    assert (nth_error (tc_iter tc) (Z.to_nat i) <> None) as H1 by congruence.
    apply nth_error_Some in H1. lia.
Qed.

(** C01 *)
Theorem partition init lead isz lsz tc :
  make_time_chunks init (LeadArr lead) isz lsz = Ok tc ->
  exists ics lcs,
    tc_iter tc = list_prod ics (map ChunkArr lcs) /\
    pieces_of (match isz with Some (Zpos p) => Zpos p | _ => zlen init end) init ics /\
    pieces_of (match lsz with Some (Zpos p) => Zpos p | _ => zlen lead end) lead lcs /\
    Permutation
      (flat_map (fun c => list_prod (fst c) (match snd c with ChunkArr l => l | ChunkSlice _ _ => [] end)) (tc_iter tc))
      (list_prod init lead).
Proof.
  intros H. apply make_arr_inv in H. destruct H as (ics & lcs & H1 & H2 & H3 & H4 & ->).
  exists ics, lcs. unfold tc_iter. simpl.
  assert (forall s l, negative s = false -> effective_size s l = match s with Some (Zpos p) => Zpos p | _ => zlen l end) as He.
  { intros [z|] l Hz; simpl; [|reflexivity]. destruct z; simpl; try reflexivity. simpl in Hz. discriminate. }
  pose proof (split_chunks_pieces _ _ _ (split_Ok_pos _ _ _ H1 H3) H3) as P1.
  pose proof (split_chunks_pieces _ _ _ (split_Ok_pos _ _ _ H2 H4) H4) as P2.
  rewrite He in P1, P2 by auto.
  split; [reflexivity|]. split; [exact P1|]. split; [exact P2|].
  destruct P1 as [<- _]. destruct P2 as [<- _].
  rewrite <- product_cover. rewrite list_prod_map_r.
  rewrite flat_map_concat_map, map_map, <- flat_map_concat_map. reflexivity.
Qed.

Theorem single_chunk init lead isz lsz tc :
  make_time_chunks init (LeadArr lead) isz lsz = Ok tc ->
  (isz = None \/ isz = Some 0) -> (lsz = None \/ lsz = Some 0) ->
  tc_iter tc = [(init, ChunkArr lead)].
Proof.
  intros H Hi Hl. apply make_arr_inv in H. destruct H as (ics & lcs & H1 & H2 & H3 & H4 & ->).
  unfold tc_iter. simpl.
  assert (forall s l ps, (s = None \/ s = Some 0) -> negative s = false -> split_chunks l (effective_size s l) = Ok ps -> ps = [l]) as K.
  { intros s l ps Hs Hn Hp. pose proof (split_Ok_pos _ _ _ Hn Hp) as Hpos.
    assert (effective_size s l = zlen l) as E by (destruct Hs as [-> | ->]; reflexivity).
    rewrite E in *. apply split_chunks_eq in Hp; [|auto].
    unfold npieces in Hp. replace ((zlen l + zlen l - 1) / zlen l) with 1 in Hp.
    2:{ apply Z.div_unique with (r := zlen l - 1); lia. }
    simpl in Hp. rewrite Hp. unfold piece, zlen. simpl. rewrite firstn_all2 by lia. reflexivity. }
  rewrite (K _ _ _ Hi H1 H3), (K _ _ _ Hl H2 H4). reflexivity.
Qed.

Theorem slice_partition init a b isz lsz tc :
  make_time_chunks init (LeadSlice (Some a) (Some b) None) isz lsz = Ok tc ->
  exists ics,
    tc_iter tc = list_prod ics [ChunkSlice a b] /\
    pieces_of (match isz with Some (Zpos p) => Zpos p | _ => zlen init end) init ics.
Proof.
  unfold make_time_chunks. destruct (negative isz) eqn:E0; [discriminate|].
  destruct (negative lsz); [discriminate|].
  destruct (split_chunks init _) as [ics|] eqn:E1; simpl; [|discriminate].
  destruct (falsy lsz); [|discriminate]. intros [= <-]. exists ics. unfold tc_iter. simpl. split; [reflexivity|].
  pose proof (split_chunks_pieces _ _ _ (split_Ok_pos _ _ _ E0 E1) E1) as P1.
  assert (effective_size isz init = match isz with Some (Zpos p) => Zpos p | _ => zlen init end) as <-; [|exact P1].
  destruct isz as [z|]; simpl; [|reflexivity]. destruct z; simpl; try reflexivity. discriminate.
Qed.

(** C03 *)
Lemma mapM_offsets_Ok tc ls :
  tc_lead_size tc = Some ls ->
  tc_iter_offsets tc =
  Ok (map (fun ix => ({| off_init := tc_init_size tc * (Z.of_nat (fst ix) / zlen (tc_lead_chunks tc));
                         off_lead := ls * (Z.of_nat (fst ix) mod zlen (tc_lead_chunks tc)) |}, snd ix))
          (combine (seq 0 (length (tc_iter tc))) (tc_iter tc))).
Proof. intros H. unfold tc_iter_offsets. rewrite H. apply mapM_pure. Qed.

Lemma nth_error_combine_seq {A} (l : list A) k c :
  nth_error (combine (seq 0 (length l)) l) k = Some c ->
  fst c = k /\ nth_error l k = Some (snd c).
Proof.
  assert (forall s (l : list A) k c, nth_error (combine (seq s (length l)) l) k = Some c ->
    fst c = (s + k)%nat /\ nth_error l k = Some (snd c)) as K.
  { clear. intros s l; revert s. induction l as [|a l IH]; intros s [|k] c; simpl; try discriminate.
    - intros [= <-]. simpl. split; [lia|reflexivity].
    - intros H. apply IH in H. destruct H. split; [lia|auto]. }
  intros H. apply K in H. simpl in H. exact H.
Qed.

Theorem offsets_locate init lead isz lsz tc os :
  make_time_chunks init (LeadArr lead) isz lsz = Ok tc ->
  tc_iter_offsets tc = Ok os ->
  map snd os = tc_iter tc /\
  (forall o ic lc, In (o, (ic, ChunkArr lc)) os ->
      ic = run_at init (off_init o) (length ic) /\ lc = run_at lead (off_lead o) (length lc) /\
      0 <= off_init o < zlen init /\ 0 <= off_lead o < zlen lead) /\
  NoDup (map fst os).
Proof.
  intros Hm Ho. apply make_arr_inv in Hm. destruct Hm as (ics & lcs & H1 & H2 & H3 & H4 & E).
  pose proof (split_Ok_pos _ _ _ H1 H3) as Hp1. pose proof (split_Ok_pos _ _ _ H2 H4) as Hp2.
  pose proof (split_chunks_eq _ _ _ Hp1 H3) as E1. pose proof (split_chunks_eq _ _ _ Hp2 H4) as E2.
  set (si := effective_size isz init) in *. set (sl := effective_size lsz lead) in *.
  assert (tc_lead_size tc = Some sl) as Hls by now subst tc.
  rewrite (mapM_offsets_Ok _ _ Hls) in Ho. injection Ho as Ho.
  assert (length ics = npieces (zlen init) si) as Li by now rewrite E1, map_length, seq_length.
  assert (length lcs = npieces (zlen lead) sl) as Ll by now rewrite E2, map_length, seq_length.
  assert (forall k c, nth_error (tc_iter tc) k = Some c ->
      (k < length ics * length lcs)%nat /\ (0 < length lcs)%nat /\ (k / length lcs < length ics)%nat /\
      (k mod length lcs < length lcs)%nat /\
      c = (piece (Z.to_nat si) init (k / length lcs), ChunkArr (piece (Z.to_nat sl) lead (k mod length lcs)))) as K.
  { intros k c Hc. assert (k < length (tc_iter tc))%nat as Hk by (apply nth_error_Some; congruence).
    subst tc. unfold tc_iter in *. simpl in *. rewrite prod_length, map_length in Hk.
    rewrite nth_error_list_prod in Hc by (rewrite map_length; exact Hk). rewrite map_length in Hc.
    assert (0 < length lcs)%nat by nia.
    assert (k / length lcs < length ics)%nat by (apply Nat.div_lt_upper_bound; lia).
    assert (k mod length lcs < length lcs)%nat by (apply Nat.mod_upper_bound; lia).
    split; [exact Hk|]. split; [lia|]. split; [assumption|]. split; [assumption|].
    assert (forall j, (j < length ics)%nat -> nth_error ics j = Some (piece (Z.to_nat si) init j)) as N1.
    { intros j Hj. rewrite Li in Hj. rewrite E1, nth_error_pieces. apply Nat.ltb_lt in Hj. now rewrite Hj. }
    assert (forall j, (j < length lcs)%nat -> nth_error lcs j = Some (piece (Z.to_nat sl) lead j)) as N2.
    { intros j Hj. rewrite Ll in Hj. rewrite E2, nth_error_pieces. apply Nat.ltb_lt in Hj. now rewrite Hj. }
    rewrite N1 in Hc by auto. rewrite nth_error_map in Hc. rewrite N2 in Hc by auto.
    simpl in Hc. congruence. }
  assert (zlen (tc_lead_chunks tc) = Z.of_nat (length lcs)) as Hz by (subst tc; unfold zlen; simpl; now rewrite map_length).
  assert (tc_init_size tc = si) as Hsi by now subst tc.
  rewrite Hz, Hsi in Ho.
  split; [|split].
  - subst os. rewrite map_map. simpl.
    assert (forall (l : list (list Z * lead_chunk)) s, map (fun x => snd x) (combine (seq s (length l)) l) = l) as Q.
    { induction l; intros s; simpl; [reflexivity|]. now rewrite IHl. }
    apply Q.
  - intros o ic lc Hin. subst os. apply in_map_iff in Hin. destruct Hin as [[k c] [Heq Hin]]. simpl in Heq.
    apply In_nth_error in Hin. destruct Hin as [k' Hk']. apply nth_error_combine_seq in Hk'. simpl in Hk'.
    destruct Hk' as [<- Hc]. injection Heq as Heo Hec. subst o. simpl.
    destruct (K _ _ Hc) as (Hk & Hl0 & Hki & Hkl & Hceq). rewrite Hceq in Hec. injection Hec as Ei El.
    rewrite <- Nat2Z.inj_div, <- Nat2Z.inj_mod.
    pose proof (npieces_tight (zlen init) si (k / length lcs)%nat (zlen_nonneg _) Hp1 ltac:(lia)) as T1.
    pose proof (npieces_tight (zlen lead) sl (k mod length lcs)%nat (zlen_nonneg _) Hp2 ltac:(lia)) as T2.
    assert (forall s (l : list Z) j, 0 < s -> piece (Z.to_nat s) l j = run_at l (s * Z.of_nat j) (length (piece (Z.to_nat s) l j))) as R.
    { intros s l j Hs. unfold run_at. rewrite piece_length. unfold piece.
      replace (Z.to_nat (s * Z.of_nat j)) with (j * Z.to_nat s)%nat by nia.
      rewrite <- skipn_length.
      destruct (Nat.le_ge_cases (Z.to_nat s) (length (skipn (j * Z.to_nat s) l))) as [Hle|Hge].
      - now rewrite Nat.min_l by lia.
      - rewrite Nat.min_r by lia. rewrite firstn_all. now apply firstn_all2. }
    split; [|split; [|split]].
    + rewrite <- Ei. now apply R.
    + rewrite <- El. now apply R.
    + split; [|lia]. apply Z.mul_nonneg_nonneg; lia.
    + split; [|lia]. apply Z.mul_nonneg_nonneg; lia.
  - subst os. rewrite map_map. simpl.
    assert (forall l : list (nat * (list Z * lead_chunk)), NoDup (map fst l) ->
      (forall x, In x l -> (0 < length lcs)%nat) ->
      NoDup (map (fun x => {| off_init := si * (Z.of_nat (fst x) / Z.of_nat (length lcs));
                              off_lead := sl * (Z.of_nat (fst x) mod Z.of_nat (length lcs)) |}) l)) as Q.
    { clear - Hp1 Hp2. induction l as [|x l IHl]; simpl; intros Hnd Hpos; [constructor|].
      inversion Hnd as [|? ? Hni Hnd']; subst. constructor; [|apply IHl; [auto|intros z Hz; apply (Hpos z); auto]].
      intros Hin. apply in_map_iff in Hin. destruct Hin as [y [Hy Hyl]]. injection Hy as Hd Hmo.
      apply Hni. apply in_map_iff. exists y. split; [|auto].
      assert (0 < length lcs)%nat by (apply (Hpos x); auto).
      apply Z.mul_reg_l in Hd; [|clear - Hp1; lia]. apply Z.mul_reg_l in Hmo; [|clear - Hp2; lia].
      apply Nat2Z.inj. rewrite (Z.div_mod (Z.of_nat (fst y)) (Z.of_nat (length lcs))) by lia.
      rewrite (Z.div_mod (Z.of_nat (fst x)) (Z.of_nat (length lcs))) by lia. rewrite Hd, Hmo. reflexivity. }
    apply Q.
    + assert (forall (l : list (list Z * lead_chunk)) s, map fst (combine (seq s (length l)) l) = seq s (length l)) as Q2.
      { induction l; intros s; simpl; [reflexivity|]. now rewrite IHl. }
      rewrite Q2. apply seq_NoDup.
    + intros [k c] Hin. apply In_nth_error in Hin. destruct Hin as [k' Hk']. apply nth_error_combine_seq in Hk'.
      destruct Hk' as [_ Hc]. destruct (K _ _ Hc) as (_ & Hl0 & _). exact Hl0.
Qed.

Theorem offsets_defined init lead isz lsz tc :
  make_time_chunks init (LeadArr lead) isz lsz = Ok tc -> exists os, tc_iter_offsets tc = Ok os.
Proof.
  intros Hm. apply make_arr_inv in Hm. destruct Hm as (ics & lcs & H1 & H2 & H3 & H4 & E).
  eexists. eapply mapM_offsets_Ok. subst tc. reflexivity.
Qed.

(** The documented call for lead-time intervals (size None) cannot be iterated with offsets. *)
Theorem offsets_slice_TypeError init a b isz tc :
  make_time_chunks init (LeadSlice (Some a) (Some b) None) isz None = Ok tc ->
  tc_iter tc <> [] ->
  tc_iter_offsets tc = Err TypeError.
Proof.
  unfold make_time_chunks. destruct (negative isz); [discriminate|]. simpl.
  destruct (split_chunks init _) as [ics|]; simpl; [|discriminate].
  intros [= <-]. unfold tc_iter_offsets, tc_iter. simpl.
  destruct ics as [|ic ics]; [intros H; now elim H|]. simpl. intros _. reflexivity.
Qed.

(** C04 *)
Lemma negative_iff s : negative s = true <-> exists z, s = Some z /\ z < 0.
Proof.
  unfold negative. destruct s as [z|].
  - rewrite Z.ltb_lt. split; [eauto|]. intros [y [[= <-] H]]. auto.
  - split; [discriminate|]. intros [y [[=] _]].
Qed.
Lemma falsy_iff s : falsy s = true <-> (s = None \/ s = Some 0).
Proof.
  unfold falsy. destruct s as [z|].
  - rewrite Z.eqb_eq. split; [intros ->; auto|]. intros [[=]|[= ->]]. auto.
  - split; auto.
Qed.

Lemma split_err_iff s l : negative s = false ->
  (split_chunks l (effective_size s l) = Err ValueError <-> (l = [] /\ falsy s = true)).
Proof.
  intros Hn. split.
  - intros H. destruct l as [|a l].
    + split; auto. destruct (falsy s) eqn:E; auto. exfalso.
      destruct (proj2 (split_effective s [] Hn) (or_intror E)) as [ps Hps]. congruence.
    + exfalso. destruct (proj2 (split_effective s (a :: l) Hn)) as [ps Hps]; [left; discriminate|congruence].
  - intros [-> Hf]. rewrite (effective_size_zero s [] eq_refl Hf). reflexivity.
Qed.

Theorem validation init lead isz lsz :
  (bad_args init lead isz lsz -> make_time_chunks init lead isz lsz = Err ValueError) /\
  (~ bad_args init lead isz lsz -> exists tc, make_time_chunks init lead isz lsz = Ok tc).
Proof.
  unfold make_time_chunks.
  destruct (negative isz) eqn:Ei.
  { apply negative_iff in Ei. split; [auto|]. intros H. destruct H. left. auto. }
  destruct (negative lsz) eqn:El.
  { apply negative_iff in El. split; [auto|]. intros H. destruct H. right. left. auto. }
  assert (~ (exists z, isz = Some z /\ z < 0)) as Hi by (rewrite <- negative_iff; congruence).
  assert (~ (exists z, lsz = Some z /\ z < 0)) as Hl by (rewrite <- negative_iff; congruence).
  unfold bad_args.
  destruct (split_chunks init _) as [ics|e] eqn:E1; simpl.
  2:{ pose proof (split_err _ _ _ E1). subst e. apply split_err_iff in E1; auto. rewrite falsy_iff in E1. tauto. }
  assert (~ (init = [] /\ (isz = None \/ isz = Some 0))) as Hie.
  { rewrite <- falsy_iff. rewrite <- split_err_iff by auto. congruence. }
  destruct lead as [l|a b s|].
  - destruct (split_chunks l _) as [lcs|e] eqn:E2; simpl.
    + split; [|eauto]. rewrite <- (falsy_iff lsz). rewrite <- split_err_iff by auto.
      intros [?|[?|[?|H]]]; try tauto. congruence.
    + pose proof (split_err _ _ _ E2). subst e. apply split_err_iff in E2; auto. rewrite falsy_iff in E2. tauto.
  - destruct a as [a|]; [|split; [auto|intros H; exfalso; tauto]].
    destruct b as [b|]; [|split; [auto|intros H; exfalso; tauto]].
    destruct s as [s|].
    + split; [auto|]. intros H. exfalso. apply H. right. right. right. right. right. left. discriminate.
    + destruct (falsy lsz) eqn:E3.
      * apply falsy_iff in E3. split; [|eauto].
        intros [?|[?|[?|[?|[?|[?|?]]]]]]; try tauto; try congruence.
      * split; [auto|]. intros H. exfalso. apply H.
        assert (~ (lsz = None \/ lsz = Some 0)) by (rewrite <- falsy_iff; congruence). tauto.
  - split; [auto|]. tauto.
Qed.
