(** Proofs about the relative economic value, continued: the constant thresholds and the formula. *)
From Coq Require Import String ZArith QArith Qcanon Qreals List Bool Reals Lra Permutation Lia.
Import ListNotations.
From Verif Require Import Prelude Values Model_XArray Spec_XArray Proofs_XArray Model_Tree Spec_Tree Model_MetricsBase Model_Aggregation
  Spec_Aggregator Proofs_Aggregator Proofs_Aggregator2 Spec_Metrics Proofs_Metrics Spec_Means Proofs_Means Model_Calendar Model_Deterministic Proofs_Deterministic
  Model_Categorical Proofs_Categorical Model_Wrappers Proofs_Transforms Proofs_Seeps Spec_Beam Proofs_Beam Model_Latency Proofs_Latency Proofs_Det2 Model_REV Spec_REV Proofs_REV.
Local Open Scope R_scope.
Local Open Scope string_scope.
Local Open Scope list_scope.

(** ** Shape of means *)
Lemma mean_shape g st s ws wrs ms bs m : weighted_input g st s ws wrs ms bs -> mask_local st -> mean_array g st m ->
  wf m /\ aux m = [] /\ dims m = keep (fun d => negb (memb d (reduce_dims g))) (ijoint (st :: ws ++ ms)).
Proof.
  intros W Hm (x & y & H & ->). destruct (agg_var_Some g st x y) as (ws' & ms' & Hw & Hb & _ & _ & Hx & Hy); try apply W; auto.
  rewrite (wi_weights _ _ _ _ _ _ _ W) in Hw. injection Hw as <-. apply bin_masks_Some in Hb. destruct Hb as [Hb _]. rewrite (wi_bins _ _ _ _ _ _ _ W) in Hb. injection Hb as <-.
  destruct (prepare_dims g st) as [D1 D2]. destruct (prepare_wf g st (wi_wf _ _ _ _ _ _ _ W) Hm) as [P1 P2].
  assert (wf x) as Wx by (rewrite Hx; apply dot_wf; intros a [<-|I]; [exact P1|apply (wi_all_wf _ _ _ _ _ _ _ W a I)]).
  assert (wf y) as Wy by (rewrite Hy; apply dot_wf; intros a [<-|I]; [exact P2|apply (wi_all_wf _ _ _ _ _ _ _ W a I)]).
  assert (dims y = dims x) as Dy by (rewrite Hx, Hy, !dims_dot; f_equal; apply ijoint_dims; congruence).
  split; [apply wf_binop; auto|]. split.
  - cbn [binop aux]. rewrite Hx, Hy. reflexivity.
  - cbn [binop dims]. rewrite Dy, merge_self by apply Wx. rewrite Hx, dims_dot. f_equal. apply ijoint_dims. exact D1.
Qed.

(** ** The three parts *)
Definition others (D : dimlist) : dimlist := filter (fun p => negb (eqb (fst p) "threshold")) D.
Definition cdims (D : dimlist) : dimlist :=
  map (fun p => if eqb (fst p) "threshold" then ("threshold", l0 :: labels_of D "threshold" ++ [l1]) else p)
      (fold_left (merge_dims union_labels) [("threshold", [l0]) :: others D; D; ("threshold", [l1]) :: others D] []).
Lemma others_dget D k : k <> "threshold" -> dget (others D) k = dget D k.
Proof.
  intros N. unfold others. induction D as [|[k0 ls] D IH]; [reflexivity|]. cbn [filter fst]. destruct (eqb k0 "threshold") eqn:E; cbn [negb dget].
  - apply eqb_true_iff in E. subst. destruct (eq_dec k "threshold"); [contradiction|exact IH].
  - destruct (eq_dec k k0); auto.
Qed.
Lemma others_names D : ~ In "threshold" (map fst (others D)).
Proof. intros I. apply in_map_iff in I. destruct I as ([k ls] & E & I). cbn in E. subst. apply filter_In in I. destruct I as [_ I]. cbn [fst] in I. rewrite eqb_refl in I. discriminate. Qed.
Lemma wf_expand l B : wf B -> ~ In "threshold" (dnames B) -> wf (expand "threshold" l B).
Proof.
  intros (A & C & L) N. split; [unfold dnames; cbn; constructor; auto|]. split.
  - intros d ls [[= <- <-]|I]; [repeat constructor; intros []|apply (C d ls I)].
  - intros e e' H. apply L. intros d I. apply H. right. exact I.
Qed.

Section Concat.
  Variables (A B0 B1 b : da).
  Let ls := labels_of (dims A) "threshold".
  Hypothesis WA : wf A.
  Hypothesis W0 : wf B0.
  Hypothesis W1 : wf B1.
  Hypothesis D0 : dims B0 = others (dims A).
  Hypothesis D1 : dims B1 = others (dims A).
  Hypothesis X0 : aux B0 = [].
  Hypothesis NL : NoDup (l0 :: ls ++ [l1]).
  Hypothesis H : concat "threshold" [expand "threshold" l0 B0; A; expand "threshold" l1 B1] = Ok b.

  Lemma NB B : dims B = others (dims A) -> ~ In "threshold" (dnames B).
  Proof. intros D. unfold dnames. rewrite D. apply others_names. Qed.
  Lemma concat3_shape : wf b /\ aux b = [] /\ dims b = cdims (dims A) /\
    dget (dims b) "threshold" = Some (l0 :: ls ++ [l1]) /\ (forall k, k <> "threshold" -> dget (dims b) k = dget (dims A) k).
  Proof.
    pose proof (NB _ D0) as N0. pose proof (NB _ D1) as N1.
    destruct (concat_Ok _ _ _ H) as (W & Dt & Dk & _ & _).
    - intros a [<-|[<-|[<-|[]]]]; [apply wf_expand; auto|exact WA|apply wf_expand; auto].
    - exact NL.
    - split; [exact W|]. split; [|split; [|split]].
      + unfold concat in H. destruct (forallb _ _); [|discriminate]. cbn [expand aux] in H. rewrite X0 in H. cbn [mapM bind] in H. injection H as <-. reflexivity.
      + unfold concat in H. destruct (forallb _ _); [|discriminate]. cbn [expand aux] in H. rewrite X0 in H. cbn [mapM bind] in H. injection H as <-. cbn [dims map]. rewrite D0, D1. reflexivity.
      + exact Dt.
      + intros k Nk. apply Dk; auto. intros a [<-|[<-|[<-|[]]]]; [|reflexivity|]; cbn [expand dims dget]; (destruct (eq_dec k "threshold"); [contradiction|]); [rewrite D0|rewrite D1]; apply others_dget, Nk.
  Qed.
  Lemma concat3_point e : point_of (dims b) e <-> In (e "threshold") (l0 :: ls ++ [l1]) /\ point_of (others (dims A)) e.
  Proof.
    destruct concat3_shape as (W & _ & _ & Dt & Dk). assert (forall D (e : env), NoDup (map fst D) -> (point_of D e <-> forall d ls, dget D d = Some ls -> In (e d) ls)) as Pd.
    { intros D e0 N. split; intros HH d ls0 G; [apply (HH d ls0), dget_In, G|apply (HH d ls0), In_dget; auto]. }
    assert (NoDup (map fst (others (dims A)))) as NO by (apply NoDup_map_filter, WA). rewrite !Pd; [|exact NO|apply W]. split.
    - intros HH. split; [apply (HH _ _ Dt)|]. intros d l G. destruct (string_dec d "threshold") as [->|N]; [exfalso; apply (others_names (dims A)); apply (dget_Some_keys _ _ G)|]. rewrite others_dget in G by exact N. apply HH. rewrite Dk; auto.
    - intros [HT HO] d l G. destruct (string_dec d "threshold") as [->|N]; [rewrite Dt in G; injection G as <-; exact HT|]. apply HO. rewrite others_dget by exact N. rewrite <- Dk; auto.
  Qed.
  Lemma concat3_get e : point_of (dims b) e ->
    (e "threshold" = l0 -> get b e = get B0 e) /\ (e "threshold" = l1 -> get b e = get B1 e) /\ (In (e "threshold") ls -> get b e = get A e).
  Proof.
    intros P. apply concat3_point in P. destruct P as [PT PO].
    pose proof (NB _ D0) as N0. pose proof (NB _ D1) as N1.
    destruct (concat_Ok _ _ _ H) as (_ & _ & _ & _ & G).
    { intros a [<-|[<-|[<-|[]]]]; [apply wf_expand; auto|exact WA|apply wf_expand; auto]. }
    { exact NL. }
    rewrite G. unfold piece_at. cbn [find]. change (labels_of (dims (expand "threshold" l0 B0)) "threshold") with [l0]. change (labels_of (dims (expand "threshold" l1 B1)) "threshold") with [l1]. fold ls.
    inversion NL as [|? ? Q1 Q2]; subst. split; [|split].
    - intros E. rewrite E. destruct (memb l0 [l0]) eqn:M; [|apply memb_false in M; exfalso; apply M; left; reflexivity].
      destruct (in_box (dims (expand "threshold" l0 B0)) e) eqn:Bx; [reflexivity|]. exfalso. apply not_true_iff_false in Bx. apply Bx, in_box_iff. intros d l [[= <- <-]|I]; [left; auto|]. rewrite D0 in I. apply (PO d l I).
    - intros E. rewrite E. destruct (memb l1 [l0]) eqn:M0; [apply memb_In in M0; destruct M0 as [M0|[]]; exfalso; apply Q1; rewrite M0; apply in_app_iff; right; left; reflexivity|].
      destruct (memb l1 ls) eqn:M1; [apply memb_In in M1; exfalso; apply NoDup_remove_2 in Q2; apply Q2; rewrite app_nil_r; exact M1|].
      destruct (memb l1 [l1]) eqn:M; [|apply memb_false in M; exfalso; apply M; left; reflexivity].
      destruct (in_box (dims (expand "threshold" l1 B1)) e) eqn:Bx; [reflexivity|]. exfalso. apply not_true_iff_false in Bx. apply Bx, in_box_iff. intros d l [[= <- <-]|I]; [left; auto|]. rewrite D1 in I. apply (PO d l I).
    - intros E. destruct (memb (e "threshold") [l0]) eqn:M0; [apply memb_In in M0; destruct M0 as [M0|[]]; exfalso; apply Q1; rewrite M0; apply in_app_iff; left; exact E|].
      rewrite (proj2 (memb_In _ _) E). destruct (in_box (dims A) e) eqn:Bx; [reflexivity|]. exfalso. apply not_true_iff_false in Bx. apply Bx, in_box_iff. intros d l I. destruct (string_dec d "threshold") as [->|N].
      + unfold ls, labels_of in E. rewrite (In_dget _ _ _ (proj1 WA) I) in E. exact E.
      + apply (PO d l). unfold others. apply filter_In. split; auto. cbn [fst]. apply negb_true_iff, eqb_false_iff, N.
  Qed.
End Concat.

Lemma isel_first_Ok A r : wf A -> aux A = [] -> isel_first "threshold" A = Ok r -> exists l ls, dget (dims A) "threshold" = Some (l :: ls) /\ dims r = others (dims A) /\ aux r = [] /\ wf r /\ forall e, get r e = get A (upd e "threshold" l).
Proof.
  intros W X H. unfold isel_first in H. destruct (dget (dims A) "threshold") as [[|l ls]|] eqn:E; try discriminate. injection H as <-. exists l, ls. split; auto. split; auto. split; [cbn [aux]; rewrite X; reflexivity|]. split; [|reflexivity].
  split; [unfold dnames; cbn [dims]; apply NoDup_map_filter, W|]. split; [intros d k I; apply filter_In in I; apply (proj1 (proj2 W) d k (proj1 I))|].
  intros e e' H. cbn [get]. apply W. intros d I. unfold upd. destruct (string_dec d "threshold") as [|N]; [reflexivity|]. apply H. unfold dnames. cbn [dims]. apply keys_dget in I. destruct I as [k G]. rewrite <- others_dget in G by exact N. apply (dget_Some_keys _ _ G).
Qed.

(** The arrays with the constant thresholds. *)
Lemma constants_spec T F N T' F' N' : wf T -> wf F -> wf N -> aux T = [] -> aux F = [] -> aux N = [] -> dims F = dims T -> dims N = dims T ->
  NoDup (l0 :: labels_of (dims T) "threshold" ++ [l1]) ->
  add_constant_thresholds T F N = Ok (T', F', N') ->
  exists first rest, dget (dims T) "threshold" = Some (first :: rest) /\
    wf T' /\ wf F' /\ wf N' /\ aux T' = [] /\ aux F' = [] /\ aux N' = [] /\ dims T' = cdims (dims T) /\ dims F' = cdims (dims T) /\ dims N' = cdims (dims T) /\
    dget (cdims (dims T)) "threshold" = Some (l0 :: (first :: rest) ++ [l1]) /\ (forall k, k <> "threshold" -> dget (cdims (dims T)) k = dget (dims T) k) /\
    forall e, point_of (cdims (dims T)) e ->
      point_of (others (dims T)) e /\ In (e "threshold") (l0 :: (first :: rest) ++ [l1]) /\
      let base := vadd (get T (upd e "threshold" first)) (get N (upd e "threshold" first)) in
      (e "threshold" = l0 -> get T' e = base /\ get F' e = vsub (Fin 1) base /\ get N' e = Fin 0) /\
      (e "threshold" = l1 -> get T' e = Fin 0 /\ get F' e = Fin 0 /\ get N' e = base) /\
      (In (e "threshold") (first :: rest) -> get T' e = get T e /\ get F' e = get F e /\ get N' e = get N e).
Proof.
  intros WT WF WN XT XF XN DF DN NL H. unfold add_constant_thresholds in H.
  destruct (isel_first "threshold" T) as [t0|] eqn:E1; [|discriminate]. destruct (isel_first "threshold" N) as [n0|] eqn:E2; [|discriminate]. cbn [bind] in H. cbv zeta in H.
  destruct (isel_first_Ok _ _ WT XT E1) as (f & r & Df & Dt0 & Xt0 & Wt0 & Gt0). destruct (isel_first_Ok _ _ WN XN E2) as (f' & r' & Df' & Dn0 & Xn0 & Wn0 & Gn0). rewrite DN in Df'. rewrite Df in Df'. injection Df' as <- <-. rewrite DN in Dn0.
  set (base := binop vadd t0 n0) in *. assert (dims base = others (dims T)) as Db by (unfold base; cbn [binop dims]; rewrite Dt0, Dn0; apply merge_self, NoDup_map_filter, WT).
  assert (aux base = []) as Xb by (unfold base; cbn [binop aux]; rewrite Xt0, Xn0; reflexivity). assert (wf base) as Wb by (apply wf_binop; auto).
  assert (forall h, wf (da_map h base) /\ dims (da_map h base) = others (dims T) /\ aux (da_map h base) = []) as Mb by (intros h; split; [apply wf_map, Wb|auto]).
  destruct (concat "threshold" [expand "threshold" l0 base; T; _]) as [T1|] eqn:C1; [|discriminate]. cbn [bind] in H.
  destruct (concat "threshold" [_; F; _]) as [F1|] eqn:C2; [|discriminate]. cbn [bind] in H.
  destruct (concat "threshold" [_; N; _]) as [N1|] eqn:C3; [|discriminate]. cbn [bind] in H. injection H as <- <- <-.
  assert (In "threshold" (dnames T)) as IT by (apply (dget_Some_keys _ _ Df)). assert (In "threshold" (dnames F)) as IF by (unfold dnames; rewrite DF; exact IT). assert (In "threshold" (dnames N)) as IN by (unfold dnames; rewrite DN; exact IT).
  destruct (Mb (fun _ => Fin 0)) as (Wz & Dz & Xz). destruct (Mb (vsub (Fin 1))) as (Wc & Dc & Xc).
  assert (NoDup (l0 :: labels_of (dims F) "threshold" ++ [l1])) as NF by (rewrite DF; exact NL). assert (NoDup (l0 :: labels_of (dims N) "threshold" ++ [l1])) as NN by (rewrite DN; exact NL).
  pose proof (concat3_shape T base (da_map (fun _ => Fin 0) base) T1 WT Wb Wz Db Dz Xb NL C1) as (S1 & S2 & S3 & S4 & S5).
  pose proof (concat3_get T base (da_map (fun _ => Fin 0) base) T1 WT Wb Wz Db Dz Xb NL C1) as G1.
  pose proof (concat3_point T base (da_map (fun _ => Fin 0) base) T1 WT Wb Wz Db Dz Xb NL C1) as P1.
  rewrite <- DF in Dc, Dz. pose proof (concat3_shape F (da_map (vsub (Fin 1)) base) (da_map (fun _ => Fin 0) base) F1 WF Wc Wz Dc Dz Xc NF C2) as (S1' & S2' & S3' & _).
  pose proof (concat3_get F (da_map (vsub (Fin 1)) base) (da_map (fun _ => Fin 0) base) F1 WF Wc Wz Dc Dz Xc NF C2) as G2.
  rewrite DF in Dz. rewrite <- DN in Dz, Db. pose proof (concat3_shape N (da_map (fun _ => Fin 0) base) base N1 WN Wz Wb Dz Db Xz NN C3) as (S1'' & S2'' & S3'' & _).
  pose proof (concat3_get N (da_map (fun _ => Fin 0) base) base N1 WN Wz Wb Dz Db Xz NN C3) as G3.
  rewrite DF in S3', G2. rewrite DN in S3'', G3. assert (labels_of (dims T) "threshold" = f :: r) as Lf by (unfold labels_of; rewrite Df; reflexivity). rewrite Lf in *. rewrite S3 in *. rewrite S3' in G2. rewrite S3'' in G3.
  exists f, r. repeat (split; [solve [auto]|]). intros e Pe. destruct (proj1 (P1 e) Pe) as [Pe1 Pe2]. split; [exact Pe2|]. split; [exact Pe1|]. cbv zeta.
  assert (get base e = vadd (get T (upd e "threshold" f)) (get N (upd e "threshold" f))) as Gb by (unfold base; cbn [binop get]; rewrite Gt0, Gn0; reflexivity).
  destruct (G1 e Pe) as (A1 & A2 & A3). destruct (G2 e Pe) as (B1 & B2 & B3). destruct (G3 e Pe) as (C1' & C2' & C3').
  rewrite <- Gb. split; [|split].
  - intros E. rewrite (A1 E), (B1 E), (C1' E). auto.
  - intros E. rewrite (A2 E), (B2 E), (C2' E). auto.
  - intros E. rewrite (A3 E), (B3 E), (C3' E). auto.
Qed.

(** ** The formula *)
Definition rev_value (r tp fp fn : val) : val :=
  vdiv (vsub (vmin r (vadd tp fn)) (vadd (vmul r (vadd tp fp)) fn)) (vsub (vmin r (vadd tp fn)) (vmul r (vadd tp fn))).
Lemma rev_formula_get ratio T F N e : get (rev_formula ratio T F N) e = rev_value (get ratio e) (get T e) (get F e) (get N e).
Proof. reflexivity. Qed.
Lemma rev_formula_shape rs T F N : NoDup (map fst rs) -> wf T -> wf F -> wf N -> aux T = [] -> aux F = [] -> aux N = [] -> dims F = dims T -> dims N = dims T -> ~ In "cost_loss_ratio" (dnames T) ->
  wf (rev_formula (threshold_array "cost_loss_ratio" rs) T F N) /\ dims (rev_formula (threshold_array "cost_loss_ratio" rs) T F N) = ("cost_loss_ratio", map fst rs) :: dims T.
Proof.
  intros NR WT WF WN XT XF XN DF DN NC. pose proof (wf_threshold_array "cost_loss_ratio" rs NR) as Wr. split.
  - unfold rev_formula. repeat (apply wf_binop; auto).
  - assert (forall D : dimlist, NoDup (map fst D) -> ~ In "cost_loss_ratio" (map fst D) -> merge_dims inter_labels [("cost_loss_ratio", map fst rs)] D = ("cost_loss_ratio", map fst rs) :: D) as M.
    { intros D ND H. unfold merge_dims. cbn [map fst snd]. destruct (dget D "cost_loss_ratio") as [l|] eqn:E; [exfalso; apply H, (dget_Some_keys _ _ E)|]. cbn [app]. f_equal. apply filter_all. intros [k l] I. cbn [fst]. apply negb_true_iff. apply memb_false. intros [<-|[]]. apply H. apply (in_map fst _ _ I). }
    pose proof (proj1 WT) as NT. unfold dnames in NT, NC.
    assert (NoDup (map fst (("cost_loss_ratio", map fst rs) :: dims T))) as NX by (cbn [map fst]; constructor; auto).
    assert (merge_dims inter_labels (("cost_loss_ratio", map fst rs) :: dims T) (dims T) = ("cost_loss_ratio", map fst rs) :: dims T) as M2.
    { rewrite <- (merge_filter _ (fun q => negb (eqb (fst q) "cost_loss_ratio")) NX) at 2. f_equal. cbn [filter fst]. rewrite eqb_refl. cbn [negb]. symmetry. apply filter_all. intros [k l] I. cbn [fst]. apply negb_true_iff, eqb_false_iff. intros ->. apply NC. apply (in_map fst _ _ I). }
    unfold rev_formula. cbn [binop dims threshold_array]. rewrite DF, DN. rewrite !(merge_self (dims T) NT). rewrite !(M (dims T) NT NC). rewrite M2. rewrite !(merge_self _ NX). reflexivity.
Qed.
Lemma rev_value_Fin r tp fp fn : economic_value r tp fp fn (rev_value (Fin r) (Fin tp) (Fin fp) (Fin fn)).
Proof.
  unfold rev_value. assert (vmin (Fin r) (vadd (Fin tp) (Fin fn)) = Fin (Rmin r (tp + fn))) as ->.
  { cbn [vadd vmin]. rewrite vleb_Fin. unfold Rleb, Rmin. destruct (Rle_dec r (tp + fn)); reflexivity. }
  unfold vsub. cbn [vadd vmul vneg]. unfold economic_value, expense, expense_climate, expense_perfect. cbv zeta. cbn [vdiv].
  destruct (Req_EM_T (Rmin r (tp + fn) + - (r * (tp + fn))) 0) as [E|E]; split; intros H.
  - exfalso. apply H. exact E.
  - unfold rsign. change (Rmin r (tp + fn) + - (r * (tp + fp) + fn)) with (Rmin r (tp + fn) - (r * (tp + fp) + fn)). destruct (Rlt_dec 0 _); [reflexivity|]. destruct (Rlt_dec _ 0); reflexivity.
  - reflexivity.
  - exfalso. apply E. exact H.
Qed.
Lemma rev_value_NaN r tp fp fn : tp = NaN \/ fn = NaN -> rev_value r tp fp fn = NaN.
Proof.
  intros H. unfold rev_value. assert (vadd tp fn = NaN) as -> by (destruct H as [-> | ->]; [reflexivity|destruct tp; reflexivity]).
  assert (vmin r NaN = NaN) as -> by (destruct r; reflexivity). reflexivity.
Qed.
