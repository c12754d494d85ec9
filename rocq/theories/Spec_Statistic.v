(** Vocabulary: the value of a statistic for one variable. *)
From Coq Require Import String List.
Import ListNotations.
From Verif Require Import Prelude Values Model_XArray Model_MetricsBase Proofs_Metrics.
Local Open Scope list_scope.

(** The statistic of the variable [v] is [st]. *)
Definition statistic_value (s : statistic da) (p t : vars da) (v : string) (st : da) : Prop :=
  exists raw, compute s p t = Ok raw /\ dget raw v = Some st.
Lemma per_variable_value name f p t v pv tv st : NoDup (keys p) -> dget p v = Some pv -> dget t v = Some tv ->
  statistic_value (per_variable_statistic name f) p t v st -> f pv tv = Ok (Some st).
Proof.
  intros Hn Hp Ht (raw & Hc & Hd). apply (per_variable_statistic_spec name) in Hc; auto. destruct Hc as [_ Hc]. apply Hc in Hd.
  destruct Hd as (a & b & Ha & Hb & H). rewrite Hp in Ha. rewrite Ht in Hb. injection Ha as <-. injection Hb as <-. exact H.
Qed.

Lemma single_value name f v pv tv st : f pv tv = Ok (Some st) -> statistic_value (per_variable_statistic name f) [(v, pv)] [(v, tv)] v st.
Proof.
  intros H. exists [(v, st)]. cbn [compute per_variable_statistic per_variable_compute dget fst snd]. destruct (eq_dec v v); [|contradiction]. cbn [bind]. rewrite ?H. cbn [bind dset].
  split; [reflexivity|reflexivity].
Qed.
