(** Vocabulary for input transforms. *)
From Coq Require Import String ZArith Bool List.
Import ListNotations.
From Verif Require Import Prelude Values Model_XArray Spec_XArray Model_MetricsBase Model_Calendar Model_Deterministic Model_Wrappers.
Local Open Scope string_scope.
Local Open Scope list_scope.

(** Applying a transform to every variable. *)
Definition each_variable (w : transform) (vs vs' : vars da) : Prop :=
  Forall2 (fun a b => fst b = fst a /\ transform_fn w (fst a) (snd a) = Ok (snd b)) vs vs'.

(** What one side ("predictions" or "targets") becomes under transforms, the first of the list
    first; a transform for the other side leaves it alone. *)
Fixpoint transformed (side : string) (ts : list transform) (vs vs' : vars da) : Prop :=
  match ts with
  | [] => vs' = vs
  | w :: ts' => exists mid,
      ((which w = side \/ which w = "both") /\ each_variable w vs mid \/
       ~ (which w = side \/ which w = "both") /\ mid = vs) /\
      transformed side ts' mid vs'
  end.

(** [a] is immediately followed by [b]. *)
Definition consecutive {A} (ls : list A) (a b : A) : Prop := exists l1 l2, ls = l1 ++ a :: b :: l2.

(** The thresholds that apply to the variable [name]: those given as an array, in a Dataset, or as
    a list along the new dimension [d]. *)
Definition thresholds_for (name : string) (ts : thresholds) (d : string) (th : da) : Prop :=
  match ts with
  | TList vs => dims th = [(d, map fst vs)] /\ aux th = [] /\ forall e l v, e d = l -> dget vs l = Some v -> get th e = v
  | TArray a => th = a
  | TDataset ds => dget ds name = Some th
  end.

(** [th] increases strictly along [d] at every point. *)
Definition increasing (th : da) (d : string) : Prop :=
  forall e a b, point_of (dims th) (upd e d a) -> consecutive (labels_of (dims th) d) a b ->
    vltb (get th (upd e d a)) (get th (upd e d b)) = true.

(** Where thresholds that depend on time are read for a point [e] of the data: at the valid time
    (init + lead), at the same init and lead time, or at the day of the year of the init time and
    the same lead time; for data along valid_time at that time or its day of the year; otherwise
    at the same point. *)
Definition time_point (th chunk : da) (e : env) : env :=
  let has a d := memb d (dnames a) in
  let time d := time_value (e d) in
  if has chunk "init_time" && has chunk "lead_time" then
    if has th "valid_time" then upd e "valid_time" (LZ (time "init_time" + time "lead_time"))
    else if has th "init_time" && has th "lead_time" then e
    else if has th "dayofyear" && has th "lead_time" then upd e "dayofyear" (LZ (dayofyear (time "init_time")))
    else e
  else if has chunk "valid_time" then
    if has th "valid_time" then e
    else if has th "dayofyear" then upd e "dayofyear" (LZ (dayofyear (time "valid_time")))
    else e
  else e.
(** The threshold used at the point [e]. *)
Definition threshold_used (ts : thresholds) (th chunk : da) (e : env) : val :=
  match ts with TList _ => get th e | _ => get th (time_point th chunk e) end.
(** The point is one of the listed thresholds (arrays: no condition). *)
Definition listed (ts : thresholds) (d : string) (e : env) : Prop :=
  match ts with TList vs => In (e d) (map fst vs) | _ => True end.

(** Bins with different edges get different names. *)
Definition names_distinct (str2f : label -> string) (labels : list label) : Prop :=
  forall a b a' b', consecutive labels a b -> consecutive labels a' b' ->
    (str2f a ++ " < p <= " ++ str2f b = str2f a' ++ " < p <= " ++ str2f b')%string -> a = a' /\ b = b'.
