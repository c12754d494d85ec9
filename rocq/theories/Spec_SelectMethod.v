(** Specification vocabulary for Select with a method: which label is looked up. *)
From Coq Require Import String ZArith QArith Qabs List Bool.
Import ListNotations.
From Verif Require Import Prelude Values Model_XArray Spec_XArray Spec_Binning Model_Prepare Spec_Prepare Model_Select Spec_Select Model_SelectMethod.
Local Open Scope string_scope.
Local Open Scope list_scope.

Definition all_numbers (ls : list label) : Prop := forall l, In l ls -> exists q, is_number l q.
(** Strictly increasing (decreasing) along the axis. *)
Definition ascending (ls : list label) : Prop :=
  forall i j a b p q, (i < j)%nat -> nth_error ls i = Some a -> nth_error ls j = Some b -> is_number a p -> is_number b q -> (p < q)%Q.
Definition descending (ls : list label) : Prop :=
  forall i j a b p q, (i < j)%nat -> nth_error ls i = Some a -> nth_error ls j = Some b -> is_number a p -> is_number b q -> (q < p)%Q.
(** Of the numbers on the axis: the greatest one up to [q], the least one from [q] on, and the one
    nearest to [q], the greater of two. *)
Definition last_up_to (ls : list label) (q p : Q) : Prop :=
  (p <= q)%Q /\ forall y r, In y ls -> is_number y r -> (r <= q)%Q -> (r <= p)%Q.
Definition first_from (ls : list label) (q p : Q) : Prop :=
  (q <= p)%Q /\ forall y r, In y ls -> is_number y r -> (q <= r)%Q -> (p <= r)%Q.
Definition nearest_to (ls : list label) (q p : Q) : Prop :=
  forall y r, In y ls -> is_number y r -> (Qabs (p - q) < Qabs (r - q))%Q \/ ((Qabs (p - q) == Qabs (r - q))%Q /\ (r <= p)%Q).
(** The label [x] of the axis that the method picks for [l]; "pad" is the one before and "backfill" the
    one after it in the order of the axis (a single label counts as ascending). *)
Definition picks (m : fill_method) (ls : list label) (l x : label) : Prop :=
  In x ls /\ exists q p, is_number l q /\ is_number x p /\
    match m with
    | MPad => (ascending ls -> last_up_to ls q p) /\ (descending ls -> ~ ascending ls -> first_from ls q p)
    | MBackfill => (ascending ls -> first_from ls q p) /\ (descending ls -> ~ ascending ls -> last_up_to ls q p)
    | MNearest => nearest_to ls q p
    end.
(** At most the tolerance away. *)
Definition tolerated (tolerance : option Q) (l x : label) : Prop :=
  forall t q p, tolerance = Some t -> is_number l q -> is_number x p -> (Qabs (p - q) <= t)%Q.
Definition found (o : sel_options) (m : fill_method) (ls : list label) (l x : label) : Prop :=
  picks m ls l x /\ tolerated (so_tolerance o) l x.
(** The selection that is made for the one asked for: the same dimensions, with the labels found. *)
Definition found_for (o : sel_options) (ds : dimlist) (asked made : string * indexer) : Prop :=
  fst made = fst asked /\ exists have, dget ds (fst asked) = Some have /\
    match so_method o with
    | None => snd made = snd asked
    | Some m => (ascending have \/ descending have) /\
        match snd asked, snd made with
        | IxLabel l, IxLabel x => found o m have l x
        | IxList ls, IxList xs => Forall2 (found o m have) ls xs
        | _, _ => False
        end
    end.
(** What is selected by label, and the positions that count: all, or those of dimensions that exist. *)
Definition labels_found (o : sel_options) (ds : dimlist) (asked made : option (dict string indexer)) : Prop :=
  match asked, made with
  | None, None => True
  | Some p, Some q => Forall2 (found_for o ds) p q
  | _, _ => False
  end.
Definition positions_that_count (o : isel_options) (a : da) (isel : option (dict string position)) : option (dict string position) :=
  match isel, io_missing o with
  | Some kw, MRaise => Some kw
  | Some kw, _ => Some (filter (fun x => memb (fst x) (dnames a)) kw)
  | None, _ => None
  end.
(** [y'] is [y] without the coordinates that lost all their dimensions on the way from [x]. *)
Definition without_scalars (x y y' : da) : Prop :=
  dims y' = dims y /\ (forall e, get y' e = get y e) /\
  forall c, In c (aux y') <-> In c (aux y) /\ ~ (c_dims (snd c) = [] /\ (In (fst c) (dnames x) \/ exists k, dget (aux x) (fst c) = Some k /\ c_dims k <> [])).
