(** Grid cells between parallels of latitude, independently of the order of the latitudes. *)
From Coq Require Import String QArith Qreals List.
Import ListNotations.
From Verif Require Import Prelude Values Model_XArray Spec_XArray Spec_Binning.
From Coq Require Import Reals Rtrigo.
Local Open Scope R_scope.

(** The label [l] is the latitude [x] (degrees). *)
Definition latitude (l : label) (x : R) : Prop := exists q, is_number l q /\ x = Q2R q.
(** [y] is the nearest latitude of the grid north (south) of [x]. *)
Definition next_north (lats : list R) (x y : R) : Prop := In y lats /\ x < y /\ forall z, In z lats -> x < z -> y <= z.
Definition next_south (lats : list R) (x y : R) : Prop := In y lats /\ y < x /\ forall z, In z lats -> z < x -> z <= y.
(** Edges of the cell around [x]: halfway to the neighbour; at the ends of the grid as far out
    as on the inner side, but not beyond the pole. *)
Inductive north_edge (lats : list R) (x : R) : R -> Prop :=
| north_inner y : next_north lats x y -> north_edge lats x ((x + y) / 2)
| north_outer y : (forall z, In z lats -> z <= x) -> next_south lats x y -> north_edge lats x (Rmin (x + (x - y) / 2) 90).
Inductive south_edge (lats : list R) (x : R) : R -> Prop :=
| south_inner y : next_south lats x y -> south_edge lats x ((y + x) / 2)
| south_outer y : (forall z, In z lats -> x <= z) -> next_north lats x y -> south_edge lats x (Rmax (x - (y - x) / 2) (-90)).
(** Area of the zone between two parallels, up to a constant factor. *)
Definition zone_area (south north : R) : R := sin (north * PI / 180) - sin (south * PI / 180).
(** [a] is the area of the cell around [x]. *)
Definition cell_area (lats : list R) (x a : R) : Prop :=
  exists s n, south_edge lats x s /\ north_edge lats x n /\ a = zone_area s n.

(** Consecutive elements in order. *)
Inductive chain {A} (lt : A -> A -> Prop) : list A -> Prop :=
| chain_nil : chain lt []
| chain_one a : chain lt [a]
| chain_cons a b l : lt a b -> chain lt (b :: l) -> chain lt (a :: b :: l).
(** Northwards or southwards throughout. *)
Definition monotonic (l : list R) : Prop := chain Rlt l \/ chain Rgt l.
Definition in_range (lats : list R) : Prop := forall x, In x lats -> -90 <= x <= 90.
(** The southern and northern ends of the area covered by the cells. *)
Definition grid_ends (lats : list R) (s n : R) : Prop :=
  exists xs xn, In xs lats /\ (forall z, In z lats -> xs <= z) /\ south_edge lats xs s /\
                In xn lats /\ (forall z, In z lats -> z <= xn) /\ north_edge lats xn n.
