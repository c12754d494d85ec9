(** The weightings and binnings that ship with the library, with the conditions on their
    arguments: the (bin) dimension is not a time dimension and bin labels are distinct. *)
From Coq Require Import String ZArith QArith Qround Qcanon Bool List.
Import ListNotations.
From Verif Require Import Prelude Values Model_XArray Spec_XArray Model_Aggregation Model_TimeChunks Model_Beam Spec_Beam
  Model_Calendar Model_Binning Spec_Binning Proofs_Binning3 Proofs_Local2 Model_Weighting.
From Coq Require Import Reals.
Local Open Scope string_scope.
Local Open Scope list_scope.

Inductive library_weighting : weighting -> Prop :=
| lw_grid_area lat norm : ~ time_dim lat -> library_weighting (GridAreaWeighting lat norm).

(** Bins whose labels are fixed by the arguments. *)
Inductive fixed_bins : binning -> Prop :=
| fb_regions regions d : ~ time_dim d -> NoDup (map fst regions) -> fixed_bins (Regions regions d None)
| fb_regions_land regions d land : ~ time_dim d -> ~ In d ["latitude"; "longitude"] -> wf land -> grid_dims land ->
    NoDup (all_names regions) -> fixed_bins (Regions regions d (Some land))
| fb_land_sea fraction threshold d g : wf fraction -> (forall k, In k (dnames fraction) -> ~ time_dim k) -> ~ time_dim d ->
    fixed_bins (LandSea fraction threshold d g)
| fb_latitude degrees lim d b : LatitudeBins degrees lim d = Ok b -> ~ time_dim d ->
    (forall bins, arange (fst lim) (snd lim + degrees)%Q degrees = Ok bins -> NoDup (map (fun s => LQ (Q2Qc s)) (removelast bins))) -> fixed_bins b
| fb_longitude degrees lim d b : LongitudeBins degrees lim d = Ok b -> ~ time_dim d ->
    (forall bins, arange (fst lim) (lon_end (fst lim) (snd lim) + degrees)%Q degrees = Ok bins ->
       NoDup (map (fun s => LQ (Q2Qc (qmod s 360))) (removelast bins))) -> fixed_bins b
| fb_coord_bins fmt name edges g : ~ time_dim name -> NoDup (map (bin_label fmt g) (removelast edges) ++ glob_labels g) ->
    fixed_bins (ByCoordBins fmt name edges g)
| fb_sets sets name d complements g b : BySets sets name (Some d) complements g = Ok b -> ~ time_dim d ->
    NoDup (set_labels' sets complements g) -> fixed_bins b
| fb_time_unit_sets delta sets unit dim bin_dim g :
    ~ time_dim (bin_dim_name (ByTimeUnitSets delta sets unit dim bin_dim g)) ->
    NoDup (map (fun s => LS (fst s)) sets ++ glob_labels g) -> fixed_bins (ByTimeUnitSets delta sets unit dim bin_dim g)
| fb_from_seconds unit dim bins : ~ time_dim (dim ++ "_" ++ unit)%string ->
    NoDup (match bins with Some b => b | None => irange (if String.eqb unit "hour" then 24 else 60) end) ->
    fixed_bins (ByTimeUnitFromSeconds unit dim bins).

(** Bins for the values of a coordinate that occur in the data. *)
Inductive data_bins : binning -> Prop :=
| db_exact fmt name : ~ time_dim name -> data_bins (ByExactCoord fmt name false)
| db_time_unit fmt delta unit dim g : ~ time_dim (dim ++ "_" ++ unit)%string ->
    (g = true -> forall u, extract_time_unit delta unit = Ok u ->
       forall t t', (fmt (u t) = fmt (u t') -> u t = u t') /\ fmt (u t) <> "global") ->
    data_bins (ByTimeUnit fmt delta unit dim g).
