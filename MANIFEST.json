{
 "claims": [
  {
   "property": "C01",
   "status": "proved",
   "theorems": [
    "C01_chunks_partition_pairs",
    "C01_default_is_single_chunk",
    "C01_slice_chunks"
   ],
   "note": "Times are integers; casts to ns are the identity."
  },
  {
   "property": "C02",
   "status": "proved",
   "theorems": [
    "C02_getitem_agrees_with_iteration",
    "C02_len_is_number_of_chunks"
   ],
   "note": ""
  },
  {
   "property": "C03",
   "status": "proved",
   "theorems": [
    "C03_offsets_locate_chunks",
    "C03_offsets_defined_for_arrays",
    "C03_offsets_for_interval_refuted"
   ],
   "note": "Includes the refutation for interval lead times with lead_time_chunk_size=None (TypeError)."
  },
  {
   "property": "C04",
   "status": "proved",
   "theorems": [
    "C04_constructor_validation"
   ],
   "note": ""
  },
  {
   "property": "C05",
   "status": "proved",
   "theorems": [
    "C05_outer_join",
    "C05_zero_filled",
    "C05_no_new_NaN",
    "C05_well_formed"
   ],
   "note": ""
  },
  {
   "property": "C06",
   "status": "proved",
   "theorems": [
    "C06_order_and_bracketing",
    "C06_leafwise_value",
    "C06_zero_neutral",
    "C06_only_zeros",
    "C06_mixed_dims_refuted"
   ],
   "note": ""
  },
  {
   "property": "C07",
   "status": "proved",
   "theorems": [
    "C07_schedule_independent",
    "C07_any_two_schedules"
   ],
   "note": ""
  },
  {
   "property": "C08",
   "status": "proved",
   "theorems": [
    "C08_pipeline_equals_direct",
    "C08_pipeline_with_chunk_dependent_bins",
    "C08_library_components",
    "C08_library_data_bins"
   ],
   "note": "Runner nondeterminism is a relation (pipeline_states). Two theorems: weights/bins that look at each time separately (any values, NaN included), and bins whose labels depend on the chunk (finite counted values). Both are also instantiated for the shipped weightings and binnings (C08_library_components, C08_library_data_bins)."
  },
  {
   "property": "C09",
   "status": "proved",
   "theorems": [
    "C09_elements",
    "C09_keys_separate"
   ],
   "note": "Elements emitted by a chunk, and the entry of a state as a function of exactly the elements under its key."
  },
  {
   "property": "C10",
   "status": "proved",
   "theorems": [
    "C10_two_stage",
    "C10_zero",
    "C10_missing_dim_refuted"
   ],
   "note": ""
  },
  {
   "property": "C11",
   "status": "proved",
   "theorems": [
    "C11_weighted_mean",
    "C11_result_coords",
    "C11_between_bounds",
    "C11_constant",
    "C11_weight_scale"
   ],
   "note": ""
  },
  {
   "property": "C12",
   "status": "proved",
   "theorems": [
    "C12_masked_out_irrelevant",
    "C12_skipna_ignores_NaN",
    "C12_NaN_surfaces",
    "C12_static_mask_refuted"
   ],
   "note": ""
  },
  {
   "property": "C13",
   "status": "proved",
   "theorems": [
    "C13_kept_iff",
    "C13_total",
    "C13_duplicate_bins"
   ],
   "note": ""
  },
  {
   "property": "C14",
   "status": "proved",
   "theorems": [
    "C14_round_trip",
    "C14_separator_in_name_refuted",
    "C14_empty_statistic_refuted",
    "C14_underscore_separator_refuted",
    "C14_different_labels_refuted"
   ],
   "note": ""
  },
  {
   "property": "C15",
   "status": "proved",
   "theorems": [
    "C15_round_trip",
    "C15_zero_state"
   ],
   "note": ""
  },
  {
   "property": "C16",
   "status": "proved",
   "theorems": [
    "C16_no_partial_content",
    "C16_targets",
    "C16_other_files_untouched",
    "C16_return_installs",
    "C16_returned_stays",
    "C16_no_leftovers",
    "C16_can_complete",
    "C16_move_failure_leaves_tmp_refuted"
   ],
   "note": "Filesystem as a map from paths to bytes, any interleaving, crashes and write/move failures; includes the refutation for a failing move (temporary file left behind)."
  },
  {
   "property": "C17",
   "status": "proved",
   "theorems": [
    "C17_one_entry_per_name",
    "C17_exceptions"
   ],
   "note": "Exceptions are modelled as the error kind."
  },
  {
   "property": "C18",
   "status": "proved",
   "theorems": [
    "C18_alone",
    "C18_own_means",
    "C18_failures"
   ],
   "note": "With the real Aggregator: statistics computed, aggregated, meaned, metrics computed. Includes the refutation when two statistics share a name."
  },
  {
   "property": "C19",
   "status": "proved",
   "theorems": [
    "C19_names",
    "C19_faithful",
    "C19_together",
    "C19_faithful_together",
    "C19_seeps",
    "C19_wrapped",
    "C19_wrapped_inner",
    "C19_averaged_inner",
    "C19_binary",
    "C19_bins",
    "C19_cdf",
    "C19_passthrough_refuted",
    "C19_exceedance_refuted",
    "C19_skipna_refuted",
    "C19_use_sort_refuted",
    "C19_climatology_refuted",
    "C19_wind_refuted",
    "C19_dimensions_refuted",
    "C19_sizes_refuted",
    "C19_seeps_refuted",
    "C19_transforms_refuted",
    "C19_subselect_refuted",
    "C19_all_names",
    "C19_all_together",
    "C19_intervals_refuted"
   ],
   "note": "The catalogue (Spec_Names.shipped) lists the shipped classes with their constructor parameters; str() of numbers is a parameter with the law that it prints numbers without separators. The classes whose names omit a parameter are refuted one by one with concrete data on which the two statistics of one name differ."
  },
  {
   "property": "C20",
   "status": "proved",
   "theorems": [
    "C20_statistic",
    "C20_statistic_raises",
    "C20_metric"
   ],
   "note": ""
  },
  {
   "property": "C21",
   "status": "proved",
   "theorems": [
    "C21_leafwise",
    "C21_shape",
    "C21_missing_key_fails",
    "C21_missing_key_KeyError",
    "C21_identity",
    "C21_composition",
    "C21_no_structures",
    "C21_shape_lists_refuted"
   ],
   "note": ""
  },
  {
   "property": "C22",
   "status": "proved",
   "theorems": [
    "C22_inequalities",
    "C22_values",
    "C22_swap",
    "C22_nan"
   ],
   "note": "Values, inequalities, swap and NaN propagation for any Aggregator configuration with non-negative weights."
  },
  {
   "property": "C23",
   "status": "proved",
   "theorems": [
    "C23_range",
    "C23_rescale",
    "C23_same_sample",
    "C23_mask_on_targets_only_refuted"
   ],
   "note": "Assumes the three anomaly statistics cover the same sample (C23_same_sample gives a sufficient condition); includes the refutation when only the targets carry a mask (ACC = sqrt 2)."
  },
  {
   "property": "C24",
   "status": "proved",
   "theorems": [
    "C24_point",
    "C24_means"
   ],
   "note": "Pointwise partition and, for any aggregator configuration with non-negative weights, the four means. float32 casts not modelled."
  },
  {
   "property": "C25",
   "status": "proved",
   "theorems": [
    "C25_values",
    "C25_unit_range",
    "C25_nan_exactly",
    "C25_precision_far",
    "C25_f1",
    "C25_hss",
    "C25_ets",
    "C25_sedi"
   ],
   "note": "Values, ranges, NaN conditions and identities of CSI, Accuracy, Recall, FAR, Precision, F1, FrequencyBias, HSS, ETS, SEDI."
  },
  {
   "property": "C26",
   "status": "proved",
   "theorems": [
    "C26_value",
    "C26_matrix",
    "C26_missing",
    "C26_overlap_refuted",
    "C26_missing_threshold_refuted",
    "C26_two_masks",
    "C26_per_variable"
   ],
   "note": "From the climatology lookup to the masked score; includes refutations: overlapping categories when wet threshold <= dry threshold, and score 0 when the wet threshold is missing."
  },
  {
   "property": "C27",
   "status": "proved",
   "theorems": [
    "C27_value",
    "C27_sort_equals_pairwise",
    "C27_errors",
    "C27_skipna",
    "C27_single_member_refuted"
   ],
   "note": "np.argsort is any function returning sorting indices (order of ties free); includes the refutation: the unfair spread of one valid member with skipna is 0 although NaN is documented."
  },
  {
   "property": "C28",
   "status": "proved",
   "theorems": [
    "C28_pointwise",
    "C28_fair_factor",
    "C28_single_member",
    "C28_metric",
    "C28_distance",
    "C28_missing_observation_refuted",
    "C28_mask_on_observations_refuted",
    "C28_fair_distance_refuted"
   ],
   "note": "Pointwise and as a metric under any aggregator configuration; includes refutations: missing observations with an aggregator that skips NaN, and masks that only the observations carry, make the CRPS negative; the fair distance of an ensemble to itself is negative."
  },
  {
   "property": "C29",
   "status": "proved",
   "theorems": [
    "C29_variance",
    "C29_unbiased",
    "C29_unbiased_ensembles",
    "C29_no_ensemble"
   ],
   "note": "With and without skipna, one observation or an ensemble of observations."
  },
  {
   "property": "C30",
   "status": "proved",
   "theorems": [
    "C30_rank",
    "C30_finite_rank",
    "C30_missing_observation_refuted"
   ],
   "note": "Includes the refutation: a NaN observation is counted in bin 0."
  },
  {
   "property": "C31",
   "status": "proved",
   "theorems": [
    "C31_value",
    "C31_at_most_one",
    "C31_finite",
    "C31_constant",
    "C31_perfect",
    "C31_ensemble_thresholds",
    "C31_constructor",
    "C31_optimal"
   ],
   "note": "Thresholds are rationals distinct from each other and from 0 and 1 (user thresholds 0 or 1 would duplicate the appended constant thresholds). Values, the bound 1, finiteness, constant decisions, perfect decisions, optimal thresholds, ensemble thresholds, constructor checks."
  },
  {
   "property": "C32",
   "status": "proved",
   "theorems": [
    "C32_fss",
    "C32_mask_tolerance",
    "C32_mask",
    "C32_threshold_probability",
    "C32_threshold_monotone",
    "C32_fss_mask_refuted",
    "C32_mask_large_refuted",
    "C32_mask_transposed_refuted",
    "C32_sizes",
    "C32_average",
    "C32_range",
    "C32_fraction",
    "C32_rotation"
   ],
   "note": "scipy convolve1d(mode='wrap') with a uniform kernel modelled as exact real sums (float rounding not modelled). The FSS theorem is for arrays without a mask. Findings proved: FSS = -2 when the targets carry an (all-true) mask; a mask stays true despite an invalid neighbour from size 317 on; a (longitude, latitude) mask comes out transposed."
  },
  {
   "property": "C33",
   "status": "proved",
   "theorems": [
    "C33_constructors",
    "C33_binary",
    "C33_cdf",
    "C33_cdf_monotone",
    "C33_monotonicity",
    "C33_bins",
    "C33_bins_partition",
    "C33_bin_names_refuted",
    "C33_ensemble_mean",
    "C33_weibull",
    "C33_relu",
    "C33_shift",
    "C33_subselect",
    "C33_statistics",
    "C33_wrapped_statistic",
    "C33_metric"
   ],
   "note": "Order, sides, values of all transforms (Rename, Select and StackToNewDimension are in C68); array names are the variable keys. Includes the refutation: bin names show two decimals, so close edges give duplicate bin labels."
  },
  {
   "property": "C34",
   "status": "proved",
   "theorems": [
    "C34_regions",
    "C34_success",
    "C34_bad_limits",
    "C34_full_turns"
   ],
   "note": "Coordinates and limits are rationals (exact arithmetic, no float rounding of the modulo)."
  },
  {
   "property": "C35",
   "status": "proved",
   "theorems": [
    "C35_coord_bins",
    "C35_coord_bins_partition",
    "C35_coord_bins_success",
    "C35_exact_coord",
    "C35_exact_coord_success",
    "C35_sets",
    "C35_sets_errors",
    "C35_latitude_bins",
    "C35_longitude_bins"
   ],
   "note": "numpy's number formatting is a parameter; theorems for text labels assume it gives distinct labels. Shared edges of LatitudeBins/LongitudeBins counted twice is part of the theorems."
  },
  {
   "property": "C36",
   "status": "proved",
   "theorems": [
    "C36_unit_value_unique",
    "C36_time_unit",
    "C36_time_unit_success",
    "C36_time_unit_sets",
    "C36_from_seconds",
    "C36_from_seconds_no_wrap",
    "C36_from_seconds_success"
   ],
   "note": "Gregorian calendar specified independently; all ns time stamps and deltas. ByTimeUnitFromSeconds is not reduced modulo the larger unit (theorem C36_from_seconds_no_wrap)."
  },
  {
   "property": "C37",
   "status": "proved",
   "theorems": [
    "C37_land_sea",
    "C37_land_sea_success",
    "C37_regions_land",
    "C37_same_grid",
    "C37_distinct_labels_refuted"
   ],
   "note": "Includes the refutation: a region called x_land collides with the land bin of region x."
  },
  {
   "property": "C38",
   "status": "proved",
   "theorems": [
    "C38_no_latitude",
    "C38_weights",
    "C38_whole_sphere",
    "C38_cells",
    "C38_orientation",
    "C38_errors",
    "C38_normalisation_irrelevant"
   ],
   "note": "Grid-cell areas over the reals with the exact sine (no float rounding); covers both orientations, both normalisations (irrelevant to means), range errors."
  },
  {
   "property": "C39",
   "status": "proved",
   "theorems": [
    "C39_latest_available_run",
    "C39_served_from_latest_available_run",
    "C39_no_look_ahead",
    "C39_errors",
    "C39_same_valid_time",
    "C39_all_or_nothing"
   ],
   "note": "The wrapper around any source, and around PredictionsFromXarray end to end (values, errors, all-or-nothing). Times are integers (ns); the float64 comparison of time differences is not modelled."
  },
  {
   "property": "C40",
   "status": "proved",
   "theorems": [
    "C40_freshest_loader",
    "C40_freshest_up_to_a_second",
    "C40_every_loader_must_have_issued_a_run",
    "C40_queries_answered_once",
    "C40_served_by_the_freshest_run"
   ],
   "note": "np.argsort of the pairs is any lexicographically sorting permutation. Findings proved: one loader without an issued run fails the query; comparison is in whole seconds (C40_half_a_second)."
  },
  {
   "property": "C41",
   "status": "proved",
   "theorems": [
    "C41_targets_at_valid_time",
    "C41_targets_all_or_nothing",
    "C41_targets_slice",
    "C41_targets_without_lead_times",
    "C41_persistence_at_init_time",
    "C41_persistence_needs_lead_times",
    "C41_predictions_are_the_requested_part",
    "C41_predictions_all_or_nothing",
    "C41_predictions_slice"
   ],
   "note": "Opening, renaming and preprocessing of the data set are not modelled; the data set is a dictionary of arrays. Includes errors (all-or-nothing) and slices."
  },
  {
   "property": "C42",
   "status": "proved",
   "theorems": [
    "C42_climatology_of_the_valid_time",
    "C42_climatology_all_or_nothing",
    "C42_climatology_without_lead_times",
    "C42_climatology_slice",
    "C42_members_are_years",
    "C42_members_all_or_nothing",
    "C42_members_errors",
    "C42_the_hour_in_another_year"
   ],
   "note": "Civil calendar specified independently; day 366 falls on 1 January of the next year for members from years with 365 days (theorem C42_the_hour_in_another_year)."
  },
  {
   "property": "C43",
   "status": "proved",
   "theorems": [
    "C43_stages_in_order",
    "C43_first_error",
    "C43_compute_irrelevant",
    "C43_mask_of_values",
    "C43_masked_targets_are_skipped",
    "C43_conflicting_masks_are_dropped"
   ],
   "note": "Masks of predictions and targets: differing masks are dropped by xarray arithmetic (C43_conflicting_masks_are_dropped). add_values_to_coords is not modelled."
  },
  {
   "property": "C44",
   "status": "proved",
   "theorems": [
    "C44_files",
    "C44_distinct",
    "C44_unique",
    "C44_read",
    "C44_complete",
    "C44_constructor"
   ],
   "note": "Files are an arbitrary map from names to frames; os.path.join and the calendar are modelled; parquet row filters as the comparison of the time column. C44_complete: the condition on files is that the observation lies within file_tolerance of its file's partition."
  },
  {
   "property": "C45",
   "status": "proved",
   "theorems": [
    "C45_window",
    "C45_rows",
    "C45_duplicates",
    "C45_exact",
    "C45_no_leads",
    "C45_slice",
    "C45_slice_incompatible",
    "C45_complete",
    "C45_index",
    "C45_dropna",
    "C45_dropna_split",
    "C45_slice_refuted",
    "C45_tolerance_end_refuted",
    "C45_metar",
    "C45_metar_keeps_times"
   ],
   "note": "Data frames are columns and rows; sort_values is arbitrary with the laws of a sort (met by an insertion sort). Findings proved: the start of a slice of lead times is subtracted (C45_slice states what is returned, C45_slice_refuted that it is not the slice); the interval of the tolerance is documented as closed but its end is excluded. The time_diff column added when removing duplicates is not kept; two columns renamed to one name are excluded (no_clash)."
  },
  {
   "property": "C46",
   "status": "proved",
   "theorems": [
    "C46_wind_factor",
    "C46_temperature_change",
    "C46_continuous_at_limit_refuted",
    "C46_stations",
    "C46_unadjusted",
    "C46_other_variables",
    "C46_empty_reference_refuted"
   ],
   "note": "The grid elevation is taken on the points the array has (xarray assign_coords alignment). Findings proved: the adjustment jumps at the cutoff; an empty reference raises. The mutation of the caller's array by += is not modelled."
  },
  {
   "property": "C47",
   "status": "proved",
   "theorems": [
    "C47_per_variable",
    "C47_multiple_in_order",
    "C47_pad_longitude",
    "C47_linear",
    "C47_nearest",
    "C47_fixed_dims",
    "C47_wrapped",
    "C47_within_bounds",
    "C47_exact_at_grid_points",
    "C47_crop",
    "C47_crop_exclusive_longitudes_refuted",
    "C47_subsample",
    "C47_to_reference",
    "C47_empty_reference",
    "C47_clip_ascending",
    "C47_clip_descending_refuted"
   ],
   "note": "xarray.interp modelled for linear and nearest, coordinates exact rationals, applied one dimension after the other (for linear interpolation this is scipy's multilinear result). Findings proved: clipping a descending reference empties it; CropToBox keeps longitudes on its limits although they are documented as exclusive. NeighborhoodThresholdProbabilities is in C32."
  },
  {
   "property": "C48",
   "status": "proved",
   "theorems": [
    "C48_comparison",
    "C48_default_baseline",
    "C48_all_metrics",
    "C48_all_metrics_total",
    "C48_combine",
    "C48_zero_state",
    "C48_names",
    "C48_difference"
   ],
   "note": "BaselineComparison metrics, combine_aggregation_states, name prefixes, the difference of metric values, errors (missing entries) and the zero state."
  },
  {
   "property": "C49",
   "status": "proved",
   "theorems": [
    "C49_unit_check",
    "C49_counts_are_draws",
    "C49_iid",
    "C49_missing_unit_refuted",
    "C49_cluster_names",
    "C49_cluster",
    "C49_stationary_sums",
    "C49_stationary_missing_refuted"
   ],
   "note": "IIDBootstrap, ClusterBootstrap constructors and the resampled sums of StationaryBootstrap. np.random.multinomial is any matrix of counts; the theorems hold for every draw. Findings: a missing value in an undrawn unit makes every IID/cluster replicate missing (0*NaN), and the stationary bootstrap sums missing statistics as 0 while their weights count."
  },
  {
   "property": "C50",
   "status": "proved",
   "theorems": [
    "C50_bootstrap_interval",
    "C50_bootstrap_nested",
    "C50_bootstrap_percentiles",
    "C50_bootstrap_p_range",
    "C50_bootstrap_duality",
    "C50_bootstrap_no_data",
    "C50_bootstrap_bad_alpha",
    "C50_significance",
    "C50_single_replicate_refuted",
    "C50_t_interval",
    "C50_t_nested",
    "C50_t_p_range",
    "C50_t_duality",
    "C50_t_no_variation",
    "C50_t_missing",
    "C50_t_large_alpha_refuted"
   ],
   "note": "Bootstrap percentile intervals and p-values; t-test intervals, p-values, significance (the t distribution is any symmetric strictly increasing cdf with its inverse; Cauchy as instance). Includes refutations: a single bootstrap replicate rejects every null value; alpha > 1 gives upside-down t intervals."
  },
  {
   "property": "C51",
   "status": "proved",
   "theorems": [
    "C51_indices",
    "C51_unit_blocks_are_iid",
    "C51_blocks_consecutive",
    "C51_errors"
   ],
   "note": "np.random.rand / randint are arbitrary draws within their ranges."
  },
  {
   "property": "C52",
   "status": "proved",
   "theorems": [
    "C52_value_is_point_estimate",
    "C52_tangents_sum_to_zero",
    "C52_ratio",
    "C52_constant_weights",
    "C52_classical_t_test",
    "C52_quotient_rule_linear",
    "C52_quotient_rule_derivative",
    "C52_quotient_rule_shaped"
   ],
   "note": "jax.linearize is an arbitrary function assumed to return a linear map (C52_tangents_sum_to_zero) that is the derivative (C52_ratio, C52_classical_t_test); C52_quotient_rule_* show a map meeting these laws. Per-unit arrays finite."
  },
  {
   "property": "C53",
   "status": "proved",
   "theorems": [
    "C53_iid",
    "C53_missing_dimension",
    "C53_lag1_autocorrelation",
    "C53_inflation_agrees",
    "C53_inflation_uncorrelated",
    "C53_geer",
    "C53_geer_two_units",
    "C53_geer_refuted",
    "C53_hac_dof",
    "C53_hac_dof_value",
    "C53_hac_dof_clamped",
    "C53_hac",
    "C53_hac_one_unit",
    "C53_uniform_integers",
    "C53_uniform_datetimes_refuted",
    "C53_uniform_one_unit"
   ],
   "note": "Standard errors of the IID, AR(2) and HAC tests from the deviations; |r1| < 1; inflation factors agree; HAC degrees of freedom; HAC with v = n-1 equals IID (Parseval for the DCT). Findings proved: AR(2) standard error 0 or NaN for varying series; datetime steps are not checked."
  },
  {
   "property": "C54",
   "status": "proved",
   "theorems": [
    "C54_every_index_once",
    "C54_calls",
    "C54_slice",
    "C54_reassembled",
    "C54_local_function",
    "C54_elementwise"
   ],
   "note": "apply_to_slices for arguments flattened into a list of arrays; xr.combine_by_coords of unnamed arrays as in Model_XArray."
  },
  {
   "property": "C55",
   "status": "proved",
   "theorems": [
    "C55_names",
    "C55_value",
    "C55_unambiguous"
   ],
   "note": "Includes refutations: metric values with different labels along a shared dimension lose their labels (xarray Dataset assignment), and dotted names collide."
  },
  {
   "property": "C56",
   "status": "proved",
   "theorems": [
    "C56_exceedance",
    "C56_wind",
    "C56_intensity",
    "C56_intensity_masked",
    "C56_passthrough"
   ],
   "note": "Statistics of the default variable-wise loop; reductions over arbitrary dimensions."
  },
  {
   "property": "C57",
   "status": "proved",
   "theorems": [
    "C57_value",
    "C57_missing_refuted"
   ],
   "note": "Includes the refutation: an all-NaN forecast gets the perfect score 0."
  },
  {
   "property": "C58",
   "status": "proved",
   "theorems": [
    "C58_fair",
    "C58_fair_ensembles",
    "C58_biased",
    "C58_missing",
    "C58_missing_refuted",
    "C58_errors",
    "C58_fair_bounds",
    "C58_name_refuted"
   ],
   "note": "Thresholds per variable as arrays (also with time dimensions); the CDF transform and the ensemble statistics are those of C33 and C29. Findings proved: skipna_ensemble scores missing forecasts and observations 0; the unique name omits right_inclusive, bin_dim and the thresholds."
  },
  {
   "property": "C59",
   "status": "proved",
   "theorems": [
    "C59_anomalies",
    "C59_one_point",
    "C59_aligned",
    "C59_defined",
    "C59_errors",
    "C59_no_times",
    "C59_leap_day_refuted"
   ],
   "note": "The whole alignment in PerVariableStatisticWithClimatology, with the calendar of Model_Calendar. sel on a non-dimension coordinate raises KeyError only when there is a point. Finding proved: C59_leap_day_refuted."
  },
  {
   "property": "C60",
   "status": "proved",
   "theorems": [
    "C60_covered",
    "C60_covered_missing_refuted",
    "C60_covered_range",
    "C60_covered_monotone",
    "C60_confident",
    "C60_jaccard",
    "C60_jaccard_extremes",
    "C60_missing_refuted",
    "C60_covered_errors",
    "C60_errors",
    "C60_points_refuted"
   ],
   "note": "np.quantile's linear interpolation over the available members, members finite or missing (infinite members not modelled). Findings proved: missing data score 0; two different single points count as identical intervals (C60_points_refuted)."
  },
  {
   "property": "C61",
   "status": "proved",
   "theorems": [
    "C61_product",
    "C61_range",
    "C61_split",
    "C61_joint_refuted"
   ],
   "note": "On top of the statistics of C60. Finding proved (C61_joint_refuted): documented as the fraction of forecasts with all the answers, it multiplies the separate fractions (1/4 where the joint fraction is 1/2)."
  },
  {
   "property": "C62",
   "status": "proved",
   "theorems": [
    "C62_bin",
    "C62_range",
    "C62_errors"
   ],
   "note": "Bin values as a list (rational labels with values); predictions without a mask conflict; statistics finite where counted, as in the weighted-mean theorems."
  },
  {
   "property": "C63",
   "status": "proved",
   "theorems": [
    "C63_matching",
    "C63_dual",
    "C63_metric",
    "C63_simple",
    "C63_missing",
    "C63_defined"
   ],
   "note": "scipy.stats.wasserstein_distance is modelled (sorting, differences, searchsorted, NaN sorted last). Infinite members are in the model but not in the theorems; the cast to the dtype of the predictions is not modelled."
  },
  {
   "property": "C64",
   "status": "proved",
   "theorems": [
    "C64_average",
    "C64_defined",
    "C64_exceedance",
    "C64_pooled",
    "C64_rmse"
   ],
   "note": "The pooled theorems need the masks and weights not to depend on the member: a mask along the ensemble dimension is lost by the average."
  },
  {
   "property": "C65",
   "status": "proved",
   "theorems": [
    "C65_rounding",
    "C65_block_length",
    "C65_given_or_error",
    "C65_cache",
    "C65_replicates",
    "C65_finite",
    "C65_pointwise_metrics"
   ],
   "note": "arch.bootstrap.optimal_block_length is an arbitrary function to a real or nan; jax.linearize an arbitrary function (the claims hold whatever it returns); random numbers arbitrary within their ranges. Infinite values in the arch result, float rounding and label order of xr.combine_by_coords are not modelled. Missing values are dropped separately from statistics and weights: see C49_stationary_missing_refuted."
  },
  {
   "property": "C66",
   "status": "proved",
   "theorems": [
    "C66_store",
    "C66_written_once",
    "C66_template",
    "C66_declared_chunks",
    "C66_errors",
    "C66_interval",
    "C66_name_clash_refuted"
   ],
   "note": "Rechunk and ChunksToZarr are modelled as writes of every region at its positions, in any order; their checks against the template, other coordinates and the alignment of coordinates on dataset assignment are not modelled (the docstring requires compatible coordinates). The name clash and intervals of lead times are shown as they behave."
  },
  {
   "property": "C67",
   "status": "proved",
   "theorems": [
    "C67_one_source",
    "C67_zarr_by_name",
    "C67_prepared_values",
    "C67_prepared_once",
    "C67_ecmwf_forecast",
    "C67_ecmwf_analysis",
    "C67_failed_preparation_hides_error",
    "C67_retry_same_error",
    "C67_failed_call_has_no_effect_refuted",
    "C67_latency_history"
   ],
   "note": "Every dimension is taken to have a coordinate; the labels of a sliced dimension to be increasing; variables is a list of data variables. The contents of files are an arbitrary function of the moment. The failed-preparation behaviour is shown as it is."
  },
  {
   "property": "C68",
   "status": "proved",
   "theorems": [
    "C68_rename",
    "C68_rename_back",
    "C68_select",
    "C68_select_errors",
    "C68_select_labels",
    "C68_select_positions",
    "C68_stack",
    "C68_stack_errors",
    "C68_stack_reduce",
    "C68_stack_mean"
   ],
   "note": "Every dimension is taken to have a coordinate (a stacked dimension is labelled by its positions, as the docstring says). sel_kwargs and isel_kwargs (method, tolerance, drop, missing_dims) are not modelled; sliced labels are increasing."
  },
  {
   "property": "C69",
   "status": "proved",
   "theorems": [
    "C69_metric_values",
    "C69_metrics_file",
    "C69_state_file",
    "C69_other_files",
    "C69_nothing_aggregated",
    "C69_branches_run",
    "C69_dropped_statistic_refuted",
    "C69_no_output_path",
    "C69_library_metrics"
   ],
   "note": "Builds on C08, C14 and C16. The netCDF encoder is any function such that a dataset it encodes is read back with the same variables in the same order and equal arrays; attributes are not modelled. Metrics must not look at the order of variables, dimensions or labels: proved for the library's deterministic, categorical, ensemble and spatial metrics and all wrappers (not for Opportunism, REV and BaselineComparison). Every statistic keeps a variable (C69_dropped_statistic_refuted shows why); the values must fit in one dataset (same labels per dimension, unambiguous names)."
  },
  {
   "property": "C70",
   "status": "proved",
   "theorems": [
    "C70_values",
    "C70_nothing_else",
    "C70_hours",
    "C70_succeeds",
    "C70_one_file_each",
    "C70_names_distinct",
    "C70_benchmark_files",
    "C70_dotted_name_refuted",
    "C70_unknown_metric"
   ],
   "note": "Files are an arbitrary map from name to dataset; a variable must have the same dimensions in all files it appears in. Non-dimension coordinates are dropped on opening; the order of labels after np.unique and outer joins is not observable in the statements; years are strings; zarr chunk sizes are not modelled. C70_dotted_name_refuted: an entry named k.v.w is dropped silently."
  },
  {
   "property": "C71",
   "status": "proved",
   "theorems": [
    "C71_init_times",
    "C71_valid_times",
    "C71_own_window",
    "C71_lead_times",
    "C71_both_or_neither",
    "C71_all_pairs",
    "C71_chunk_sizes",
    "C71_settings",
    "C71_file",
    "C71_variables",
    "C71_distinct_files",
    "C71_mode",
    "C71_first_member",
    "C71_first_member_errors",
    "C71_single_members",
    "C71_climatology_knows_the_past_only_refuted",
    "C71_climatology_knows_the_past_only",
    "C71_loader",
    "C71_metrics"
   ],
   "note": "The date strings built from a year are represented by the times they denote (four-digit years); np.datetime64 of an own window's strings and the lead times stored in a prediction file are parameters; the order of np.intersect1d is not modelled. The land-sea mask and the climatology are inputs (their handling is C23, C27). C71_climatology_knows_the_past_only_refuted: members are the years 1990-2019 whatever year is evaluated."
  },
  {
   "property": "C72",
   "status": "proved",
   "theorems": [
    "C72_score",
    "C72_statistic",
    "C72_defined",
    "C72_region_names",
    "C72_belts",
    "C72_belts_cover",
    "C72_across_meridians",
    "C72_boxes",
    "C72_file",
    "C72_benchmark",
    "C72_benchmark_defined"
   ],
   "note": "Exact real arithmetic; coordinates are numbers. Forecast and target of a variable are on the same grid (same labels along the same dimensions), as the loaders make them (C61); a mask, if any, is on the target over all its dimensions (add_nan_mask), and the values that enter are numbers."
  },
  {
   "property": "C73",
   "status": "proved",
   "theorems": [
    "C73_curves",
    "C73_relative",
    "C73_better",
    "C73_relative_bias_refuted",
    "C73_alert",
    "C73_seeps",
    "C73_vs_analysis",
    "C73_succeeds",
    "C73_first_view",
    "C73_keeps_visibility",
    "C73_defaults_after_change_refuted",
    "C73_defaults",
    "C73_probabilistic_precipitation_refuted",
    "C73_looks",
    "C73_looks_refuted",
    "C73_look_of_model",
    "C73_axis",
    "C73_unit_of_mse_refuted",
    "C73_level_menu",
    "C73_level_menu_refuted",
    "C73_offered"
   ],
   "note": "The callbacks of the page are modelled as functions of the menus' values and of the figure drawn before; layout and browser are not. Files as in C70, every array per region, lead time and possibly level. Exact real arithmetic."
  },
  {
   "property": "C74",
   "status": "proved",
   "theorems": [
    "C74_init_times",
    "C74_lead_times",
    "C74_times_distinct",
    "C74_goes_ahead",
    "C74_prepared",
    "C74_level_numerals",
    "C74_file",
    "C74_completes"
   ],
   "note": "np.datetime64 of the time strings is a parameter; int() knows a sign and decimal digits. The prepared datasets have no auxiliary coordinates, latitude and longitude among their dimensions, and finite values at the evaluated points; runner as in C69. Exact real arithmetic."
  },
  {
   "property": "C75",
   "status": "proved",
   "theorems": [
    "C75_select",
    "C75_label",
    "C75_unique",
    "C75_exact",
    "C75_nearest_found",
    "C75_refused",
    "C75_drop",
    "C75_missing",
    "C75_defaults",
    "C75_as_labels",
    "C75_list_missing"
   ],
   "note": "pandas' get_indexer and xarray's PandasIndex.sel are modelled for labels that are numbers or times; which of several failures is raised first is not modelled; a method on string labels is a TypeError in the model."
  }
 ]
}