# Formal model of weatherbenchX in Coq 8.16.1

## 1. Approach

Shallow embedding: every modelled Python function is a total Gallina function
(`theories/Model_*.v`) whose comment cites the file and lines of `/repo` it
models. Exceptions are values (`result A := Ok a | Err kind`), so a theorem that
says `f x = Err KeyError` speaks about the exception the caller sees.
Specifications (`Spec_*.v`) are written without the model's helpers: relations,
sums and calendars a reader can check against the English. `Proofs_*.v` hold the
lemmas; `Props_*.v` hold the theorems `Cnn_*`, concrete `Example`s meeting their
hypotheses, and `Print Assumptions`. Theorems ending in `_refuted` prove, with a
witness, that a natural or documented stronger claim is false of the code (these
are findings); a suffix `_partial` would mark a theorem weaker than its property
(there is none at present).

### Values
`val := Fin (r : R) | NaN | PInf | NInf`: exact real arithmetic plus the IEEE
special values with their propagation rules (`Inf-Inf`, `0*Inf`, `0/0` are NaN,
comparisons with NaN are false). Not modelled: rounding, overflow, signed zero,
dtypes (float32/64 casts), integer overflow. A claim such as "chunked =
unchunked" is exact in the model and holds up to floating-point rounding in the
code.

### Labelled arrays (`Model_XArray.v`)
`da` = list of dimensions (name, coordinate labels) + total function from
environments (dimension name -> label) to `val` + auxiliary coordinates (among
them the boolean `mask`). Broadcasting is by dimension name; alignment
(inner/outer join) is by label, as xarray does. Well-formed arrays (`wf`) have
distinct dimension names and labels and a value that depends only on their own
dimensions. Array equality is extensional on the coordinate box (`da_equiv`,
`same_array`). Labels are integers (times in ns), exact rationals, strings or
booleans. Attributes and memory order are not modelled; every dimension is taken
to have a coordinate unless a theorem says otherwise.

### Dictionaries, trees, strings
Python dicts are association lists in insertion order with update-in-place;
nested structures are an inductive tree; strings are Coq strings with Python's
`split`, `join`, `endswith`, `startswith`.

### Concurrency, randomness, oracles
Beam schedules are arbitrary combine trees, groupings and permutations (a
relation, not a function); `atomic_write` is a small-step transition system in
which every writer may crash or fail at any step; random draws are universally
quantified arguments within the range numpy documents. Functions whose result is
not determined are oracles with laws and the theorems hold for each of them:
`np.argsort`/`sort_values` (any sorting permutation), the t distribution (any
symmetric strictly increasing cdf with its inverse), `jax.linearize` (any map,
with linearity/derivative laws where needed), `arch.optimal_block_length` (any
function to a real or nan), `str()`/`repr` of numbers, the netCDF encoder
(decode after encode gives the same variables). Each law set is shown
satisfiable by an instance beside the theorem.

## 2. Files

| Python | Coq model |
|---|---|
| `time_chunks.py` | `Model_TimeChunks` |
| `xarray_tree.py` | `Model_Tree` |
| `aggregation.py` | `Model_Aggregation` |
| `beam_utils.py` | `Model_Beam` (CombiningSum, GroupAll), `Model_AtomicWrite` |
| `beam_pipeline.py` | `Model_Beam`, `Model_BeamWrite`, `Model_Unaggregated` |
| `binning.py` | `Model_Binning`, `Model_Calendar` |
| `weighting.py` | `Model_Weighting` |
| `interpolations.py` | `Model_Interp`, `Model_Spatial` |
| `metrics/base.py` | `Model_MetricsBase`, `Model_Deterministic` (climatology) |
| `metrics/deterministic.py` | `Model_Deterministic` |
| `metrics/categorical.py` | `Model_Categorical`, `Model_Reliability`, `Model_Intervals` |
| `metrics/probabilistic.py` | `Model_Ensemble`, `Model_EnsembleRPS`, `Model_Wasserstein`, `Model_REV` |
| `metrics/spatial.py` | `Model_Spatial` |
| `metrics/wrappers.py` | `Model_Wrappers`, `Model_Select`, `Model_SelectMethod` |
| `data_loaders/base.py`, `xarray_loaders.py` | `Model_Loaders`, `Model_Prepare` |
| `data_loaders/latency_wrappers.py` | `Model_Latency`, `Model_Prepare` |
| `data_loaders/sparse_parquet.py` | `Model_Parquet` |
| `statistical_inference/base.py`, `bootstrap.py`, `utils.py` | `Model_Bootstrap`, `Model_Resample`, `Model_Stationary` |
| `statistical_inference/autodiff.py`, `t_test.py` | `Model_Autodiff`, `Model_TTest` |
| `statistical_inference/baseline_comparison.py` | `Model_Baseline` |
| `evaluation_scripts/run_example_evaluation.py` | `Model_ExampleEvaluation` |
| `public_benchmark/combine_results.py` | `Model_Combine` |
| `public_benchmark/apps/` (callbacks and tables of the viewer) | `Model_Viewer` |
| `public_benchmark/run_benchmark_evaluation.py`, `public_configs.py` | `Model_Benchmark`, `Model_BenchmarkRegions` |

## 3. Per property: model, proof, limits

"Model" lists the code the property is about (anchors in `properties.jsonl`); the theorems are in the `Props_*.v` files named.

### C01 Iterating TimeChunks covers every (init_time, lead_time) pair exactly once  (proved)

- Model: `weatherbenchX/time_chunks.py:TimeChunks.__init__`, `weatherbenchX/time_chunks.py:TimeChunks.__iter__`
- Proof: Induction over the chunking of a list; pairs counted with `NoDup`/`In` on the product of indices.
- Theorems (Props_TimeChunks.v): `C01_chunks_partition_pairs`, `C01_default_is_single_chunk`, `C01_slice_chunks`
- Scope and limits: Times are integers; casts to ns are the identity.

### C02 TimeChunks random access and length agree with iteration  (proved)

- Model: `weatherbenchX/time_chunks.py:TimeChunks.__getitem__`, `weatherbenchX/time_chunks.py:TimeChunks.__len__`
- Proof: Division/modulo arithmetic relating the flat index to the pair of chunk indices.
- Theorems (Props_TimeChunks.v): `C02_getitem_agrees_with_iteration`, `C02_len_is_number_of_chunks`

### C03 Chunk offsets locate each chunk inside the full arrays  (proved)

- Model: `weatherbenchX/time_chunks.py:TimeChunks.iter_with_chunk_offsets`
- Proof: Offsets as prefix sums of chunk lengths; slices by `firstn`/`skipn`.
- Theorems (Props_TimeChunks.v): `C03_offsets_locate_chunks`, `C03_offsets_defined_for_arrays`, `C03_offsets_for_interval_refuted`
- Scope and limits: Includes the refutation for interval lead times with lead_time_chunk_size=None (TypeError).

### C04 TimeChunks rejects exactly the malformed arguments  (proved)

- Model: `weatherbenchX/time_chunks.py:TimeChunks.__init__`
- Proof: Case analysis of the constructor; equivalence with an independent predicate.
- Theorems (Props_TimeChunks.v): `C04_constructor_validation`

### C05 combining_sum is a zero-filled outer join  (proved)

- Model: `weatherbenchX/aggregation.py:combining_sum`
- Proof: Extensional computation of the outer join: label lists as unions, reindexing by label.
- Theorems (Props_AggState.v): `C05_outer_join`, `C05_zero_filled`, `C05_no_new_NaN`, `C05_well_formed`

### C06 Summing aggregation states is order- and bracketing-independent with a neutral zero  (proved)

- Model: `weatherbenchX/aggregation.py:AggregationState.sum`, `weatherbenchX/aggregation.py:AggregationState.zero`, `weatherbenchX/aggregation.py:AggregationState.__add__`
- Proof: Commutative-monoid laws for zero-extended arrays, lifted to nested states by tree induction; permutations and bracketings as relations.
- Theorems (Props_AggState.v): `C06_order_and_bracketing`, `C06_leafwise_value`, `C06_zero_neutral`, `C06_only_zeros`, `C06_mixed_dims_refuted`

### C07 The Beam combiner gives the same sum for every execution schedule  (proved)

- Model: `weatherbenchX/beam_utils.py:CombiningSum`, `weatherbenchX/beam_pipeline.py:define_pipeline`
- Proof: Induction over combine trees (any create/add/merge/extract schedule) with a permutation invariant.
- Theorems (Props_Beam.v): `C07_schedule_independent`, `C07_any_two_schedules`

### C08 The Beam pipeline computes the same aggregation state as evaluating everything in one go  (proved)

- Model: `weatherbenchX/beam_pipeline.py:define_pipeline`, `weatherbenchX/beam_pipeline.py:ComputeStatisticsAggregateAndPrepareForCombine`, `weatherbenchX/beam_pipeline.py:ConcatPerStatisticPerVariable`, `weatherbenchX/beam_pipeline.py:reconstruct_aggregation_state`
- Proof: The runner is a relation over permutations, groupings and combine trees; a Fubini-style rearrangement of finite sums over the chunk partition shows each final entry equal to the direct one.
- Theorems (Props_Beam.v, Props_BeamComponents.v): `C08_pipeline_equals_direct`, `C08_pipeline_with_chunk_dependent_bins`, `C08_library_components`, `C08_library_data_bins`
- Scope and limits: Runner nondeterminism is a relation (pipeline_states). Two theorems: weights/bins that look at each time separately (any values, NaN included), and bins whose labels depend on the chunk (finite counted values). Both are also instantiated for the shipped weightings and binnings (C08_library_components, C08_library_data_bins).

### C09 Pipeline keys never mix different results  (proved)

- Model: `weatherbenchX/beam_pipeline.py:_AggregationKey`, `weatherbenchX/beam_pipeline.py:ConcatPerStatisticPerVariable`, `weatherbenchX/beam_pipeline.py:reconstruct_aggregation_state`
- Proof: Characterisation of the emitted keyed elements; each state entry shown to be a function of exactly the elements under its key.
- Theorems (Props_Beam.v): `C09_elements`, `C09_keys_separate`
- Scope and limits: Elements emitted by a chunk, and the entry of a state as a function of exactly the elements under its key.

### C10 Two-stage reduction equals one-stage reduction  (proved)

- Model: `weatherbenchX/aggregation.py:AggregationState.sum_along_dims`, `weatherbenchX/aggregation.py:Aggregator.aggregation_fn`
- Proof: Sum over a product box = iterated sum.
- Theorems (Props_Aggregator.v): `C10_two_stage`, `C10_zero`, `C10_missing_dim_refuted`

### C11 mean_statistics is the weighted mean over the selected points  (proved)

- Model: `weatherbenchX/aggregation.py:AggregationState.mean_statistics`, `weatherbenchX/aggregation.py:Aggregator.aggregate_stat_var`
- Proof: Weighted-mean algebra over the reals on finite sums restricted by mask and bin.
- Theorems (Props_Aggregator.v): `C11_weighted_mean`, `C11_result_coords`, `C11_between_bounds`, `C11_constant`, `C11_weight_scale`

### C12 Masked-out values never influence results; unmasked NaNs always surface  (proved)

- Model: `weatherbenchX/aggregation.py:Aggregator.aggregate_stat_var`
- Proof: Extensionality of the masked product; NaN absorbing for sums.
- Theorems (Props_Aggregator.v): `C12_masked_out_irrelevant`, `C12_skipna_ignores_NaN`, `C12_NaN_surfaces`, `C12_static_mask_refuted`

### C13 Aggregation drops exactly the variables it cannot reduce  (proved)

- Model: `weatherbenchX/aggregation.py:Aggregator.aggregation_fn`, `weatherbenchX/aggregation.py:Aggregator.aggregate_stat_vars`, `weatherbenchX/aggregation.py:Aggregator.aggregate_statistics`
- Proof: Case analysis of the per-variable step; equivalence with the stated condition.
- Theorems (Props_Aggregator.v): `C13_kept_iff`, `C13_total`, `C13_duplicate_bins`

### C14 AggregationState survives the Dataset round trip  (proved)

- Model: `weatherbenchX/aggregation.py:AggregationState.to_dataset`, `weatherbenchX/aggregation.py:AggregationState.from_dataset`
- Proof: Splitting/joining strings at a separator; induction over the nested state.
- Theorems (Props_RoundTrip.v): `C14_round_trip`, `C14_separator_in_name_refuted`, `C14_empty_statistic_refuted`, `C14_underscore_separator_refuted`, `C14_different_labels_refuted`

### C15 AggregationState survives the DataTree round trip  (proved)

- Model: `weatherbenchX/aggregation.py:AggregationState.to_data_tree`, `weatherbenchX/aggregation.py:AggregationState.from_data_tree`
- Proof: Induction over the nested state, keys preserved at every node.
- Theorems (Props_RoundTrip.v): `C15_round_trip`, `C15_zero_state`

### C16 atomic_write never exposes a partial file  (proved)

- Model: `weatherbenchX/beam_utils.py:atomic_write`
- Proof: Small-step transition system of any number of writers with crash and failure steps; inductive invariant.
- Theorems (Props_AtomicWrite.v): `C16_no_partial_content`, `C16_targets`, `C16_other_files_untouched`, `C16_return_installs`, `C16_returned_stays`, `C16_no_leftovers`, `C16_can_complete`, `C16_move_failure_leaves_tmp_refuted`
- Scope and limits: Filesystem as a map from paths to bytes, any interleaving, crashes and write/move failures; includes the refutation for a failing move (temporary file left behind).

### C17 Statistics are computed once per unique name  (proved)

- Model: `weatherbenchX/metrics/base.py:generate_unique_statistics_for_all_metrics`, `weatherbenchX/metrics/base.py:compute_unique_statistics_for_all_metrics`
- Proof: Induction over the list of metrics with Python dict semantics (last write wins, first position kept).
- Theorems (Props_Metrics.v): `C17_one_entry_per_name`, `C17_exceptions`
- Scope and limits: Exceptions are modelled as the error kind.

### C18 A metric's value does not depend on which other metrics are evaluated with it  (proved)

- Model: `weatherbenchX/metrics/base.py:compute_metrics_from_statistics`, `weatherbenchX/metrics/base.py:compute_metric_from_statistics`, `weatherbenchX/aggregation.py:AggregationState.metric_values`
- Proof: Non-interference: computed dictionary restricted to a metric's own names.
- Theorems (Props_Metrics.v): `C18_alone`, `C18_own_means`, `C18_failures`
- Scope and limits: With the real Aggregator: statistics computed, aggregated, meaned, metrics computed. Includes the refutation when two statistics share a name.

### C19 Distinct parametrisations of the shipped statistics get distinct unique names  (proved)

- Model: `weatherbenchX/metrics/deterministic.py:ErrorExceedance`, `weatherbenchX/metrics/probabilistic.py:CRPSSkill`, `weatherbenchX/metrics/probabilistic.py:CRPSSpread`, `weatherbenchX/metrics/categorical.py:SEEPSStatistic`, `weatherbenchX/metrics/wrappers.py:InputTransform.unique_name`
- Proof: Injectivity of the name printers (prefix/separator arguments) over an inductive catalogue; explicit colliding pairs for the rest.
- Theorems (Props_Names.v, Props_Names2.v, Props_Names3.v): `C19_names`, `C19_faithful`, `C19_together`, `C19_faithful_together`, `C19_seeps`, `C19_wrapped`, `C19_wrapped_inner`, `C19_averaged_inner`, `C19_binary`, `C19_bins`, `C19_cdf`, `C19_passthrough_refuted`, `C19_exceedance_refuted`, `C19_skipna_refuted`, `C19_use_sort_refuted`, `C19_climatology_refuted`, `C19_wind_refuted`, `C19_dimensions_refuted`, `C19_sizes_refuted`, `C19_seeps_refuted`, `C19_transforms_refuted`, `C19_subselect_refuted`, `C19_all_names`, `C19_all_together`, `C19_intervals_refuted`
- Scope and limits: The catalogue (Spec_Names.shipped) lists the shipped classes with their constructor parameters; str() of numbers is a parameter with the law that it prints numbers without separators. The classes whose names omit a parameter are refuted one by one with concrete data on which the two statistics of one name differ.

### C20 Per-variable statistics and metrics cover exactly the common variables  (proved)

- Model: `weatherbenchX/metrics/base.py:PerVariableStatistic.compute`, `weatherbenchX/metrics/base.py:PerVariableMetric.values_from_mean_statistics`
- Proof: Dictionary lemmas on key intersection.
- Theorems (Props_Metrics.v): `C20_statistic`, `C20_statistic_raises`, `C20_metric`

### C21 map_structure preserves structure and applies the function leafwise  (proved)

- Model: `weatherbenchX/xarray_tree.py:map_structure`
- Proof: Induction over trees (`leaf_at` path lookup as the specification).
- Theorems (Props_Tree.v): `C21_leafwise`, `C21_shape`, `C21_missing_key_fails`, `C21_missing_key_KeyError`, `C21_identity`, `C21_composition`, `C21_no_structures`, `C21_shape_lists_refuted`

### C22 Deterministic error metrics satisfy their defining inequalities  (proved)

- Model: `weatherbenchX/metrics/deterministic.py:Error`, `weatherbenchX/metrics/deterministic.py:AbsoluteError`, `weatherbenchX/metrics/deterministic.py:SquaredError`, `weatherbenchX/metrics/deterministic.py:RMSE`, `weatherbenchX/metrics/deterministic.py:Bias`, `weatherbenchX/metrics/deterministic.py:MAE`
- Proof: Jensen / Cauchy-Schwarz for weighted finite sums.
- Theorems (Props_Deterministic.v): `C22_inequalities`, `C22_values`, `C22_swap`, `C22_nan`
- Scope and limits: Values, inequalities, swap and NaN propagation for any Aggregator configuration with non-negative weights.

### C23 ACC lies in [-1, 1]  (proved)

- Model: `weatherbenchX/metrics/deterministic.py:ACC`, `weatherbenchX/metrics/deterministic.py:AnomalyCovariance`, `weatherbenchX/metrics/deterministic.py:SquaredPredictionAnomaly`, `weatherbenchX/metrics/deterministic.py:SquaredTargetAnomaly`
- Proof: Cauchy-Schwarz for weighted finite sums.
- Theorems (Props_Deterministic.v): `C23_range`, `C23_rescale`, `C23_same_sample`, `C23_mask_on_targets_only_refuted`
- Scope and limits: Assumes the three anomaly statistics cover the same sample (C23_same_sample gives a sufficient condition); includes the refutation when only the targets carry a mask (ACC = sqrt 2).

### C24 The contingency table partitions the sample  (proved)

- Model: `weatherbenchX/metrics/categorical.py:TruePositives`, `weatherbenchX/metrics/categorical.py:TrueNegatives`, `weatherbenchX/metrics/categorical.py:FalsePositives`, `weatherbenchX/metrics/categorical.py:FalseNegatives`
- Proof: Pointwise case analysis, lifted to aggregated means.
- Theorems (Props_Categorical.v): `C24_point`, `C24_means`
- Scope and limits: Pointwise partition and, for any aggregator configuration with non-negative weights, the four means. float32 casts not modelled.

### C25 Categorical scores stay in range and agree with each other  (proved)

- Model: `weatherbenchX/metrics/categorical.py:CSI`, `weatherbenchX/metrics/categorical.py:Accuracy`, `weatherbenchX/metrics/categorical.py:Recall`, `weatherbenchX/metrics/categorical.py:FAR`, `weatherbenchX/metrics/categorical.py:Precision`, `weatherbenchX/metrics/categorical.py:F1Score`, `weatherbenchX/metrics/categorical.py:FrequencyBias`, `weatherbenchX/metrics/categorical.py:HSS`, `weatherbenchX/metrics/categorical.py:ETS`, `weatherbenchX/metrics/categorical.py:SEDI`
- Proof: Field arithmetic over the reals from the four means; NaN conditions by case analysis on denominators.
- Theorems (Props_Categorical.v): `C25_values`, `C25_unit_range`, `C25_nan_exactly`, `C25_precision_far`, `C25_f1`, `C25_hss`, `C25_ets`, `C25_sedi`
- Scope and limits: Values, ranges, NaN conditions and identities of CSI, Accuracy, Recall, FAR, Precision, F1, FrequencyBias, HSS, ETS, SEDI.

### C26 SEEPS is equitable and zero for correct categories  (proved)

- Model: `weatherbenchX/metrics/categorical.py:SEEPSStatistic`
- Proof: Score matrix computed per category; expectation identity by field arithmetic.
- Theorems (Props_Categorical.v): `C26_value`, `C26_matrix`, `C26_missing`, `C26_overlap_refuted`, `C26_missing_threshold_refuted`, `C26_two_masks`, `C26_per_variable`
- Scope and limits: From the climatology lookup to the masked score; includes refutations: overlapping categories when wet threshold <= dry threshold, and score 0 when the wet threshold is missing.

### C27 Sort-based CRPS spread equals pairwise spread  (proved)

- Model: `weatherbenchX/metrics/probabilistic.py:CRPSSpread`, `weatherbenchX/metrics/probabilistic.py:_rank_ds`
- Proof: Order statistics: rank-weighted sum of a sorted list = pairwise absolute differences, for any sorting oracle.
- Theorems (Props_Ensemble.v): `C27_value`, `C27_sort_equals_pairwise`, `C27_errors`, `C27_skipna`, `C27_single_member_refuted`
- Scope and limits: np.argsort is any function returning sorting indices (order of ties free); includes the refutation: the unfair spread of one valid member with skipna is 0 although NaN is documented.

### C28 CRPS of an ensemble is a proper non-negative quantity  (proved)

- Model: `weatherbenchX/metrics/probabilistic.py:CRPSSkill`, `weatherbenchX/metrics/probabilistic.py:CRPSSpread`, `weatherbenchX/metrics/probabilistic.py:CRPSEnsemble`
- Proof: Integral representation of the CRPS by piecewise-constant CDFs; algebra of spread and skill.
- Theorems (Props_CRPS.v): `C28_pointwise`, `C28_fair_factor`, `C28_single_member`, `C28_metric`, `C28_distance`, `C28_missing_observation_refuted`, `C28_mask_on_observations_refuted`, `C28_fair_distance_refuted`
- Scope and limits: Pointwise and as a metric under any aggregator configuration; includes refutations: missing observations with an aggregator that skips NaN, and masks that only the observations carry, make the CRPS negative; the fair distance of an ensemble to itself is negative.

### C29 The unbiased ensemble-mean MSE is the off-diagonal average  (proved)

- Model: `weatherbenchX/metrics/probabilistic.py:EnsembleVariance`, `weatherbenchX/metrics/probabilistic.py:UnbiasedEnsembleMeanSquaredError`, `weatherbenchX/metrics/probabilistic.py:EnsembleMeanSquaredError`
- Proof: Finite double sums over ordered pairs.
- Theorems (Props_EnsMean.v): `C29_variance`, `C29_unbiased`, `C29_unbiased_ensembles`, `C29_no_ensemble`
- Scope and limits: With and without skipna, one observation or an ensemble of observations.

### C30 The rank histogram assigns exactly one rank  (proved)

- Model: `weatherbenchX/metrics/probabilistic.py:RankHistogram`
- Proof: Counting members below the target; one-hot by index.
- Theorems (Props_EnsMean.v): `C30_rank`, `C30_finite_rank`, `C30_missing_observation_refuted`
- Scope and limits: Includes the refutation: a NaN observation is counted in bin 0.

### C31 Relative economic value is bounded by 1 and never below the climatological choice  (proved)

- Model: `weatherbenchX/metrics/probabilistic.py:RelativeEconomicValue`
- Proof: Expected-expense algebra; maximum over thresholds.
- Theorems (Props_REV.v): `C31_value`, `C31_at_most_one`, `C31_finite`, `C31_constant`, `C31_perfect`, `C31_ensemble_thresholds`, `C31_constructor`, `C31_optimal`
- Scope and limits: Thresholds are rationals distinct from each other and from 0 and 1 (user thresholds 0 or 1 would duplicate the appended constant thresholds). Values, the bound 1, finiteness, constant decisions, perfect decisions, optimal thresholds, ensemble thresholds, constructor checks.

### C32 Neighbourhood averaging and FSS  (proved)

- Model: `weatherbenchX/metrics/spatial.py:FSS`, `weatherbenchX/metrics/spatial.py:convolve2d_wrap_longitude`, `weatherbenchX/metrics/spatial.py:neighborhood_averaging`, `weatherbenchX/interpolations.py:NeighborhoodThresholdProbabilities`
- Proof: Finite convolution sums modulo the grid length; Cauchy-Schwarz for FSS.
- Theorems (Props_FSS.v, Props_FSS2.v, Props_FSS3.v, Props_FSS4.v, Props_Spatial.v): `C32_fss`, `C32_mask_tolerance`, `C32_mask`, `C32_threshold_probability`, `C32_threshold_monotone`, `C32_fss_mask_refuted`, `C32_mask_large_refuted`, `C32_mask_transposed_refuted`, `C32_sizes`, `C32_average`, `C32_range`, `C32_fraction`, `C32_rotation`
- Scope and limits: scipy convolve1d(mode='wrap') with a uniform kernel modelled as exact real sums (float rounding not modelled). The FSS theorem is for arrays without a mask. Findings proved: FSS = -2 when the targets carry an (all-true) mask; a mask stays true despite an invalid neighbour from size 317 on; a (longitude, latitude) mask comes out transposed.

### C33 Input transforms compose in order and preserve NaN  (proved)

- Model: `weatherbenchX/metrics/wrappers.py:WrappedStatistic`, `weatherbenchX/metrics/wrappers.py:WrappedMetric`, `weatherbenchX/metrics/wrappers.py:ContinuousToBinary`, `weatherbenchX/metrics/wrappers.py:ContinuousToBins`, `weatherbenchX/metrics/wrappers.py:binarize_thresholds`
- Proof: List induction over transforms; pointwise case analysis for each transform.
- Theorems (Props_Transforms.v, Props_Wrappers.v): `C33_constructors`, `C33_binary`, `C33_cdf`, `C33_cdf_monotone`, `C33_monotonicity`, `C33_bins`, `C33_bins_partition`, `C33_bin_names_refuted`, `C33_ensemble_mean`, `C33_weibull`, `C33_relu`, `C33_shift`, `C33_subselect`, `C33_statistics`, `C33_wrapped_statistic`, `C33_metric`
- Scope and limits: Order, sides, values of all transforms (Rename, Select and StackToNewDimension are in C68); array names are the variable keys. Includes the refutation: bin names show two decimals, so close edges give duplicate bin labels.

### C34 Regions contain exactly the points in their limits, modulo 360 degrees  (proved)

- Model: `weatherbenchX/binning.py:_region_to_mask`, `weatherbenchX/binning.py:_create_lon_mask`, `weatherbenchX/binning.py:_create_lat_mask`
- Proof: Rational arithmetic modulo 360.
- Theorems (Props_Regions.v): `C34_regions`, `C34_success`, `C34_bad_limits`, `C34_full_turns`
- Scope and limits: Coordinates and limits are rationals (exact arithmetic, no float rounding of the modulo).

### C35 Binning by intervals, values or sets partitions the data  (proved)

- Model: `weatherbenchX/binning.py:ByCoordBins`, `weatherbenchX/binning.py:ByExactCoord`, `weatherbenchX/binning.py:BySets`, `weatherbenchX/binning.py:LatitudeBins`, `weatherbenchX/binning.py:LongitudeBins`, `weatherbenchX/binning.py:vectorized_coord_mask`
- Proof: Sorted edges: each value in one half-open interval; membership masks.
- Theorems (Props_Binning.v): `C35_coord_bins`, `C35_coord_bins_partition`, `C35_coord_bins_success`, `C35_exact_coord`, `C35_exact_coord_success`, `C35_sets`, `C35_sets_errors`, `C35_latitude_bins`, `C35_longitude_bins`
- Scope and limits: numpy's number formatting is a parameter; theorems for text labels assume it gives distinct labels. Shared edges of LatitudeBins/LongitudeBins counted twice is part of the theorems.

### C36 Time-unit bins put each time in exactly one bin  (proved)

- Model: `weatherbenchX/binning.py:ByTimeUnit`, `weatherbenchX/binning.py:ByTimeUnitFromSeconds`
- Proof: Floor division and an independent specification of the Gregorian calendar.
- Theorems (Props_TimeBins.v): `C36_unit_value_unique`, `C36_time_unit`, `C36_time_unit_success`, `C36_time_unit_sets`, `C36_from_seconds`, `C36_from_seconds_no_wrap`, `C36_from_seconds_success`
- Scope and limits: Gregorian calendar specified independently; all ns time stamps and deltas. ByTimeUnitFromSeconds is not reduced modulo the larger unit (theorem C36_from_seconds_no_wrap).

### C37 Land/sea and regional bins combine as documented  (proved)

- Model: `weatherbenchX/binning.py:LandSea`, `weatherbenchX/binning.py:Regions`
- Proof: Pointwise Boolean algebra on masks; label concatenation.
- Theorems (Props_Regions.v): `C37_land_sea`, `C37_land_sea_success`, `C37_regions_land`, `C37_same_grid`, `C37_distinct_labels_refuted`
- Scope and limits: Includes the refutation: a region called x_land collides with the land bin of region x.

### C38 Grid-area weights are positive, sum correctly and ignore orientation  (proved)

- Model: `weatherbenchX/weighting.py:GridAreaWeighting`, `weatherbenchX/weighting.py:_latitude_cell_bounds`, `weatherbenchX/weighting.py:_cell_area_from_latitude`
- Proof: Telescoping sums of sines, monotonicity of sine on [-pi/2, pi/2].
- Theorems (Props_Weighting.v): `C38_no_latitude`, `C38_weights`, `C38_whole_sphere`, `C38_cells`, `C38_orientation`, `C38_errors`, `C38_normalisation_irrelevant`
- Scope and limits: Grid-cell areas over the reals with the exact sine (no float rounding); covers both orientations, both normalisations (irrelevant to means), range errors.

### C39 Latency wrappers never use data that is not yet available  (proved)

- Model: `weatherbenchX/data_loaders/latency_wrappers.py:ConstantLatencyWrapper`
- Proof: Arg-max over available runs; label selection lemmas.
- Theorems (Props_Latency.v): `C39_latest_available_run`, `C39_served_from_latest_available_run`, `C39_no_look_ahead`, `C39_errors`, `C39_same_valid_time`, `C39_all_or_nothing`
- Scope and limits: The wrapper around any source, and around PredictionsFromXarray end to end (values, errors, all-or-nothing). Times are integers (ns); the float64 comparison of time differences is not modelled.

### C40 Multiple latencies choose the freshest available run  (proved)

- Model: `weatherbenchX/data_loaders/latency_wrappers.py:MultipleConstantLatencyWrapper`
- Proof: Lexicographic sorting oracle; partition of the queries among loaders.
- Theorems (Props_Multi.v): `C40_freshest_loader`, `C40_freshest_up_to_a_second`, `C40_every_loader_must_have_issued_a_run`, `C40_queries_answered_once`, `C40_served_by_the_freshest_run`
- Scope and limits: np.argsort of the pairs is any lexicographically sorting permutation. Findings proved: one loader without an issued run fails the query; comparison is in whole seconds (C40_half_a_second).

### C41 Targets are read at valid time = init + lead; persistence at init  (proved)

- Model: `weatherbenchX/data_loaders/xarray_loaders.py:TargetsFromXarray`, `weatherbenchX/data_loaders/xarray_loaders.py:PersistenceFromXarray`
- Proof: Selection by label of init + lead; all-or-nothing by `mapM`.
- Theorems (Props_Loaders.v): `C41_targets_at_valid_time`, `C41_targets_all_or_nothing`, `C41_targets_slice`, `C41_targets_without_lead_times`, `C41_persistence_at_init_time`, `C41_persistence_needs_lead_times`, `C41_predictions_are_the_requested_part`, `C41_predictions_all_or_nothing`, `C41_predictions_slice`
- Scope and limits: Opening, renaming and preprocessing of the data set are not modelled; the data set is a dictionary of arrays. Includes errors (all-or-nothing) and slices.

### C42 Climatology lookup matches calendar day and hour  (proved)

- Model: `weatherbenchX/data_loaders/xarray_loaders.py:ClimatologyFromXarray`, `weatherbenchX/data_loaders/xarray_loaders.py:ProbabilisticClimatologyFromXarray`
- Proof: Calendar arithmetic (day of year, hour) against an independent calendar.
- Theorems (Props_Loaders.v): `C42_climatology_of_the_valid_time`, `C42_climatology_all_or_nothing`, `C42_climatology_without_lead_times`, `C42_climatology_slice`, `C42_members_are_years`, `C42_members_all_or_nothing`, `C42_members_errors`, `C42_the_hour_in_another_year`
- Scope and limits: Civil calendar specified independently; day 366 falls on 1 January of the next year for members from years with 365 days (theorem C42_the_hour_in_another_year).

### C43 load_chunk applies its stages in a fixed order and masks are computed last  (proved)

- Model: `weatherbenchX/data_loaders/base.py:DataLoader.load_chunk`, `weatherbenchX/data_loaders/base.py:add_nan_mask_to_data`
- Proof: Stage composition; mask as notnull of the final values.
- Theorems (Props_LoadChunk.v): `C43_stages_in_order`, `C43_first_error`, `C43_compute_irrelevant`, `C43_mask_of_values`, `C43_masked_targets_are_skipped`, `C43_conflicting_masks_are_dropped`
- Scope and limits: Masks of predictions and targets: differing masks are dropped by xarray arithmetic (C43_conflicting_masks_are_dropped). add_values_to_coords is not modelled.

### C44 Sparse files: exactly the partitions that can hold a requested observation are read  (proved)

- Model: `weatherbenchX/data_loaders/sparse_parquet.py:SparseObservationsFromParquet`, `weatherbenchX/data_loaders/sparse_parquet.py:get_parquet_files_subset`, `weatherbenchX/data_loaders/sparse_parquet.py:parquet_filename_for_time`
- Proof: Calendar floors; list of partitions = image of the interval.
- Theorems (Props_Parquet.v): `C44_files`, `C44_distinct`, `C44_unique`, `C44_read`, `C44_complete`, `C44_constructor`
- Scope and limits: Files are an arbitrary map from names to frames; os.path.join and the calendar are modelled; parquet row filters as the comparison of the time column. C44_complete: the condition on files is that the observation lies within file_tolerance of its file's partition.

### C45 Sparse observations are matched to the right init/lead times  (proved)

- Model: `weatherbenchX/data_loaders/sparse_parquet.py:SparseObservationsFromParquet`, `weatherbenchX/data_loaders/sparse_parquet.py:METARFromParquet`, `weatherbenchX/data_loaders/sparse_parquet.py:set_bad_quality_to_nan`
- Proof: Row-level relational specification; filters, joins and splits as list lemmas.
- Theorems (Props_Parquet2.v, Props_Parquet3.v, Props_Parquet4.v): `C45_window`, `C45_rows`, `C45_duplicates`, `C45_exact`, `C45_no_leads`, `C45_slice`, `C45_slice_incompatible`, `C45_complete`, `C45_index`, `C45_dropna`, `C45_dropna_split`, `C45_slice_refuted`, `C45_tolerance_end_refuted`, `C45_metar`, `C45_metar_keeps_times`
- Scope and limits: Data frames are columns and rows; sort_values is arbitrary with the laws of a sort (met by an insertion sort). Findings proved: the start of a slice of lead times is subtracted (C45_slice states what is returned, C45_slice_refuted that it is not the slice); the interval of the tolerance is documented as closed but its end is excluded. The time_diff column added when removing duplicates is not kept; two columns renamed to one name are excluded (no_clash).

### C46 Altitude adjustment follows the station's height above the interpolated grid height  (proved)

- Model: `weatherbenchX/interpolations.py:GridToSparseWithAltitudeAdjustment`, `weatherbenchX/interpolations.py:_wind_adjustment_factor`
- Proof: Real algebra on the interpolated elevation difference.
- Theorems (Props_Altitude.v): `C46_wind_factor`, `C46_temperature_change`, `C46_continuous_at_limit_refuted`, `C46_stations`, `C46_unadjusted`, `C46_other_variables`, `C46_empty_reference_refuted`
- Scope and limits: The grid elevation is taken on the points the array has (xarray assign_coords alignment). Findings proved: the adjustment jumps at the cutoff; an empty reference raises. The mutation of the caller's array by += is not modelled.

### C47 Interpolation is exact at grid points, stays within the data and loses no points  (proved)

- Model: `weatherbenchX/interpolations.py:InterpolateToReferenceCoords`, `weatherbenchX/interpolations.py:InterpolateToFixedCoords`, `weatherbenchX/interpolations.py:MultipleInterpolation`, `weatherbenchX/interpolations.py:pad_longitude`, `weatherbenchX/interpolations.py:CropToBox`, `weatherbenchX/interpolations.py:Subsample`
- Proof: Piecewise-linear interpolation on increasing rationals; induction over dimensions.
- Theorems (Props_Interp.v, Props_Interp2.v, Props_Interp3.v): `C47_per_variable`, `C47_multiple_in_order`, `C47_pad_longitude`, `C47_linear`, `C47_nearest`, `C47_fixed_dims`, `C47_wrapped`, `C47_within_bounds`, `C47_exact_at_grid_points`, `C47_crop`, `C47_crop_exclusive_longitudes_refuted`, `C47_subsample`, `C47_to_reference`, `C47_empty_reference`, `C47_clip_ascending`, `C47_clip_descending_refuted`
- Scope and limits: xarray.interp modelled for linear and nearest, coordinates exact rationals, applied one dimension after the other (for linear interpolation this is scipy's multilinear result). Findings proved: clipping a descending reference empties it; CropToBox keeps longitudes on its limits although they are documented as exclusive. NeighborhoodThresholdProbabilities is in C32.

### C48 Baseline comparison evaluates both systems and compares exactly their metrics  (proved)

- Model: `weatherbenchX/statistical_inference/baseline_comparison.py`
- Proof: String-prefix injectivity; dictionary lemmas.
- Theorems (Props_Baseline.v): `C48_comparison`, `C48_default_baseline`, `C48_all_metrics`, `C48_all_metrics_total`, `C48_combine`, `C48_zero_state`, `C48_names`, `C48_difference`
- Scope and limits: BaselineComparison metrics, combine_aggregation_states, name prefixes, the difference of metric values, errors (missing entries) and the zero state.

### C49 Bootstrap resampling by counts equals resampling by indices  (proved)

- Model: `weatherbenchX/statistical_inference/bootstrap.py`
- Proof: Counting: sums by multinomial counts = sums over drawn indices.
- Theorems (Props_Resample.v): `C49_unit_check`, `C49_counts_are_draws`, `C49_iid`, `C49_missing_unit_refuted`, `C49_cluster_names`, `C49_cluster`, `C49_stationary_sums`, `C49_stationary_missing_refuted`
- Scope and limits: IIDBootstrap, ClusterBootstrap constructors and the resampled sums of StationaryBootstrap. np.random.multinomial is any matrix of counts; the theorems hold for every draw. Findings: a missing value in an undrawn unit makes every IID/cluster replicate missing (0*NaN), and the stationary bootstrap sums missing statistics as 0 while their weights count.

### C50 Confidence intervals and p-values are coherent  (proved)

- Model: `weatherbenchX/statistical_inference/base.py`, `weatherbenchX/statistical_inference/bootstrap.py`, `weatherbenchX/statistical_inference/t_test.py`
- Proof: Order statistics of sorted replicates; symmetric increasing CDF laws.
- Theorems (Props_Bootstrap.v, Props_TTest.v): `C50_bootstrap_interval`, `C50_bootstrap_nested`, `C50_bootstrap_percentiles`, `C50_bootstrap_p_range`, `C50_bootstrap_duality`, `C50_bootstrap_no_data`, `C50_bootstrap_bad_alpha`, `C50_significance`, `C50_single_replicate_refuted`, `C50_t_interval`, `C50_t_nested`, `C50_t_p_range`, `C50_t_duality`, `C50_t_no_variation`, `C50_t_missing`, `C50_t_large_alpha_refuted`
- Scope and limits: Bootstrap percentile intervals and p-values; t-test intervals, p-values, significance (the t distribution is any symmetric strictly increasing cdf with its inverse; Cauchy as instance). Includes refutations: a single bootstrap replicate rejects every null value; alpha > 1 gives upside-down t intervals.

### C51 Stationary bootstrap indices are valid and consecutive within blocks  (proved)

- Model: `weatherbenchX/statistical_inference/bootstrap.py`
- Proof: Invariant of the index generator.
- Theorems (Props_Bootstrap.v): `C51_indices`, `C51_unit_blocks_are_iid`, `C51_blocks_consecutive`, `C51_errors`
- Scope and limits: np.random.rand / randint are arbitrary draws within their ranges.

### C52 Linearised per-unit values have the metric's mean and zero-mean deviations  (proved)

- Model: `weatherbenchX/statistical_inference/autodiff.py`, `weatherbenchX/statistical_inference/t_test.py`
- Proof: Linearity of the tangent map; sums over units.
- Theorems (Props_Autodiff.v): `C52_value_is_point_estimate`, `C52_tangents_sum_to_zero`, `C52_ratio`, `C52_constant_weights`, `C52_classical_t_test`, `C52_quotient_rule_linear`, `C52_quotient_rule_derivative`, `C52_quotient_rule_shaped`
- Scope and limits: jax.linearize is an arbitrary function assumed to return a linear map (C52_tangents_sum_to_zero) that is the derivative (C52_ratio, C52_classical_t_test); C52_quotient_rule_* show a map meeting these laws. Per-unit arrays finite.

### C53 t-test corrections are well-defined  (proved)

- Model: `weatherbenchX/statistical_inference/t_test.py`
- Proof: Real algebra; Parseval identity of the DCT.
- Theorems (Props_TTest2.v): `C53_iid`, `C53_missing_dimension`, `C53_lag1_autocorrelation`, `C53_inflation_agrees`, `C53_inflation_uncorrelated`, `C53_geer`, `C53_geer_two_units`, `C53_geer_refuted`, `C53_hac_dof`, `C53_hac_dof_value`, `C53_hac_dof_clamped`, `C53_hac`, `C53_hac_one_unit`, `C53_uniform_integers`, `C53_uniform_datetimes_refuted`, `C53_uniform_one_unit`
- Scope and limits: Standard errors of the IID, AR(2) and HAC tests from the deviations; |r1| < 1; inflation factors agree; HAC degrees of freedom; HAC with v = n-1 equals IID (Parseval for the DCT). Findings proved: AR(2) standard error 0 or NaN for varying series; datetime steps are not checked.

### C54 Applying a function to slices covers every index once  (proved)

- Model: `weatherbenchX/statistical_inference/utils.py`
- Proof: Induction over the slice dimensions.
- Theorems (Props_Slices.v): `C54_every_index_once`, `C54_calls`, `C54_slice`, `C54_reassembled`, `C54_local_function`, `C54_elementwise`
- Scope and limits: apply_to_slices for arguments flattened into a list of arrays; xr.combine_by_coords of unnamed arrays as in Model_XArray.

### C55 Metric values dataset has exactly one entry per metric and variable  (proved)

- Model: `weatherbenchX/aggregation.py:AggregationState.metric_values`
- Proof: Dictionary fold; unambiguous splitting of dotted names.
- Theorems (Props_Metrics.v): `C55_names`, `C55_value`, `C55_unambiguous`
- Scope and limits: Includes refutations: metric values with different labels along a shared dimension lose their labels (xarray Dataset assignment), and dotted names collide.

### C56 Other deterministic statistics mean what their names say  (proved)

- Model: `weatherbenchX/metrics/deterministic.py:ErrorExceedance`, `weatherbenchX/metrics/deterministic.py:WindVectorSquaredError`, `weatherbenchX/metrics/deterministic.py:RelativeIntensity`, `weatherbenchX/metrics/deterministic.py:PredictionPassthrough`, `weatherbenchX/metrics/deterministic.py:TargetPassthrough`
- Proof: Pointwise computation.
- Theorems (Props_Det2.v): `C56_exceedance`, `C56_wind`, `C56_intensity`, `C56_intensity_masked`, `C56_passthrough`
- Scope and limits: Statistics of the default variable-wise loop; reductions over arbitrary dimensions.

### C57 The ranked probability score is the summed squared CDF difference  (proved)

- Model: `weatherbenchX/metrics/deterministic.py:RankedProbabilityScore`
- Proof: Finite sum of squares.
- Theorems (Props_Det2.v): `C57_value`, `C57_missing_refuted`
- Scope and limits: Includes the refutation: an all-NaN forecast gets the perfect score 0.

### C58 The ensemble RPS is the (unbiased) summed squared difference of the empirical CDFs  (proved)

- Model: `weatherbenchX/metrics/probabilistic.py:EnsembleRankedProbabilityScore`, `weatherbenchX/metrics/wrappers.py:ContinuousToCDF`
- Proof: Reduction to C29 and C33; per-bin algebra.
- Theorems (Props_EnsembleRPS.v): `C58_fair`, `C58_fair_ensembles`, `C58_biased`, `C58_missing`, `C58_missing_refuted`, `C58_errors`, `C58_fair_bounds`, `C58_name_refuted`
- Scope and limits: Thresholds per variable as arrays (also with time dimensions); the CDF transform and the ensemble statistics are those of C33 and C29. Findings proved: skipna_ensemble scores missing forecasts and observations 0; the unique name omits right_inclusive, bin_dim and the thresholds.

### C59 Climatology-based statistics read the climatology at the forecast's valid time  (proved)

- Model: `weatherbenchX/metrics/base.py:PerVariableStatisticWithClimatology`, `weatherbenchX/metrics/deterministic.py:SquaredPredictionAnomaly`, `weatherbenchX/metrics/deterministic.py:SquaredTargetAnomaly`, `weatherbenchX/metrics/deterministic.py:AnomalyCovariance`
- Proof: Label selection at the valid time; calendar.
- Theorems (Props_Climatology.v): `C59_anomalies`, `C59_one_point`, `C59_aligned`, `C59_defined`, `C59_errors`, `C59_no_times`, `C59_leap_day_refuted`
- Scope and limits: The whole alignment in PerVariableStatisticWithClimatology, with the calendar of Model_Calendar. sel on a non-dimension coordinate raises KeyError only when there is a point. Finding proved: C59_leap_day_refuted.

### C60 Prediction-interval statistics compare the ensemble's quantile interval as documented  (proved)

- Model: `weatherbenchX/metrics/categorical.py:Confident`, `weatherbenchX/metrics/categorical.py:Covered`, `weatherbenchX/metrics/categorical.py:JaccardDistant`
- Proof: Interpolated quantiles are monotone in the level; interval algebra.
- Theorems (Props_Intervals.v): `C60_covered`, `C60_covered_missing_refuted`, `C60_covered_range`, `C60_covered_monotone`, `C60_confident`, `C60_jaccard`, `C60_jaccard_extremes`, `C60_missing_refuted`, `C60_covered_errors`, `C60_errors`, `C60_points_refuted`
- Scope and limits: np.quantile's linear interpolation over the available members, members finite or missing (infinite members not modelled). Findings proved: missing data score 0; two different single points count as identical intervals (C60_points_refuted).

### C61 Opportunism multiplies the shares it asks about  (proved)

- Model: `weatherbenchX/metrics/categorical.py:Opportunism`
- Proof: Product of means in [0,1]; complement rule.
- Theorems (Props_Opportunism.v): `C61_product`, `C61_range`, `C61_split`, `C61_joint_refuted`
- Scope and limits: On top of the statistics of C60. Finding proved (C61_joint_refuted): documented as the fraction of forecasts with all the answers, it multiplies the separate fractions (1/4 where the joint fraction is 1/2).

### C62 The reliability curve is the observed frequency of the event among the predictions of each bin  (proved)

- Model: `weatherbenchX/metrics/categorical.py:Reliability`, `weatherbenchX/metrics/wrappers.py:ContinuousToBins`
- Proof: Weighted ratio of binned sums.
- Theorems (Props_Reliability.v): `C62_bin`, `C62_range`, `C62_errors`
- Scope and limits: Bin values as a list (rational labels with values); predictions without a mask conflict; statistics finite where counted, as in the weighted-mean theorems.

### C63 The Wasserstein distance is the least mean distance by which one ensemble can be moved onto the other  (proved)

- Model: `weatherbenchX/metrics/probabilistic.py:WassersteinDistance`
- Proof: Quantile coupling; Kantorovich duality on the line for finite samples.
- Theorems (Props_Wasserstein.v): `C63_matching`, `C63_dual`, `C63_metric`, `C63_simple`, `C63_missing`, `C63_defined`
- Scope and limits: scipy.stats.wasserstein_distance is modelled (sorting, differences, searchsorted, NaN sorted last). Infinite members are in the model but not in the theorems; the cast to the dtype of the predictions is not modelled.

### C64 Averaging over the members is the mean over the members, and equals reducing the ensemble dimension  (proved)

- Model: `weatherbenchX/metrics/probabilistic.py:EnsembleAveragedStatistic`, `weatherbenchX/metrics/probabilistic.py:EnsembleAveragedMetric`, `weatherbenchX/metrics/probabilistic.py:EnsembleErrorExceedance`
- Proof: Member mean as reduction; exchange with the aggregation sum.
- Theorems (Props_MemberMean.v): `C64_average`, `C64_defined`, `C64_exceedance`, `C64_pooled`, `C64_rmse`
- Scope and limits: The pooled theorems need the masks and weights not to depend on the member: a mask along the ensemble dimension is lost by the average.

### C65 The stationary bootstrap resamples whole units consistently, with the block length for each element  (proved)

- Model: `weatherbenchX/statistical_inference/bootstrap.py:StationaryBootstrap`, `weatherbenchX/statistical_inference/utils.py:logarithmic_round`
- Proof: Slice-wise evaluation (C54) + sums over drawn indices (C49), per element.
- Theorems (Props_Stationary.v, Props_Stationary3.v): `C65_rounding`, `C65_block_length`, `C65_given_or_error`, `C65_cache`, `C65_replicates`, `C65_finite`, `C65_pointwise_metrics`
- Scope and limits: arch.bootstrap.optimal_block_length is an arbitrary function to a real or nan; jax.linearize an arbitrary function (the claims hold whatever it returns); random numbers arbitrary within their ranges. Infinite values in the arch result, float rounding and label order of xr.combine_by_coords are not modelled. Missing values are dropped separately from statistics and weights: see C49_stationary_missing_refuted.

### C66 The unaggregated Beam pipeline writes every statistic at its place, whatever the order  (proved)

- Model: `weatherbenchX/beam_pipeline.py:define_unaggregated_pipeline`, `weatherbenchX/beam_pipeline.py:_get_template_dataset`, `weatherbenchX/beam_pipeline.py:ComputeAndFormatStatistics`
- Proof: Writes at disjoint positions commute; placement from chunk offsets (C03).
- Theorems (Props_Unaggregated.v, Props_Unaggregated2.v, Props_Unaggregated3.v): `C66_store`, `C66_written_once`, `C66_template`, `C66_declared_chunks`, `C66_errors`, `C66_interval`, `C66_name_clash_refuted`
- Scope and limits: Rechunk and ChunksToZarr are modelled as writes of every region at its positions, in any order; their checks against the template, other coordinates and the alignment of coordinates on dataset assignment are not modelled (the docstring requires compatible coordinates). The name clash and intervals of lead times are shown as they behave.

### C67 A loader reads and prepares its dataset once; names and values survive the preparation  (proved)

- Model: `weatherbenchX/data_loaders/xarray_loaders.py:XarrayDataLoader.maybe_prepare_dataset`, `weatherbenchX/data_loaders/xarray_loaders.py:_rename_dataset`, `weatherbenchX/data_loaders/xarray_loaders.py:XarrayDataLoader.load_chunk`, `weatherbenchX/data_loaders/latency_wrappers.py:XarrayConstantLatencyWrapper`
- Proof: Loader as a state machine; induction over histories of calls.
- Theorems (Props_Prepare.v, Props_Prepare2.v, Props_Prepare3.v): `C67_one_source`, `C67_zarr_by_name`, `C67_prepared_values`, `C67_prepared_once`, `C67_ecmwf_forecast`, `C67_ecmwf_analysis`, `C67_failed_preparation_hides_error`, `C67_retry_same_error`, `C67_failed_call_has_no_effect_refuted`, `C67_latency_history`
- Scope and limits: Every dimension is taken to have a coordinate; the labels of a sliced dimension to be increasing; variables is a list of data variables. The contents of files are an arbitrary function of the moment. The failed-preparation behaviour is shown as it is.

### C68 Rename, Select and StackToNewDimension move values without changing them  (proved)

- Model: `weatherbenchX/metrics/wrappers.py:Rename`, `weatherbenchX/metrics/wrappers.py:Select`, `weatherbenchX/metrics/wrappers.py:StackToNewDimension`
- Proof: Environment re-indexing for rename/select/stack.
- Theorems (Props_Select.v): `C68_rename`, `C68_rename_back`, `C68_select`, `C68_select_errors`, `C68_select_labels`, `C68_select_positions`, `C68_stack`, `C68_stack_errors`, `C68_stack_reduce`, `C68_stack_mean`
- Scope and limits: Every dimension is taken to have a coordinate (a stacked dimension is labelled by its positions, as the docstring says). sel_kwargs and isel_kwargs (method, tolerance, drop, missing_dims) are not modelled; sliced labels are increasing.

### C69 The aggregated Beam pipeline leaves complete output files with the directly evaluated metrics  (proved)

- Model: `weatherbenchX/beam_pipeline.py:define_pipeline`, `weatherbenchX/beam_pipeline.py:ComputeMetrics`, `weatherbenchX/beam_pipeline.py:WriteMetrics`, `weatherbenchX/beam_pipeline.py:WriteAggregationState`, `weatherbenchX/beam_utils.py:atomic_write`, `weatherbenchX/aggregation.py:AggregationState.metric_values`
- Proof: Product of the pipeline relation (C08), serialisation (C14) and atomic_write (C16); extensionality of metrics in array equality.
- Theorems (Props_BeamWrite.v): `C69_metric_values`, `C69_metrics_file`, `C69_state_file`, `C69_other_files`, `C69_nothing_aggregated`, `C69_branches_run`, `C69_dropped_statistic_refuted`, `C69_no_output_path`, `C69_library_metrics`
- Scope and limits: Builds on C08, C14 and C16. The netCDF encoder is any function such that a dataset it encodes is read back with the same variables in the same order and equal arrays; attributes are not modelled. Metrics must not look at the order of variables, dimensions or labels: proved for the library's deterministic, categorical, ensemble and spatial metrics and all wrappers (not for Opportunism, REV and BaselineComparison). Every statistic keeps a variable (C69_dropped_statistic_refuted shows why); the values must fit in one dataset (same labels per dimension, unambiguous names).

### C70 Combining result files keeps every value and invents none  (proved)

- Model: `public_benchmark/combine_results.py:process_results`, `public_benchmark/combine_results.py:main`, `public_benchmark/combine_results.py:_rename_region`, `public_benchmark/run_benchmark_evaluation.py:main`, `weatherbenchX/beam_pipeline.py:define_pipeline`
- Proof: Invariant over the fold of merges: the dataset realises exactly the values of the files done so far.
- Theorems (Props_Combine.v, Props_CombineErrors.v): `C70_values`, `C70_nothing_else`, `C70_hours`, `C70_succeeds`, `C70_one_file_each`, `C70_names_distinct`, `C70_benchmark_files`, `C70_dotted_name_refuted`, `C70_unknown_metric`
- Scope and limits: Files are an arbitrary map from name to dataset; a variable must have the same dimensions in all files it appears in. Non-dimension coordinates are dropped on opening; the order of labels after np.unique and outer joins is not observable in the statements; years are strings; zarr chunk sizes are not modelled. C70_dotted_name_refuted: an entry named k.v.w is dropped silently.

### C71 A benchmark run evaluates the documented times, data and metrics and writes the file that is read for them  (proved)

- Model: `public_benchmark/run_benchmark_evaluation.py:main`, `public_benchmark/public_configs.py:select_first_member`, `public_benchmark/public_configs.py:single_member_configs`, `weatherbenchX/data_loaders/xarray_loaders.py:ProbabilisticClimatologyFromXarray`
- Proof: Inversion of the run: each flag combination is one of finitely many shapes, over which the window and the lead times are closed forms; calendar arithmetic from C23; the public configurations are data, compared by computation inside the kernel.
- Theorems (Props_Benchmark.v, Props_Benchmark2.v, Props_Benchmark3.v): `C71_init_times`, `C71_valid_times`, `C71_own_window`, `C71_lead_times`, `C71_both_or_neither`, `C71_all_pairs`, `C71_chunk_sizes`, `C71_settings`, `C71_file`, `C71_variables`, `C71_distinct_files`, `C71_mode`, `C71_first_member`, `C71_first_member_errors`, `C71_single_members`, `C71_climatology_knows_the_past_only_refuted`, `C71_climatology_knows_the_past_only`, `C71_loader`, `C71_metrics`
- Scope and limits: The date strings built from a year are represented by the times they denote (four-digit years); np.datetime64 of an own window's strings and the lead times stored in a prediction file are parameters; the order of np.intersect1d is not modelled. The land-sea mask and the climatology are inputs (their handling is C23, C27). C71_climatology_knows_the_past_only_refuted: members are the years 1990-2019 whatever year is evaluated.

### C72 Scores over regions are area-weighted means over exactly the valid points of each region, from the loaders to the metrics file  (proved)

- Model: `weatherbenchX/aggregation.py:Aggregator`, `weatherbenchX/weighting.py:GridAreaWeighting`, `weatherbenchX/binning.py:Regions`, `weatherbenchX/metrics/deterministic.py:RMSE`, `weatherbenchX/beam_pipeline.py:define_pipeline`, `public_benchmark/run_benchmark_evaluation.py:REGIONS`
- Proof: The dot product over the joint points (C02, C38) with region masks (C34, C37) is rewritten into a sum over the points counted, selected and in the region; the weights are the cell areas up to a common positive factor, which cancels. C72_file composes this with the metrics file of the chunked pipeline (C69).
- Theorems (Props_EndToEnd.v): `C72_score`, `C72_statistic`, `C72_defined`, `C72_region_names`, `C72_belts`, `C72_belts_cover`, `C72_across_meridians`, `C72_boxes`, `C72_file`, `C72_benchmark`, `C72_benchmark_defined`
- Scope and limits: Exact real arithmetic; coordinates are numbers. Forecast and target of a variable are on the same grid (same labels along the same dimensions), as the loaders make them (C61); a mask, if any, is on the target over all its dimensions (add_nan_mask), and the values that enter are numbers.

### C73 The benchmark viewer draws, for every choice the menus offer, exactly the scores of the result files  (proved)

- Model: `public_benchmark/apps/dash_app.py:make_app`, `public_benchmark/apps/config.py:COLORS`, `public_benchmark/combine_results.py:main`
- Proof: A lemma for selection by one label, iterated over the five selections, reduces the page to values of the combined dataset, which C70 identifies with the files; the finite look-up tables are checked by computation inside the kernel.
- Theorems (Props_Viewer.v): `C73_curves`, `C73_relative`, `C73_better`, `C73_relative_bias_refuted`, `C73_alert`, `C73_seeps`, `C73_vs_analysis`, `C73_succeeds`, `C73_first_view`, `C73_keeps_visibility`, `C73_defaults_after_change_refuted`, `C73_defaults`, `C73_probabilistic_precipitation_refuted`, `C73_looks`, `C73_looks_refuted`, `C73_look_of_model`, `C73_axis`, `C73_unit_of_mse_refuted`, `C73_level_menu`, `C73_level_menu_refuted`, `C73_offered`
- Scope and limits: The callbacks of the page are modelled as functions of the menus' values and of the figure drawn before; layout and browser are not. Files as in C70, every array per region, lead time and possibly level. Exact real arithmetic.

### C74 The example evaluation script writes the scores of the stored forecasts against the stored targets, or leaves the old file  (proved)

- Model: `evaluation_scripts/run_example_evaluation.py:main`, `weatherbenchX/beam_pipeline.py:define_pipeline`, `weatherbenchX/data_loaders/xarray_loaders.py:PredictionsFromXarray`, `weatherbenchX/aggregation.py:Aggregator`, `weatherbenchX/binning.py:Regions`, `weatherbenchX/weighting.py:GridAreaWeighting`
- Proof: The loaders' answers for each chunk are computed in closed form and shown to be slices of the whole, which gives C69 and C72 their hypotheses; their conclusions are carried over to the stored arrays by translating points and regions.
- Theorems (Props_ExampleEvaluation.v): `C74_init_times`, `C74_lead_times`, `C74_times_distinct`, `C74_goes_ahead`, `C74_prepared`, `C74_level_numerals`, `C74_file`, `C74_completes`
- Scope and limits: np.datetime64 of the time strings is a parameter; int() knows a sign and decimal digits. The prepared datasets have no auxiliary coordinates, latitude and longitude among their dimensions, and finite values at the evaluated points; runner as in C69. Exact real arithmetic.

### C75 Select with a method finds the documented label, within the tolerance, and drops and ignores exactly what it is asked to  (proved)

- Model: `weatherbenchX/metrics/wrappers.py:Select`
- Proof: The first and last positions not past the label are characterised on strictly sorted axes in both directions; the nearer of the two is the nearest of all; the selection itself is C68's.
- Theorems (Props_SelectMethod.v): `C75_select`, `C75_label`, `C75_unique`, `C75_exact`, `C75_nearest_found`, `C75_refused`, `C75_drop`, `C75_missing`, `C75_defaults`, `C75_as_labels`, `C75_list_missing`
- Scope and limits: pandas' get_indexer and xarray's PandasIndex.sel are modelled for labels that are numbers or times; which of several failures is raised first is not modelled; a method on string labels is a TypeError in the model.

## 4. Trusted base

1. The Coq 8.16.1 kernel (no kernel check is switched off, no plugin, no native/VM axiom; `vm_compute` is part of the kernel).
2. The axioms listed by `Print Assumptions`, all from the standard library. No other library is used: the development imports only `Coq.*` and `Verif.*`. There is no `Axiom`, `Parameter`, section-less `Variable`/`Hypothesis`, `Admitted`, functor or module type.
3. The faithfulness of the model to the Python text (by inspection; each definition cites its lines) and to the libraries it calls (numpy, xarray, pandas, scipy, Beam, jax, arch), as stated in sections 1, 2 and 5.
4. The reading of the English properties as the theorem statements (`Spec_*.v`, `Props_*.v`).

### What Print Assumptions lists

- **A** = `ClassicalDedekindReals.sig_forall_dec`
- **B** = `ClassicalDedekindReals.sig_not_dec`
- **C** = `Classical_Prop.classic`
- **D** = `FunctionalExtensionality.functional_extensionality_dep`

**Closed under the global context** (168 theorems): `C01_chunks_partition_pairs`, `C01_default_is_single_chunk`, `C01_slice_chunks`, `C02_getitem_agrees_with_iteration`, `C02_len_is_number_of_chunks`, `C03_offsets_defined_for_arrays`, `C03_offsets_for_interval_refuted`, `C03_offsets_locate_chunks`, `C04_constructor_validation`, `C10_zero`, `C14_empty_statistic_refuted`, `C14_round_trip`, `C15_round_trip`, `C15_zero_state`, `C16_can_complete`, `C16_move_failure_leaves_tmp_refuted`, `C16_no_leftovers`, `C16_no_partial_content`, `C16_other_files_untouched`, `C16_return_installs`, `C16_returned_stays`, `C16_targets`, `C17_exceptions`, `C17_one_entry_per_name`, `C19_seeps`, `C19_wrapped`, `C19_wrapped_inner`, `C20_metric`, `C20_statistic`, `C20_statistic_raises`, `C21_composition`, `C21_identity`, `C21_leafwise`, `C21_missing_key_KeyError`, `C21_missing_key_fails`, `C21_no_structures`, `C21_shape`, `C21_shape_lists_refuted`, `C33_statistics`, `C33_subselect`, `C33_wrapped_statistic`, `C36_unit_value_unique`, `C39_all_or_nothing`, `C39_errors`, `C39_latest_available_run`, `C39_no_look_ahead`, `C39_same_valid_time`, `C39_served_from_latest_available_run`, `C40_every_loader_must_have_issued_a_run`, `C40_freshest_loader`, `C40_freshest_up_to_a_second`, `C40_queries_answered_once`, `C40_served_by_the_freshest_run`, `C41_persistence_at_init_time`, `C41_persistence_needs_lead_times`, `C41_predictions_all_or_nothing`, `C41_predictions_are_the_requested_part`, `C41_predictions_slice`, `C41_targets_at_valid_time`, `C41_targets_slice`, `C41_targets_without_lead_times`, `C42_climatology_of_the_valid_time`, `C42_climatology_slice`, `C42_climatology_without_lead_times`, `C42_members_are_years`, `C42_members_errors`, `C42_the_hour_in_another_year`, `C43_compute_irrelevant`, `C43_conflicting_masks_are_dropped`, `C43_first_error`, `C43_mask_of_values`, `C43_masked_targets_are_skipped`, `C43_stages_in_order`, `C44_complete`, `C44_constructor`, `C44_distinct`, `C44_files`, `C44_read`, `C44_unique`, `C47_multiple_in_order`, `C47_per_variable`, `C47_subsample`, `C48_combine`, `C48_default_baseline`, `C48_names`, `C48_zero_state`, `C49_cluster_names`, `C49_unit_check`, `C53_uniform_datetimes_refuted`, `C53_uniform_integers`, `C53_uniform_one_unit`, `C54_calls`, `C54_elementwise`, `C54_every_index_once`, `C54_local_function`, `C54_reassembled`, `C54_slice`, `C55_names`, `C55_unambiguous`, `C55_value`, `C66_declared_chunks`, `C66_errors`, `C66_interval`, `C66_store`, `C66_template`, `C66_written_once`, `C67_ecmwf_analysis`, `C67_ecmwf_forecast`, `C67_failed_preparation_hides_error`, `C67_latency_history`, `C67_one_source`, `C67_prepared_once`, `C67_prepared_values`, `C67_retry_same_error`, `C67_zarr_by_name`, `C68_select`, `C68_select_errors`, `C68_select_labels`, `C68_select_positions`, `C68_stack`, `C68_stack_errors`, `C70_benchmark_files`, `C70_dotted_name_refuted`, `C70_names_distinct`, `C70_one_file_each`, `C71_all_pairs`, `C71_both_or_neither`, `C71_chunk_sizes`, `C71_climatology_knows_the_past_only`, `C71_climatology_knows_the_past_only_refuted`, `C71_distinct_files`, `C71_file`, `C71_first_member`, `C71_first_member_errors`, `C71_init_times`, `C71_lead_times`, `C71_loader`, `C71_metrics`, `C71_mode`, `C71_own_window`, `C71_settings`, `C71_single_members`, `C71_valid_times`, `C71_variables`, `C72_region_names`, `C73_defaults`, `C73_level_menu`, `C73_level_menu_refuted`, `C73_looks`, `C73_looks_refuted`, `C73_probabilistic_precipitation_refuted`, `C73_unit_of_mse_refuted`, `C73_vs_analysis`, `C74_init_times`, `C74_lead_times`, `C74_level_numerals`, `C74_times_distinct`, `C75_as_labels`, `C75_defaults`, `C75_drop`, `C75_exact`, `C75_label`, `C75_list_missing`, `C75_missing`, `C75_nearest_found`, `C75_refused`, `C75_select`, `C75_unique`

**A** (17 theorems): `C05_outer_join`, `C06_only_zeros`, `C06_zero_neutral`, `C14_different_labels_refuted`, `C14_separator_in_name_refuted`, `C14_underscore_separator_refuted`, `C19_subselect_refuted`, `C33_shift`, `C48_difference`, `C49_stationary_missing_refuted`, `C49_stationary_sums`, `C66_name_clash_refuted`, `C67_failed_call_has_no_effect_refuted`, `C72_across_meridians`, `C72_belts`, `C72_belts_cover`, `C72_boxes`

**C** (2 theorems): `C59_aligned`, `C59_one_point`

**D** (6 theorems): `C41_targets_all_or_nothing`, `C42_climatology_all_or_nothing`, `C42_members_all_or_nothing`, `C68_rename`, `C68_rename_back`, `C68_stack_reduce`

**A + D** (280 theorems): `C05_no_new_NaN`, `C05_well_formed`, `C05_zero_filled`, `C06_leafwise_value`, `C06_mixed_dims_refuted`, `C06_order_and_bracketing`, `C07_any_two_schedules`, `C07_schedule_independent`, `C08_pipeline_equals_direct`, `C08_pipeline_with_chunk_dependent_bins`, `C09_elements`, `C09_keys_separate`, `C10_missing_dim_refuted`, `C10_two_stage`, `C11_between_bounds`, `C11_constant`, `C11_result_coords`, `C11_weight_scale`, `C11_weighted_mean`, `C12_NaN_surfaces`, `C12_masked_out_irrelevant`, `C12_skipna_ignores_NaN`, `C12_static_mask_refuted`, `C13_duplicate_bins`, `C13_kept_iff`, `C13_total`, `C18_alone`, `C18_failures`, `C18_own_means`, `C19_all_names`, `C19_all_together`, `C19_averaged_inner`, `C19_binary`, `C19_bins`, `C19_cdf`, `C19_climatology_refuted`, `C19_dimensions_refuted`, `C19_exceedance_refuted`, `C19_faithful`, `C19_faithful_together`, `C19_intervals_refuted`, `C19_names`, `C19_passthrough_refuted`, `C19_seeps_refuted`, `C19_sizes_refuted`, `C19_skipna_refuted`, `C19_together`, `C19_transforms_refuted`, `C19_use_sort_refuted`, `C19_wind_refuted`, `C23_same_sample`, `C24_means`, `C24_point`, `C25_ets`, `C25_f1`, `C25_hss`, `C25_nan_exactly`, `C25_precision_far`, `C25_unit_range`, `C25_values`, `C26_matrix`, `C26_missing`, `C26_missing_threshold_refuted`, `C26_overlap_refuted`, `C26_per_variable`, `C26_two_masks`, `C26_value`, `C27_errors`, `C27_single_member_refuted`, `C27_skipna`, `C27_sort_equals_pairwise`, `C27_value`, `C28_distance`, `C28_fair_distance_refuted`, `C28_fair_factor`, `C28_mask_on_observations_refuted`, `C28_metric`, `C28_missing_observation_refuted`, `C28_pointwise`, `C28_single_member`, `C29_no_ensemble`, `C29_unbiased`, `C29_unbiased_ensembles`, `C29_variance`, `C30_finite_rank`, `C30_missing_observation_refuted`, `C30_rank`, `C31_at_most_one`, `C31_constant`, `C31_constructor`, `C31_ensemble_thresholds`, `C31_finite`, `C31_optimal`, `C31_perfect`, `C31_value`, `C32_average`, `C32_fraction`, `C32_fss`, `C32_fss_mask_refuted`, `C32_mask`, `C32_mask_large_refuted`, `C32_mask_tolerance`, `C32_mask_transposed_refuted`, `C32_range`, `C32_rotation`, `C32_sizes`, `C32_threshold_monotone`, `C32_threshold_probability`, `C33_bin_names_refuted`, `C33_binary`, `C33_bins`, `C33_bins_partition`, `C33_cdf`, `C33_cdf_monotone`, `C33_constructors`, `C33_ensemble_mean`, `C33_metric`, `C33_monotonicity`, `C33_relu`, `C33_weibull`, `C34_bad_limits`, `C34_full_turns`, `C34_regions`, `C34_success`, `C35_coord_bins`, `C35_coord_bins_partition`, `C35_coord_bins_success`, `C35_exact_coord`, `C35_exact_coord_success`, `C35_latitude_bins`, `C35_longitude_bins`, `C35_sets`, `C35_sets_errors`, `C36_from_seconds`, `C36_from_seconds_no_wrap`, `C36_from_seconds_success`, `C36_time_unit`, `C36_time_unit_sets`, `C36_time_unit_success`, `C37_distinct_labels_refuted`, `C37_land_sea`, `C37_land_sea_success`, `C37_regions_land`, `C37_same_grid`, `C45_complete`, `C45_dropna`, `C45_dropna_split`, `C45_duplicates`, `C45_exact`, `C45_index`, `C45_metar`, `C45_metar_keeps_times`, `C45_no_leads`, `C45_rows`, `C45_slice`, `C45_slice_incompatible`, `C45_slice_refuted`, `C45_tolerance_end_refuted`, `C45_window`, `C46_continuous_at_limit_refuted`, `C46_empty_reference_refuted`, `C46_other_variables`, `C46_stations`, `C46_temperature_change`, `C46_unadjusted`, `C46_wind_factor`, `C47_clip_ascending`, `C47_clip_descending_refuted`, `C47_crop`, `C47_crop_exclusive_longitudes_refuted`, `C47_empty_reference`, `C47_exact_at_grid_points`, `C47_fixed_dims`, `C47_linear`, `C47_nearest`, `C47_pad_longitude`, `C47_to_reference`, `C47_within_bounds`, `C47_wrapped`, `C48_all_metrics`, `C48_all_metrics_total`, `C48_comparison`, `C49_cluster`, `C49_counts_are_draws`, `C49_iid`, `C49_missing_unit_refuted`, `C50_bootstrap_bad_alpha`, `C50_bootstrap_duality`, `C50_bootstrap_interval`, `C50_bootstrap_nested`, `C50_bootstrap_no_data`, `C50_bootstrap_p_range`, `C50_bootstrap_percentiles`, `C50_significance`, `C50_single_replicate_refuted`, `C50_t_duality`, `C50_t_interval`, `C50_t_large_alpha_refuted`, `C50_t_missing`, `C50_t_nested`, `C50_t_no_variation`, `C50_t_p_range`, `C51_blocks_consecutive`, `C51_errors`, `C51_indices`, `C51_unit_blocks_are_iid`, `C52_constant_weights`, `C52_quotient_rule_derivative`, `C52_quotient_rule_linear`, `C52_quotient_rule_shaped`, `C52_ratio`, `C52_tangents_sum_to_zero`, `C52_value_is_point_estimate`, `C53_lag1_autocorrelation`, `C56_exceedance`, `C56_intensity`, `C56_intensity_masked`, `C56_passthrough`, `C56_wind`, `C57_missing_refuted`, `C57_value`, `C58_biased`, `C58_errors`, `C58_fair`, `C58_fair_bounds`, `C58_fair_ensembles`, `C58_missing`, `C58_missing_refuted`, `C58_name_refuted`, `C59_leap_day_refuted`, `C60_covered`, `C60_covered_errors`, `C60_covered_missing_refuted`, `C60_covered_monotone`, `C60_covered_range`, `C60_errors`, `C61_product`, `C61_range`, `C61_split`, `C62_bin`, `C62_errors`, `C62_range`, `C63_defined`, `C63_dual`, `C63_matching`, `C63_metric`, `C63_missing`, `C63_simple`, `C64_average`, `C64_defined`, `C64_exceedance`, `C64_pooled`, `C65_cache`, `C68_stack_mean`, `C69_branches_run`, `C69_dropped_statistic_refuted`, `C69_metric_values`, `C69_metrics_file`, `C69_no_output_path`, `C69_nothing_aggregated`, `C69_other_files`, `C69_state_file`, `C70_hours`, `C70_nothing_else`, `C70_succeeds`, `C70_unknown_metric`, `C70_values`, `C73_alert`, `C73_axis`, `C73_better`, `C73_curves`, `C73_defaults_after_change_refuted`, `C73_first_view`, `C73_keeps_visibility`, `C73_look_of_model`, `C73_offered`, `C73_relative`, `C73_relative_bias_refuted`, `C73_seeps`, `C73_succeeds`

**A + B + D** (35 theorems): `C08_library_components`, `C08_library_data_bins`, `C22_inequalities`, `C22_nan`, `C22_swap`, `C22_values`, `C23_mask_on_targets_only_refuted`, `C23_range`, `C23_rescale`, `C38_cells`, `C38_errors`, `C38_no_latitude`, `C38_normalisation_irrelevant`, `C38_orientation`, `C38_weights`, `C38_whole_sphere`, `C52_classical_t_test`, `C53_geer`, `C53_geer_refuted`, `C53_geer_two_units`, `C53_iid`, `C53_inflation_agrees`, `C53_inflation_uncorrelated`, `C64_rmse`, `C65_pointwise_metrics`, `C72_benchmark`, `C72_benchmark_defined`, `C72_defined`, `C72_file`, `C72_score`, `C72_statistic`, `C74_completes`, `C74_file`, `C74_goes_ahead`, `C74_prepared`

**A + C + D** (10 theorems): `C59_anomalies`, `C59_defined`, `C59_errors`, `C59_no_times`, `C60_confident`, `C60_jaccard`, `C60_jaccard_extremes`, `C60_missing_refuted`, `C60_points_refuted`, `C61_joint_refuted`

**A + B + C + D** (13 theorems): `C25_sedi`, `C53_hac`, `C53_hac_dof`, `C53_hac_dof_clamped`, `C53_hac_dof_value`, `C53_hac_one_unit`, `C53_missing_dimension`, `C65_block_length`, `C65_finite`, `C65_given_or_error`, `C65_replicates`, `C65_rounding`, `C69_library_metrics`

## 5. What is modelled and what is not

Modelled: the functions and classes listed under "Model" in section 3; the table
in section 2 gives the files. Not modelled, for the whole development:

- floating-point rounding, overflow and dtypes; dask laziness (`compute` is the
  identity, C43 proves that it is irrelevant); attributes; logging, Beam metrics
  counters and printing; performance and memory.
- the libraries themselves: xarray, numpy, pandas, scipy, Beam, jax, arch, fsspec,
  netCDF and zarr are represented by the operations the code calls, with the
  semantics written in the model files (or by oracles with laws, section 1).

Per file, what remains outside the model:

- `aggregation.py`: nothing beyond the general list; `AggregationState` is the
  pair of nested dictionaries, `None` the zero state.
- `beam_pipeline.py`: the type hints, `beam.metrics` counters, logging, the
  zarr template's encoding (chunk shapes are modelled, compression is not);
  Rechunk and ChunksToZarr are writes of every region at its positions in any order.
- `beam_utils.py`: directories of paths are not tracked by the file system model.
- `binning.py`: coordinate values are never NaN/NaT; non-dimension coordinates of
  masks.
- `interpolations.py`: `xarray.interp` only for the methods linear and nearest.
- `metrics/probabilistic.py`: infinite ensemble members for quantiles.
- `metrics/wrappers.py`: Select with a method on labels that are not numbers or times.
- `data_loaders`: `sel(method=...)`, unsorted sliced labels, files other than as
  arbitrary maps from names to contents (which may change between calls, C67).
- `statistical_inference`: the numerical algorithms inside jax, scipy and arch;
  infinite bootstrap replicates.
- `public_benchmark`: chunk sizes of the written store; the notebooks; layout and styling of the web apps (their callbacks are modelled).
- Tests, `test_utils.py`, `scripts/` argument parsing and documentation.

## 6. Findings

Each `_refuted` theorem is a machine-checked counterexample to a documented or
natural claim; the notes in section 3 explain them one by one.

## 7. Testing the theorems against wrong programs

`seeded/LOG.jsonl` records every seeded bug: an edit of one model definition the
way a realistic bug would change the program, the claim it breaks, the theorems
that then fail to compile and the theorems that were tightened because they
survived. An edit that left every theorem provable was either shown to be
equivalent (the log says so) or led to a stronger theorem.

