{"id": "C01", "title": "Iterating TimeChunks covers every (init_time, lead_time) pair exactly once", "statement": "For any init_times/lead_times arrays and any accepted chunk sizes, list(TimeChunks(...)) is the ordered product of contiguous pieces; concatenating the init pieces (resp. lead pieces) gives back the whole input array, every piece is non-empty and no longer than the requested chunk size, all but the last are exactly that size, and every (init index, lead index) pair occurs in exactly one chunk. A size of None or 0 yields a single chunk.", "quantifier": "all init_times and lead_times arrays of any length, all chunk sizes (None, 0, positive)", "why_tests_cant": "Tests try a handful of (length, size) pairs; off-by-one errors at chunk edges only show for particular remainders.", "anchors": ["weatherbenchX/time_chunks.py:TimeChunks.__init__", "weatherbenchX/time_chunks.py:TimeChunks.__iter__"]}
{"id": "C02", "title": "TimeChunks random access and length agree with iteration", "statement": "len(times) is the number of chunks iterated; for every integer i, times[i] is the i-th chunk of the iteration when 0 <= i < len(times) and raises IndexError otherwise (also for negative i).", "quantifier": "all TimeChunks objects and all integer indices", "why_tests_cant": "Needs all index/size combinations.", "anchors": ["weatherbenchX/time_chunks.py:TimeChunks.__getitem__", "weatherbenchX/time_chunks.py:TimeChunks.__len__"]}
{"id": "C03", "title": "Chunk offsets locate each chunk inside the full arrays", "statement": "For lead_times arrays, iter_with_chunk_offsets yields the same chunks in the same order as iteration, and for every yielded (offsets, (init, lead)), init is the slice of the full init_times starting at offsets.init_time and lead is the slice of the full lead_times starting at offsets.lead_time; different chunks have different offsets. For lead_times given as a slice the documented call (lead_time_chunk_size=None) makes this method raise TypeError although plain iteration works.", "quantifier": "all TimeChunks objects, both array and slice lead times", "why_tests_cant": "The slice/None combination and arbitrary size combinations are not enumerable.", "anchors": ["weatherbenchX/time_chunks.py:TimeChunks.iter_with_chunk_offsets"]}
{"id": "C04", "title": "TimeChunks rejects exactly the malformed arguments", "statement": "Construction raises ValueError exactly for: a negative chunk size, a lead slice with a missing start/stop, a step, or a truthy lead chunk size, lead times that are neither an array nor a slice, and an empty time array with chunk size None or 0; in every other case it succeeds.", "quantifier": "all constructor arguments", "why_tests_cant": "An 'exactly when' claim ranges over all arguments.", "anchors": ["weatherbenchX/time_chunks.py:TimeChunks.__init__"]}
{"id": "C05", "title": "combining_sum is a zero-filled outer join", "statement": "combining_sum of arrays keeps every coordinate label of every input and, at each point of the joined coordinate box, equals the sum over the inputs of their value at that point, where an input that lacks one of the labels contributes exactly 0. In particular labels are never dropped and no NaN appears that was not in some input at that very point.", "quantifier": "all finite sequences of labelled arrays of any rank, including disagreeing coordinates, NaN and infinities", "why_tests_cant": "Overlap patterns of coordinates are unbounded.", "anchors": ["weatherbenchX/aggregation.py:combining_sum"]}
{"id": "C06", "title": "Summing aggregation states is order- and bracketing-independent with a neutral zero", "statement": "For aggregation states with the same tree structure and the same dimension names per leaf, AggregationState.sum gives the same state for any permutation and any nested bracketing of the inputs, and inserting AggregationState.zero() anywhere changes nothing; the sum of no states or only zero states is the zero state.", "quantifier": "all finite collections of aggregation states, all orders and bracketings", "why_tests_cant": "Bracketings grow exponentially; zero states can arrive anywhere in a distributed reduction.", "anchors": ["weatherbenchX/aggregation.py:AggregationState.sum", "weatherbenchX/aggregation.py:AggregationState.zero", "weatherbenchX/aggregation.py:AggregationState.__add__"]}
{"id": "C07", "title": "The Beam combiner gives the same sum for every execution schedule", "statement": "For any multiset of arrays with common dimension names under one key, every schedule of create_accumulator/add_input/merge_accumulators/extract_output calls that consumes each element once yields the same array as one combining_sum over all of them; merging only fresh accumulators yields None.", "quantifier": "all element multisets and all combine trees (including empty accumulators)", "why_tests_cant": "The runner chooses the schedule.", "anchors": ["weatherbenchX/beam_utils.py:CombiningSum", "weatherbenchX/beam_pipeline.py:define_pipeline"]}
{"id": "C08", "title": "The Beam pipeline computes the same aggregation state as evaluating everything in one go", "statement": "For every chunking of the init/lead times, every distribution schedule and every aggregator, the per-statistic per-variable sum_weighted_statistics and sum_weights obtained by chunked evaluation (statistics per chunk, per-chunk aggregation, keyed summation, concatenation along unreduced time dimensions, reconstruction) equal, at every label, the result of Aggregator.aggregate_statistics on the unchunked statistics, provided statistics, weights and bin masks of a chunk are the restriction of the full ones.", "quantifier": "all chunkings, all schedules, all choices of reduced dimensions, all statistics satisfying locality", "why_tests_cant": "Chunkings times schedules times reduce_dims is unbounded.", "anchors": ["weatherbenchX/beam_pipeline.py:define_pipeline", "weatherbenchX/beam_pipeline.py:ComputeStatisticsAggregateAndPrepareForCombine", "weatherbenchX/beam_pipeline.py:ConcatPerStatisticPerVariable", "weatherbenchX/beam_pipeline.py:reconstruct_aggregation_state"]}
{"id": "C09", "title": "Pipeline keys never mix different results", "statement": "An element produced for one (type, statistic, variable) never contributes to the result of another; chunks are summed together exactly when they agree on the offsets of all time dimensions that survive aggregation, and concatenated otherwise; every key of the final state stems from a produced element and no produced element is lost.", "quantifier": "all multisets of keyed chunk results and all grouping schedules", "why_tests_cant": "Unbounded multisets and schedules.", "anchors": ["weatherbenchX/beam_pipeline.py:_AggregationKey", "weatherbenchX/beam_pipeline.py:ConcatPerStatisticPerVariable", "weatherbenchX/beam_pipeline.py:reconstruct_aggregation_state"]}
{"id": "C10", "title": "Two-stage reduction equals one-stage reduction", "statement": "Aggregating with reduce_dims R1 and then calling sum_along_dims(R2) gives the same state as aggregating with reduce_dims R1 ∪ R2 in the first place, for any weights, bins, masks and skipna setting that do not depend on reduce_dims; sum_along_dims of the zero state is the zero state.", "quantifier": "all statistics, weights, bins, masks, disjoint R1 and R2", "why_tests_cant": "Holds for all shapes and values including NaN/inf.", "anchors": ["weatherbenchX/aggregation.py:AggregationState.sum_along_dims", "weatherbenchX/aggregation.py:Aggregator.aggregation_fn"]}
{"id": "C11", "title": "mean_statistics is the weighted mean over the selected points", "statement": "For finite statistics and non-negative weights with positive total, the mean statistic of each bin equals sum(w*x)/sum(w) over exactly the points selected by mask and bin, lies between the minimum and maximum of x on the selected points, equals c when x is constantly c there, and does not change when all weights are multiplied by a positive constant; if the total weight is 0 the mean is NaN.", "quantifier": "all finite statistics, weights, masks and bins", "why_tests_cant": "Numeric identity over all inputs.", "anchors": ["weatherbenchX/aggregation.py:AggregationState.mean_statistics", "weatherbenchX/aggregation.py:Aggregator.aggregate_stat_var"]}
{"id": "C12", "title": "Masked-out values never influence results; unmasked NaNs always surface", "statement": "With masked=True and a mask coordinate, changing the statistic arbitrarily (to NaN or inf too) at masked-out points changes nothing; with skipna=True NaN points contribute neither value nor weight; with both off, a NaN anywhere in the reduced region makes every bin's result NaN (even when the NaN lies outside the bin).", "quantifier": "all statistics, masks, weights, bins", "why_tests_cant": "All NaN placements.", "anchors": ["weatherbenchX/aggregation.py:Aggregator.aggregate_stat_var"]}
{"id": "C13", "title": "Aggregation drops exactly the variables it cannot reduce", "statement": "A variable is absent from the aggregated state iff its statistic is None, lacks one of reduce_dims, or some bin mask needs a dimension the statistic lacks; duplicate bin dimension names raise ValueError. Values and weights always have the same variables.", "quantifier": "all dictionaries of statistics and all aggregators", "why_tests_cant": "Exactly-when claim over all dimension sets.", "anchors": ["weatherbenchX/aggregation.py:Aggregator.aggregation_fn", "weatherbenchX/aggregation.py:Aggregator.aggregate_stat_vars", "weatherbenchX/aggregation.py:Aggregator.aggregate_statistics"]}
{"id": "C14", "title": "AggregationState survives the Dataset round trip", "statement": "from_dataset(to_dataset(state)) returns the state for every nested state whose names are non-empty and contain neither the separator nor '/', and whose sub-dictionaries are non-empty; names containing the separator, or statistics without variables, do not round-trip.", "quantifier": "all nested states, all names and separators", "why_tests_cant": "All strings.", "anchors": ["weatherbenchX/aggregation.py:AggregationState.to_dataset", "weatherbenchX/aggregation.py:AggregationState.from_dataset"]}
{"id": "C15", "title": "AggregationState survives the DataTree round trip", "statement": "from_data_tree(to_data_tree(state)) returns the same nested statistics and weights for every state whose dictionaries have the same keys for statistics and weights; the zero state raises TypeError.", "quantifier": "all nested states", "why_tests_cant": "Recursion over arbitrary depth.", "anchors": ["weatherbenchX/aggregation.py:AggregationState.to_data_tree", "weatherbenchX/aggregation.py:AggregationState.from_data_tree"]}
{"id": "C16", "title": "atomic_write never exposes a partial file", "statement": "Assuming an atomic move and unique temporary names, at every point of every interleaving of any number of concurrent atomic_write calls, with each writer crashing or failing at any point, a reader of the target path sees either the original content or the complete bytes of one writer; a writer that returns normally has installed its bytes; a writer whose write raises leaves no temporary file (one whose move raises does: the move is outside the cleaning-up block).", "quantifier": "all interleavings of any number of writers, all crash points, all file contents", "why_tests_cant": "Crash points and interleavings cannot be enumerated by tests.", "anchors": ["weatherbenchX/beam_utils.py:atomic_write"]}
{"id": "C17", "title": "Statistics are computed once per unique name", "statement": "compute_unique_statistics_for_all_metrics returns exactly one entry per distinct unique_name occurring in the metrics (in first-occurrence order), whose value is compute() of the last registered statistic with that name; any exception in compute surfaces as ValueError.", "quantifier": "all metric dictionaries and inputs", "why_tests_cant": "All collections of metrics.", "anchors": ["weatherbenchX/metrics/base.py:generate_unique_statistics_for_all_metrics", "weatherbenchX/metrics/base.py:compute_unique_statistics_for_all_metrics"]}
{"id": "C18", "title": "A metric's value does not depend on which other metrics are evaluated with it", "statement": "If statistics sharing a unique_name compute the same function, then the value of each metric in any dictionary of metrics equals its value when evaluated alone, and equals values_from_mean_statistics on its own statistics' means.", "quantifier": "all metric dictionaries, inputs and aggregators", "why_tests_cant": "All combinations of metrics.", "anchors": ["weatherbenchX/metrics/base.py:compute_metrics_from_statistics", "weatherbenchX/metrics/base.py:compute_metric_from_statistics", "weatherbenchX/aggregation.py:AggregationState.metric_values"]}
{"id": "C19", "title": "Distinct parametrisations of the shipped statistics get distinct unique names", "statement": "Over the catalogue of shipped statistics (constructor parameters, nested wrappers and transforms): two statistics have the same unique_name exactly when they are of the same class and agree on the parameters that class writes into its name; for the classes that write all of them, the same unique_name means the same statistic, also under wrappers. False, with a witness each, for statistics that differ only in climatology, exceedance threshold, skipna, use_sort, wind variable names, spatial dims, neighbourhood sizes, SEEPS parameters, transforms or subselected variables: they share a name, so one silently replaces the other.", "quantifier": "all parameter values of the shipped statistics", "why_tests_cant": "Parameter spaces are infinite.", "anchors": ["weatherbenchX/metrics/deterministic.py:ErrorExceedance", "weatherbenchX/metrics/probabilistic.py:CRPSSkill", "weatherbenchX/metrics/probabilistic.py:CRPSSpread", "weatherbenchX/metrics/categorical.py:SEEPSStatistic", "weatherbenchX/metrics/wrappers.py:InputTransform.unique_name"]}
{"id": "C20", "title": "Per-variable statistics and metrics cover exactly the common variables", "statement": "PerVariableStatistic.compute returns exactly the variables present in both predictions and targets whose per-variable result is not None; PerVariableMetric returns exactly the variables present in all of its statistics; each value depends only on that variable.", "quantifier": "all variable dictionaries", "why_tests_cant": "All key sets.", "anchors": ["weatherbenchX/metrics/base.py:PerVariableStatistic.compute", "weatherbenchX/metrics/base.py:PerVariableMetric.values_from_mean_statistics"]}
{"id": "C21", "title": "map_structure preserves structure and applies the function leafwise", "statement": "map_structure(f, t1..tn) has the tree shape of t1, each leaf is f of the leaves at the same path; keys of t1 missing in another tree raise KeyError and extra keys are ignored; mapping the identity is the identity and mapping composes.", "quantifier": "all nested structures of any depth, all functions", "why_tests_cant": "Arbitrary nesting.", "anchors": ["weatherbenchX/xarray_tree.py:map_structure"]}
{"id": "C22", "title": "Deterministic error metrics satisfy their defining inequalities", "statement": "For every weighted aggregation: MSE >= bias^2, RMSE >= MAE >= |bias|, RMSE = 0 iff all selected errors are 0, metrics are NaN if an input is NaN, and swapping predictions and targets negates bias and preserves MAE/MSE/RMSE.", "quantifier": "all predictions, targets, weights", "why_tests_cant": "Inequalities over all real inputs.", "anchors": ["weatherbenchX/metrics/deterministic.py:Error", "weatherbenchX/metrics/deterministic.py:AbsoluteError", "weatherbenchX/metrics/deterministic.py:SquaredError", "weatherbenchX/metrics/deterministic.py:RMSE", "weatherbenchX/metrics/deterministic.py:Bias", "weatherbenchX/metrics/deterministic.py:MAE"]}
{"id": "C23", "title": "ACC lies in [-1, 1]", "statement": "For every weighted aggregation with non-negative weights, whenever both anomaly variances are positive, ACC is in [-1,1], equals 1 for perfect forecasts, is invariant under positive rescaling of the forecast anomaly and changes sign with it.", "quantifier": "all predictions, targets, climatologies, weights", "why_tests_cant": "Cauchy-Schwarz over all inputs.", "anchors": ["weatherbenchX/metrics/deterministic.py:ACC", "weatherbenchX/metrics/deterministic.py:AnomalyCovariance", "weatherbenchX/metrics/deterministic.py:SquaredPredictionAnomaly", "weatherbenchX/metrics/deterministic.py:SquaredTargetAnomaly"]}
{"id": "C24", "title": "The contingency table partitions the sample", "statement": "For 0/1 predictions and targets exactly one of TP, TN, FP, FN is 1 at each point, so the four means add up to 1; a NaN in either input makes all four NaN.", "quantifier": "all inputs", "why_tests_cant": "All values and aggregations.", "anchors": ["weatherbenchX/metrics/categorical.py:TruePositives", "weatherbenchX/metrics/categorical.py:TrueNegatives", "weatherbenchX/metrics/categorical.py:FalsePositives", "weatherbenchX/metrics/categorical.py:FalseNegatives"]}
{"id": "C25", "title": "Categorical scores stay in range and agree with each other", "statement": "From any means of a contingency table: accuracy, CSI, recall, precision and FAR are in [0,1] (or NaN exactly when the denominator is 0), precision + FAR = 1, F1 is the harmonic mean of precision and recall, CSI <= F1, frequency bias = (TP+FP)/(TP+FN), ETS = HSS/(2-HSS), HSS and ETS vanish for independent forecasts and are 1 for perfect ones.", "quantifier": "all non-negative contingency means", "why_tests_cant": "Algebra over all real inputs.", "anchors": ["weatherbenchX/metrics/categorical.py:CSI", "weatherbenchX/metrics/categorical.py:Accuracy", "weatherbenchX/metrics/categorical.py:Recall", "weatherbenchX/metrics/categorical.py:FAR", "weatherbenchX/metrics/categorical.py:Precision", "weatherbenchX/metrics/categorical.py:F1Score", "weatherbenchX/metrics/categorical.py:FrequencyBias", "weatherbenchX/metrics/categorical.py:HSS", "weatherbenchX/metrics/categorical.py:ETS", "weatherbenchX/metrics/categorical.py:SEDI"]}
{"id": "C26", "title": "SEEPS is equitable and zero for correct categories", "statement": "For every dry fraction p1 in (0,1): a forecast in the observed category scores 0, every constant forecast has climatologically expected score 1 ... and the score is NaN if forecast or target is NaN or p1 is masked out; the three categories are exclusive and exhaustive when the wet threshold exceeds the dry threshold (and overlap, giving non-zero scores to perfect forecasts, otherwise).", "quantifier": "all precipitation values, thresholds, dry fractions", "why_tests_cant": "All reals.", "anchors": ["weatherbenchX/metrics/categorical.py:SEEPSStatistic"]}
{"id": "C27", "title": "Sort-based CRPS spread equals pairwise spread", "statement": "For every ensemble (ties included) the rank/sort-based implementation of CRPSSpread gives the same value as the pairwise mean absolute difference, for both fair and non-fair settings, and the value does not depend on the order of the members; fewer than two members raise ValueError.", "quantifier": "all ensembles of any size", "why_tests_cant": "All ensembles, sizes and ties.", "anchors": ["weatherbenchX/metrics/probabilistic.py:CRPSSpread", "weatherbenchX/metrics/probabilistic.py:_rank_ds"]}
{"id": "C28", "title": "CRPS of an ensemble is a proper non-negative quantity", "statement": "skill - spread/2 with fair=False is >= 0 for every ensemble and target and 0 when all members equal the target; it equals the integral of the squared CDF difference for finite ensembles; fair and non-fair spread differ exactly by the factor M/(M-1); CRPS of a single-member (non-fair) ensemble is the absolute error.", "quantifier": "all ensembles and targets", "why_tests_cant": "All ensembles.", "anchors": ["weatherbenchX/metrics/probabilistic.py:CRPSSkill", "weatherbenchX/metrics/probabilistic.py:CRPSSpread", "weatherbenchX/metrics/probabilistic.py:CRPSEnsemble"]}
{"id": "C29", "title": "The unbiased ensemble-mean MSE is the off-diagonal average", "statement": "EnsembleVariance is the ddof=1 variance (equal to half the mean squared pairwise difference over ordered distinct pairs) and UnbiasedEnsembleMeanSquaredError equals the average of (x_i-y)(x_j-y) over ordered pairs i != j; both are invariant under permutation of members.", "quantifier": "all ensembles of size >= 2 and targets", "why_tests_cant": "Identity over all sizes.", "anchors": ["weatherbenchX/metrics/probabilistic.py:EnsembleVariance", "weatherbenchX/metrics/probabilistic.py:UnbiasedEnsembleMeanSquaredError", "weatherbenchX/metrics/probabilistic.py:EnsembleMeanSquaredError"]}
{"id": "C30", "title": "The rank histogram assigns exactly one rank", "statement": "For every ensemble of M members and every target, the rank histogram statistic has M+1 entries, exactly one of which is 1 and the rest 0, at the index equal to the number of members below the target (ties broken as documented).", "quantifier": "all ensembles and targets", "why_tests_cant": "All values.", "anchors": ["weatherbenchX/metrics/probabilistic.py:RankHistogram"]}
{"id": "C31", "title": "Relative economic value is bounded by 1 and never below the climatological choice", "statement": "With thresholds including 0 and 1, REV <= 1 for every cost/loss ratio in (0,1), is >= 0 (the best constant action is among the options), and a perfect forecast attains 1.", "quantifier": "all contingency tables, cost/loss ratios", "why_tests_cant": "All reals.", "anchors": ["weatherbenchX/metrics/probabilistic.py:RelativeEconomicValue"]}
{"id": "C32", "title": "Neighbourhood averaging and FSS", "statement": "Averaging accepts exactly the odd positive sizes; the result at a point is the average over the square of grid points around it (going round in longitude if asked), NaN if one of them is, 0 where the square leaves the grid, and size 1 changes nothing; for 0/1 fields it is the fraction of ones; with wrap-around, rotating the field rotates the result; a mask stays true exactly where the whole square is valid. Without masks the FSS of non-negative fields lies in [0,1], is 1 exactly for equal fractions, 0 exactly when the fractions are never both non-zero, and NaN without any event. Neighbourhood threshold probabilities are the fraction of the square above the threshold and do not grow with the threshold. (Masks on one side make the FSS leave [0,1]; from size 317 an invalid point can go unnoticed; masks ordered (longitude, latitude) are transposed.)", "quantifier": "all grids, neighbourhood sizes, masks, thresholds", "why_tests_cant": "All sizes and fields.", "anchors": ["weatherbenchX/metrics/spatial.py:FSS", "weatherbenchX/metrics/spatial.py:convolve2d_wrap_longitude", "weatherbenchX/metrics/spatial.py:neighborhood_averaging", "weatherbenchX/interpolations.py:NeighborhoodThresholdProbabilities"]}
{"id": "C33", "title": "Input transforms compose in order and preserve NaN", "statement": "WrappedMetric applies its transforms in list order to the chosen side(s) only; thresholding yields 1 iff value > threshold, 0 otherwise and NaN for NaN; ContinuousToBins/CDF transforms are one-hot/monotone; statistics of a wrapped metric are those of the metric on the transformed inputs.", "quantifier": "all transform lists, inputs, thresholds", "why_tests_cant": "All lists.", "anchors": ["weatherbenchX/metrics/wrappers.py:WrappedStatistic", "weatherbenchX/metrics/wrappers.py:WrappedMetric", "weatherbenchX/metrics/wrappers.py:ContinuousToBinary", "weatherbenchX/metrics/wrappers.py:ContinuousToBins", "weatherbenchX/metrics/wrappers.py:binarize_thresholds"]}
{"id": "C34", "title": "Regions contain exactly the points in their limits, modulo 360 degrees", "statement": "A latitude/longitude region mask is true exactly at points whose latitude is in the closed interval and whose longitude, modulo 360, lies in the closed arc travelled eastwards from the first to the second limit; adding multiples of 360 to limits or to the data changes nothing; reversed or empty latitude limits raise ValueError.", "quantifier": "all limits and all coordinates", "why_tests_cant": "All reals, wrap-around cases.", "anchors": ["weatherbenchX/binning.py:_region_to_mask", "weatherbenchX/binning.py:_create_lon_mask", "weatherbenchX/binning.py:_create_lat_mask"]}
{"id": "C35", "title": "Binning by intervals, values or sets partitions the data", "statement": "ByCoordBins puts every coordinate in [first edge, last edge) in exactly one bin and others in none; ByExactCoord puts each coordinate into exactly the bin with its value; BySets masks are membership; the optional global bin is true everywhere. LatitudeBins/LongitudeBins count shared edges twice.", "quantifier": "all edges and coordinate values", "why_tests_cant": "All edges.", "anchors": ["weatherbenchX/binning.py:ByCoordBins", "weatherbenchX/binning.py:ByExactCoord", "weatherbenchX/binning.py:BySets", "weatherbenchX/binning.py:LatitudeBins", "weatherbenchX/binning.py:LongitudeBins", "weatherbenchX/binning.py:vectorized_coord_mask"]}
{"id": "C36", "title": "Time-unit bins put each time in exactly one bin", "statement": "ByTimeUnit assigns each time stamp / time delta to exactly the bin of its unit value (floor division for time deltas, also negative ones).", "quantifier": "all times and units", "why_tests_cant": "All times.", "anchors": ["weatherbenchX/binning.py:ByTimeUnit", "weatherbenchX/binning.py:ByTimeUnitFromSeconds"]}
{"id": "C37", "title": "Land/sea and regional bins combine as documented", "statement": "LandSea produces land and sea masks that partition every point (NaN land fraction counts as sea), optionally a global bin; Regions with land_sea_mask adds for each region a '_land' bin equal to the region intersected with land.", "quantifier": "all land-sea masks, regions", "why_tests_cant": "All masks.", "anchors": ["weatherbenchX/binning.py:LandSea", "weatherbenchX/binning.py:Regions"]}
{"id": "C38", "title": "Grid-area weights are positive, sum correctly and ignore orientation", "statement": "For strictly monotonic latitudes in [-90,90] the weights are positive, sum to (number of points if normalised) the difference of sines at the outer bounds, are reversed when the latitudes are reversed, have mean 1 when normalised; data without a latitude gets weight 1; non-monotonic latitudes raise.", "quantifier": "all latitude grids of any size", "why_tests_cant": "All grids.", "anchors": ["weatherbenchX/weighting.py:GridAreaWeighting", "weatherbenchX/weighting.py:_latitude_cell_bounds", "weatherbenchX/weighting.py:_cell_area_from_latitude"]}
{"id": "C39", "title": "Latency wrappers never use data that is not yet available", "statement": "ConstantLatencyWrapper serves each query init time from the latest nominal init time whose nominal time plus latency does not exceed the query time, shifts the lead time so that valid time is preserved, and returns coordinates equal to the query; if no nominal time qualifies it raises.", "quantifier": "all nominal init times, latencies, query times and lead times", "why_tests_cant": "All combinations of times.", "anchors": ["weatherbenchX/data_loaders/latency_wrappers.py:ConstantLatencyWrapper"]}
{"id": "C40", "title": "Multiple latencies choose the freshest available run", "statement": "MultipleConstantLatencyWrapper serves each query from a data loader whose available init time is latest among all loaders, and combines the answers without losing or duplicating query times.", "quantifier": "all sets of wrappers and query times", "why_tests_cant": "All sets.", "anchors": ["weatherbenchX/data_loaders/latency_wrappers.py:MultipleConstantLatencyWrapper"]}
{"id": "C41", "title": "Targets are read at valid time = init + lead; persistence at init", "statement": "TargetsFromXarray returns at (init, lead) the value of the source at init+lead; PersistenceFromXarray the value at init independent of lead; slices of lead times raise ValueError.", "quantifier": "all sources, init and lead times", "why_tests_cant": "All times.", "anchors": ["weatherbenchX/data_loaders/xarray_loaders.py:TargetsFromXarray", "weatherbenchX/data_loaders/xarray_loaders.py:PersistenceFromXarray"]}
{"id": "C42", "title": "Climatology lookup matches calendar day and hour", "statement": "ClimatologyFromXarray returns at (init, lead) the climatology at the day of year and hour of init+lead; ProbabilisticClimatologyFromXarray's member for year y is the source at the same day of year and hour in year y (day 366 falls over to the next January 1 in non-leap years).", "quantifier": "all dates incl. leap years", "why_tests_cant": "All dates.", "anchors": ["weatherbenchX/data_loaders/xarray_loaders.py:ClimatologyFromXarray", "weatherbenchX/data_loaders/xarray_loaders.py:ProbabilisticClimatologyFromXarray"]}
{"id": "C43", "title": "load_chunk applies its stages in a fixed order and masks are computed last", "statement": "DataLoader.load_chunk loads, then interpolates, computes, then adds the NaN mask; with add_nan_mask the mask is true exactly at non-NaN points and the values are unchanged.", "quantifier": "all loaders, chunks", "why_tests_cant": "All data.", "anchors": ["weatherbenchX/data_loaders/base.py:DataLoader.load_chunk", "weatherbenchX/data_loaders/base.py:add_nan_mask_to_data"]}
{"id": "C44", "title": "Sparse files: exactly the partitions that can hold a requested observation are read", "statement": "get_parquet_files_subset returns, once each, exactly the files of the months (days, hours) that meet the time interval; two times share a file name exactly if they share the partition. SparseObservationsFromParquet reads from them exactly the rows whose time is asked for, and loses no observation whose file is within file_tolerance of its time. The constructor accepts exactly the three partition units, non-empty tolerances and duplicate removal with an observation dimension.", "quantifier": "all intervals, dates, partition units, paths, file contents", "why_tests_cant": "All dates and files.", "anchors": ["weatherbenchX/data_loaders/sparse_parquet.py:SparseObservationsFromParquet", "weatherbenchX/data_loaders/sparse_parquet.py:get_parquet_files_subset", "weatherbenchX/data_loaders/sparse_parquet.py:parquet_filename_for_time"]}
{"id": "C45", "title": "Sparse observations are matched to the right init/lead times", "statement": "For exact lead times every returned observation carries a requested init and lead time, its own time as valid_time, and this is within the tolerance of init + lead (equal to it without tolerance); every observation so placed is returned; the index counts the rows; dropna removes exactly the rows with missing data variables (per variable if split). Duplicates keep one closest observation per station. For slices lead_time = valid_time - init_time (findings: the start of the slice is subtracted, so returned lead times can lie outside the slice; the end of a tolerance interval is excluded although documented as included). METAR: bad-quality values become missing, longitudes are in [0, 360), unknown elevations missing, everything else unchanged.", "quantifier": "all observation files, init times, lead times, configurations", "why_tests_cant": "All tables.", "anchors": ["weatherbenchX/data_loaders/sparse_parquet.py:SparseObservationsFromParquet", "weatherbenchX/data_loaders/sparse_parquet.py:METARFromParquet", "weatherbenchX/data_loaders/sparse_parquet.py:set_bad_quality_to_nan"]}
{"id": "C46", "title": "Altitude adjustment follows the station's height above the interpolated grid height", "statement": "GridToSparseWithAltitudeAdjustment changes 2m_temperature by -6.5 K per km and multiplies 10m_wind_speed by a factor that is continuous, monotone, 1 up to 100 m and 3 from 1100 m, of the difference between the station's elevation and the grid elevation interpolated to the station in the same way; differences not below the cutoff, and unknown ones, count as 0; other variables are only interpolated. (The adjustment jumps at the cutoff; a reference without stations makes it fail.)", "quantifier": "all altitudes, grids, stations, cutoffs", "why_tests_cant": "All reals.", "anchors": ["weatherbenchX/interpolations.py:GridToSparseWithAltitudeAdjustment", "weatherbenchX/interpolations.py:_wind_adjustment_factor"]}
{"id": "C47", "title": "Interpolation is exact at grid points, stays within the data and loses no points", "statement": "Each variable is interpolated with the reference of the same name; MultipleInterpolation composes in order; longitude padding keeps coordinates strictly increasing and values periodic, so positions across the date line are interpolated between the last and first longitude; linear interpolation lies on the line between the enclosing grid points, is exact at grid points and stays within the range of the data for any number of dimensions; nearest takes the nearest grid point; outside the grid the result is NaN unless extrapolating; CropToBox keeps exactly the points in the box; Subsample keeps every k-th point; the result of interpolating to a reference has the reference's dimensions.", "quantifier": "all grids, coordinates, references, lists of interpolations", "why_tests_cant": "All grids.", "anchors": ["weatherbenchX/interpolations.py:InterpolateToReferenceCoords", "weatherbenchX/interpolations.py:InterpolateToFixedCoords", "weatherbenchX/interpolations.py:MultipleInterpolation", "weatherbenchX/interpolations.py:pad_longitude", "weatherbenchX/interpolations.py:CropToBox", "weatherbenchX/interpolations.py:Subsample"]}
{"id": "C48", "title": "Baseline comparison evaluates both systems and compares exactly their metrics", "statement": "combine() of main and baseline states followed by the comparison metric gives comparison(metric(main), metric(baseline)) for every metric; names of the two systems never collide.", "quantifier": "all metrics and states", "why_tests_cant": "All metrics and names.", "anchors": ["weatherbenchX/statistical_inference/baseline_comparison.py"]}
{"id": "C49", "title": "Bootstrap resampling by counts equals resampling by indices", "statement": "For IID and cluster bootstrap, every resampled metric value is the metric of the state in which statistics and weights of all variables are summed over the same explicitly drawn units (clusters: every drawn cluster contributes all its units); count rows are exactly the tallies of n draws with replacement; the units must have the same labels in all statistics, otherwise ValueError. Missing values are not treated consistently (a missing undrawn unit spoils every replicate).", "quantifier": "all samples, index draws", "why_tests_cant": "All draws.", "anchors": ["weatherbenchX/statistical_inference/bootstrap.py"]}
{"id": "C50", "title": "Confidence intervals and p-values are coherent", "statement": "Bootstrap and t-test intervals have lower <= upper, p-values are in [0,1], smaller alpha gives wider intervals, and a value is significant at alpha iff it lies outside the 1-alpha interval.", "quantifier": "all samples and alphas", "why_tests_cant": "All reals.", "anchors": ["weatherbenchX/statistical_inference/base.py", "weatherbenchX/statistical_inference/bootstrap.py", "weatherbenchX/statistical_inference/t_test.py"]}
{"id": "C51", "title": "Stationary bootstrap indices are valid and consecutive within blocks", "statement": "Every index produced is in range; each index is either a fresh block start or the successor (mod n) of its predecessor; with mean block length 1 it degenerates to IID.", "quantifier": "all random draws, lengths", "why_tests_cant": "All draws.", "anchors": ["weatherbenchX/statistical_inference/bootstrap.py"]}
{"id": "C52", "title": "Linearised per-unit values have the metric's mean and zero-mean deviations", "statement": "The value returned with the per-unit linearisation is the point estimate (the metric of the state summed over units); the per-unit values sum to zero over the units for every metric; for a ratio of means they equal (ws_i - m w_i)/mean(w); with constant weights they are the plain deviations ws_i/w - mean, so the IID test is then the classical one-sample t-test.", "quantifier": "all samples and weights", "why_tests_cant": "All reals.", "anchors": ["weatherbenchX/statistical_inference/autodiff.py", "weatherbenchX/statistical_inference/t_test.py"]}
{"id": "C53", "title": "t-test corrections are well-defined", "statement": "The standard error of the classic test is sqrt(variance/n) with n-1 degrees of freedom; the AR(2) correction multiplies it by the inflation factor, which is a number exactly when the estimated autocorrelations are those of a stationary AR(2) process (NaN otherwise), equals the factor computed from the AR coefficients and is 1 for uncorrelated data; the degrees of freedom of the HAC test are within [1, n-1], its standard error comes from the lowest frequencies and equals the classic one when all frequencies are used; non-uniform integer time steps raise ValueError.", "quantifier": "all sample sizes and autocorrelations", "why_tests_cant": "All values.", "anchors": ["weatherbenchX/statistical_inference/t_test.py"]}
{"id": "C54", "title": "Applying a function to slices covers every index once", "statement": "apply_to_slices calls the function exactly once per index combination of the slice dimensions and reassembles results at the same labels; for functions that compute slice by slice the result is that of the whole array; unknown dimensions and inconsistent sizes raise ValueError.", "quantifier": "all shapes", "why_tests_cant": "All shapes.", "anchors": ["weatherbenchX/statistical_inference/utils.py"]}
{"id": "C55", "title": "Metric values dataset has exactly one entry per metric and variable", "statement": "metric_values writes the entry '<metric>.<variable>' for every metric and variable; entries collide only when names contain dots ambiguously; the value under an unambiguous name is the metric's value, provided all metric values agree on the labels of shared dimensions (otherwise later metrics silently lose labels and become NaN).", "quantifier": "all metric and variable names", "why_tests_cant": "All strings.", "anchors": ["weatherbenchX/aggregation.py:AggregationState.metric_values"]}
{"id": "C56", "title": "Other deterministic statistics mean what their names say", "statement": "ErrorExceedance is 1 iff |prediction - target| exceeds the threshold, 0 otherwise and NaN for NaN; WindVectorSquaredError is (u-u')^2+(v-v')^2 per named pair of components (lists of different lengths raise ValueError); RelativeIntensity is |(mean prediction+eps)/(mean target+eps) - 1| over the unmasked points of the spatial dimensions; the passthrough statistics return their side's values, with copy_nans NaN where the other side is NaN.", "quantifier": "all inputs, thresholds and masks", "why_tests_cant": "All values and shapes.", "anchors": ["weatherbenchX/metrics/deterministic.py:ErrorExceedance", "weatherbenchX/metrics/deterministic.py:WindVectorSquaredError", "weatherbenchX/metrics/deterministic.py:RelativeIntensity", "weatherbenchX/metrics/deterministic.py:PredictionPassthrough", "weatherbenchX/metrics/deterministic.py:TargetPassthrough"]}
{"id": "C57", "title": "The ranked probability score is the summed squared CDF difference", "statement": "For finite CDFs on the same bins the score is the sum over bins of squared CDF differences: non-negative, and 0 iff the CDFs agree. Missing CDF values are summed as zeros (an all-NaN forecast scores 0).", "quantifier": "all CDFs and bins", "why_tests_cant": "All values and sizes.", "anchors": ["weatherbenchX/metrics/deterministic.py:RankedProbabilityScore"]}
{"id": "C58", "title": "The ensemble RPS is the (unbiased) summed squared difference of the empirical CDFs", "statement": "EnsembleRankedProbabilityScore sums over the bins the squared difference between the fraction of members at or below (below, with right_inclusive=False) the prediction threshold and the same for the observation and its threshold; the fair variant subtracts F(1-F)/(M-1) per bin (and the analogous term for an ensemble of observations), equals the mean over distinct member pairs of the products of their CDF errors, lies between 0 and the biased score; the biased score lies between 0 and the number of bins and is 0 iff the CDFs agree on all bins. Missing members or observations give NaN, except that skipna_ensemble gives them the perfect score 0. Variables without thresholds raise KeyError, non-increasing thresholds ValueError; two scores with one unique_name can differ.", "quantifier": "all ensembles, thresholds (per variable, per time), bins, member counts", "why_tests_cant": "All values and sizes.", "anchors": ["weatherbenchX/metrics/probabilistic.py:EnsembleRankedProbabilityScore", "weatherbenchX/metrics/wrappers.py:ContinuousToCDF"]}
{"id": "C59", "title": "Climatology-based statistics read the climatology at the forecast's valid time", "statement": "SquaredPredictionAnomaly, SquaredTargetAnomaly and AnomalyCovariance use, at every point, the climatology value whose time labels are those of the forecast's valid time (its valid_time coordinate, or init_time + lead_time): the time itself if the climatology has a time dimension, otherwise the day of year and, if present, the hour. They are computed exactly when every variable has a climatology, times, and a climatology entry for each of its times; otherwise KeyError (no entry) or ValueError (no times). In particular a 365-day climatology fails on 31 December of leap years.", "quantifier": "all climatologies, times and forecasts", "why_tests_cant": "All times and shapes.", "anchors": ["weatherbenchX/metrics/base.py:PerVariableStatisticWithClimatology", "weatherbenchX/metrics/deterministic.py:SquaredPredictionAnomaly", "weatherbenchX/metrics/deterministic.py:SquaredTargetAnomaly", "weatherbenchX/metrics/deterministic.py:AnomalyCovariance"]}
{"id": "C60", "title": "Prediction-interval statistics compare the ensemble's quantile interval as documented", "statement": "Covered is 1 iff the observation lies between the two (linearly interpolated) quantiles of the available members; widening the levels never uncovers; levels 0 and 1 give the ensemble's range. Confident is 1 iff the interval is shorter than threshold times the climatological one; JaccardDistant is 1 iff one minus the ratio of the lengths of intersection and union exceeds the threshold. Missing data count as 0 (not covered, not confident, not distant). Levels outside [0,1] or a missing ensemble dimension raise ValueError, levels absent from the climatology KeyError.", "quantifier": "all ensembles, levels, thresholds and climatologies", "why_tests_cant": "All values and sizes.", "anchors": ["weatherbenchX/metrics/categorical.py:Confident", "weatherbenchX/metrics/categorical.py:Covered", "weatherbenchX/metrics/categorical.py:JaccardDistant"]}
{"id": "C61", "title": "Opportunism multiplies the shares it asks about", "statement": "At each output point Opportunism is the product of the share of forecasts that are confident (or not), covered (or not) and Jaccard-distant (or not), a question that is not asked contributing the factor 1. It lies between 0 and each factor, and the variants with the yes and the no answer to a question add up to the metric without that question. It is therefore the joint share only when the answers are independent.", "quantifier": "all forecasts, targets, climatologies, levels, thresholds, aggregators and question combinations", "why_tests_cant": "All inputs, levels and combinations of questions.", "anchors": ["weatherbenchX/metrics/categorical.py:Opportunism"]}
{"id": "C62", "title": "The reliability curve is the observed frequency of the event among the predictions of each bin", "statement": "For every pair of consecutive bin edges lo < hi, Reliability is the total weight of the aggregated points predicted in (lo, hi] at which the event was observed, divided by the total weight of the aggregated points predicted in (lo, hi]; it is NaN exactly if that weight is zero and otherwise lies in [0, 1]. Bin edges that do not increase raise ValueError.", "quantifier": "all predictions, events, bin edges, weights, bins and masks", "why_tests_cant": "All sizes, weights and edges.", "anchors": ["weatherbenchX/metrics/categorical.py:Reliability", "weatherbenchX/metrics/wrappers.py:ContinuousToBins"]}
{"id": "C63", "title": "The Wasserstein distance is the least mean distance by which one ensemble can be moved onto the other", "statement": "For ensembles of finite members, the distance at each point is the smallest mean absolute difference over all matchings of the (equally split) members, equally the largest difference of means over all 1-Lipschitz functions. It is a metric on distributions (zero exactly if the ensembles have the same distribution, symmetric, triangle inequality), at least the difference of the means, |c| under a shift by c, and the mean absolute error against a single target. A missing member makes it missing; it is computed exactly if both have the ensemble dimension and equal labels on shared dimensions, else ValueError.", "quantifier": "all ensembles, possibly of different sizes, with ties, and all other dimensions", "why_tests_cant": "All sizes and values.", "anchors": ["weatherbenchX/metrics/probabilistic.py:WassersteinDistance"]}
{"id": "C64", "title": "Averaging over the members is the mean over the members, and equals reducing the ensemble dimension", "statement": "EnsembleAveragedStatistic is the wrapped statistic without the ensemble dimension: the mean over the members, missing if any is missing (skipna_ensemble=False) or over the available members (True); a variable without the ensemble dimension raises ValueError. If nothing is missing and weights, bins and masks do not depend on the member, the averaged metric equals the metric with an aggregator that also reduces the ensemble dimension (RMSE, and any metric of one statistic). EnsembleErrorExceedance is the share of available members whose absolute error exceeds the threshold.", "quantifier": "all statistics, ensembles, weights, bins and aggregators", "why_tests_cant": "All sizes and NaN patterns.", "anchors": ["weatherbenchX/metrics/probabilistic.py:EnsembleAveragedStatistic", "weatherbenchX/metrics/probabilistic.py:EnsembleAveragedMetric", "weatherbenchX/metrics/probabilistic.py:EnsembleErrorExceedance"]}
{"id": "C65", "title": "The stationary bootstrap resamples whole units consistently, with the block length for each element", "statement": "StationaryBootstrap's point estimates are the metrics of the sums over all units. Every element of every replicate of a metric that is computed point by point (any statistic as a metric, RMSE, CSI, spread-skill ratio, ...) is the metric of ratios of sums over drawn units: the same units for values and weights of all its statistics, as many as there are units, drawn by one run of the index generator for this number of units and this block length; if each unit is drawn once, the replicate is the point estimate. The block length is the given one or, per element, the larger of 1 and what arch suggests for the series of linearized per-unit values (1 for nan; fewer than 8 units: ValueError), rounded logarithmically: off by at most half a step, monotone, idempotent, never below 1. The cache never returns indices drawn for other parameters, keeps at most its size, and with enough room equal requests get equal indices.", "quantifier": "all tables of statistics, metrics computed point by point, draws, block lengths, request sequences and cache sizes", "why_tests_cant": "All data, draws and request histories.", "anchors": ["weatherbenchX/statistical_inference/bootstrap.py:StationaryBootstrap", "weatherbenchX/statistical_inference/utils.py:logarithmic_round"]}
{"id": "C66", "title": "The unaggregated Beam pipeline writes every statistic at its place, whatever the order", "statement": "When the loaders and metrics act chunk by chunk, the store written by define_unaggregated_pipeline holds, for every variable of every statistic and every position, the value of the statistic of all times at that position, under the name statistic.variable, whatever the order in which chunks are written; nothing else is written. Positions of variables with both time dimensions are written exactly once. The template has exactly these variables with their dimensions (init_time and lead_time first) and all labels, and valid_time = init_time + lead_time if both are dimensions. Every emitted region starts at a multiple of the declared chunk size and fits it. No times: ValueError; a mask coordinate: ValueError. An interval of lead times: TypeError. If two statistics and variables share a name, the store depends on the order.", "quantifier": "all init and lead times, chunk sizes, loaders, metrics, dimensions and orders of writing", "why_tests_cant": "All schedules, chunkings and data.", "anchors": ["weatherbenchX/beam_pipeline.py:define_unaggregated_pipeline", "weatherbenchX/beam_pipeline.py:_get_template_dataset", "weatherbenchX/beam_pipeline.py:ComputeAndFormatStatistics"]}
{"id": "C67", "title": "A loader reads and prepares its dataset once; names and values survive the preparation", "statement": "A loader takes exactly one of a path and a dataset (else ValueError) and opens as zarr exactly the paths ending in .zarr, slashes aside. Over any history of load_chunk calls, with files changing in between, calls raise the reading error until the source can be read, and from then on are all answered from the one prepared dataset. That dataset has the variables asked for (all by default), each with the values it had under its old names, at the labels asked for; with the defaults, a forecast file's value at init time t and lead time l is the one at time t and prediction_timedelta l, and a target is the analysis at time t + l. The same holds for histories mixing a latency wrapper, the loader it wraps and queries of available times. A preparation that fails after renaming raises KeyError once and ValueError ever after; without renaming and preprocessing it raises the same error every time; with preprocessing a retry may succeed with data preprocessed twice.", "quantifier": "all datasets, options, files and histories of calls", "why_tests_cant": "All histories of calls and all changes of the files between them.", "anchors": ["weatherbenchX/data_loaders/xarray_loaders.py:XarrayDataLoader.maybe_prepare_dataset", "weatherbenchX/data_loaders/xarray_loaders.py:_rename_dataset", "weatherbenchX/data_loaders/xarray_loaders.py:XarrayDataLoader.load_chunk", "weatherbenchX/data_loaders/latency_wrappers.py:XarrayConstantLatencyWrapper"]}
{"id": "C68", "title": "Rename, Select and StackToNewDimension move values without changing them", "statement": "Rename keeps every value under the new names, fails (ValueError) exactly if a name is missing or two names become one, and is undone by the inverse renaming. Select first takes the labels of sel, then the positions of isel counted in what is left (negative ones from the end, slices cut to the positions that exist); every value of the result is the value of the input at those labels; missing labels or dimensions raise KeyError (sel), missing dimensions ValueError and missing positions IndexError (isel). StackToNewDimension replaces the listed dimensions by one labelled 0, 1, ..., whose positions are the combinations of their labels in row-major order, each exactly once, also under the name of a stacked dimension; so any order-independent reduction (the ensemble mean) over the new dimension is that reduction over all stacked dimensions.", "quantifier": "all arrays, name dictionaries, selections, dimension lists and order-independent reductions", "why_tests_cant": "All shapes, label sets, positions and reductions.", "anchors": ["weatherbenchX/metrics/wrappers.py:Rename", "weatherbenchX/metrics/wrappers.py:Select", "weatherbenchX/metrics/wrappers.py:StackToNewDimension"]}
{"id": "C69", "title": "The aggregated Beam pipeline leaves complete output files with the directly evaluated metrics", "statement": "At every moment of every execution of the pipeline defined by define_pipeline (any runner schedule, writing steps repeated, concurrent, failing or crashing anywhere) the metrics file is what it was before the run, and then no write to it has returned, or it decodes to a dataset with exactly the metric.variable names and values of direct evaluation on all times; the state file likewise reads back (from_dataset) as a state with the entries of direct aggregation, from which the same metric values can be computed later. No other file changes; if no statistic variable has the reduced dimensions nothing is written; without any output path define_pipeline raises ValueError. The writing steps fail only if the netCDF encoding does. (False if the Aggregator drops every variable of a statistic that a metric uses: direct evaluation then returns the other metrics, ComputeMetrics raises.)", "quantifier": "all time chunkings, loaders and metrics acting chunk by chunk, runner schedules, retries, interleavings, failures and crash points", "why_tests_cant": "All schedules, retries and crash points at once.", "anchors": ["weatherbenchX/beam_pipeline.py:define_pipeline", "weatherbenchX/beam_pipeline.py:ComputeMetrics", "weatherbenchX/beam_pipeline.py:WriteMetrics", "weatherbenchX/beam_pipeline.py:WriteAggregationState", "weatherbenchX/beam_utils.py:atomic_write", "weatherbenchX/aggregation.py:AggregationState.metric_values"]}
{"id": "C70", "title": "Combining result files keeps every value and invents none", "statement": "combine_results writes one dataset in which every value of every result file it finds appears under that file's model, year and resolution and the display names of its metric, variable and region, and in which everything else is missing; the hours beside the lead times are the lead times' whole hours in order. No two (model, year, resolution) share a file or a display name and the display names of metrics, variables, regions and models are one to one, so values of different files never overwrite each other and the combination succeeds. The files run_benchmark_evaluation writes for its own metrics, variables and regions are such result files. (False for a metric.variable name with a second dot: the entry is lost without an error.)", "quantifier": "all sets of result files, present or absent, with any variables, labels and values", "why_tests_cant": "All combinations of existing files and their contents at once.", "anchors": ["public_benchmark/combine_results.py:process_results", "public_benchmark/combine_results.py:main", "public_benchmark/combine_results.py:_rename_region", "public_benchmark/run_benchmark_evaluation.py:main", "weatherbenchX/beam_pipeline.py:define_pipeline"]}
{"id": "C71", "title": "A benchmark run evaluates the documented times, data and metrics and writes the file that is read for them", "statement": "run_benchmark_evaluation for a year evaluates exactly the forecasts started every 12 hours (24 for excarta) in that year, without those whose 15-day range leaves the data (2022, fuxi, excarta; baguan in 2020; the first one of aurora in 2022), each with every requested lead time exactly once; with an own window, the times from its start before its stop; a start without a stop is refused. It evaluates the variables that both the prediction and the target have. With the public configurations no two runs write the same file, the file is the one combine_results reads for that run, and its metrics are those of the mode that reads it. For every ensemble there are a deterministic prediction by its mean and one by its first member, the latter reading the same data at the first label of the member dimension. (False: the probabilistic climatology baseline knows only the past: for years up to 2019 one of its members is the truth itself.)", "quantifier": "all flags (prediction, target, resolution, year, own windows and frequencies, chunk sizes), all lead times of a prediction file, all datasets", "why_tests_cant": "All flag combinations and all years, and all datasets for the member selection and the climatology.", "anchors": ["public_benchmark/run_benchmark_evaluation.py:main", "public_benchmark/public_configs.py:select_first_member", "public_benchmark/public_configs.py:single_member_configs", "weatherbenchX/data_loaders/xarray_loaders.py:ProbabilisticClimatologyFromXarray"]}
{"id": "C72", "title": "Scores over regions are area-weighted means over exactly the valid points of each region, from the loaders to the metrics file", "statement": "With region bins and latitude weighting, the bias, MAE, MSE and RMSE written for a region label are the mean of the error (absolute, squared, and the root of the latter) over exactly those points that lie in the region's latitude and longitude limits (longitudes up to full turns; for the label with '_land' also on land), have a true mask if masking is on, and have neither forecast nor target missing if missing values are skipped, each weighted by the area of its grid cell; they are missing if there are none. They exist for every grid of two or more latitudes in either direction whose land-sea mask is on the same grid. This holds of the metrics file of the pipeline over any chunking, any order in which the runner combines the chunks and any crash (the file is then the old one). In particular it holds of every benchmark run, whose regions have distinct names, all with a display name in combine_results, cover every latitude by tropics and hemispheres (rows at exactly 20 degrees count in both), and cross the prime meridian or the date line where they should.", "quantifier": "all grids, values, masks, regions, land-sea masks, dimensions averaged over, chunkings, runner schedules and crash points, all benchmark flags", "why_tests_cant": "It composes masks, weights, bins, chunking, the runner and the writer; tests check each on one small grid.", "anchors": ["weatherbenchX/aggregation.py:Aggregator", "weatherbenchX/weighting.py:GridAreaWeighting", "weatherbenchX/binning.py:Regions", "weatherbenchX/metrics/deterministic.py:RMSE", "weatherbenchX/beam_pipeline.py:define_pipeline", "public_benchmark/run_benchmark_evaluation.py:REGIONS"]}
{"id": "C73", "title": "The benchmark viewer draws, for every choice the menus offer, exactly the scores of the result files", "statement": "Over a combined dataset, no choice of variable, metric, level, region, year, resolution and reference model that the menus offer makes the viewer fail, and the menus offer every score there is. In absolute mode there is one curve for each model with a finite score under the choices and no other; at each lead time (axis: its whole hours) the curve has the value of that model's result file and nothing where there is none. In relative mode a curve is, after lead time zero and where both have a score, the percentage by which the model is better than the reference: positive exactly if its error is smaller (for ACC: its correlation greater), 0 for the reference itself; if the reference has no score an alert opens and nothing is drawn. SEEPS is refused for other variables than precipitation and against analysis-based references. Every curve has its model's colour and symbol; first visibility follows the default lists and later the user's own switching. Documented as refuted: 'improvement' of biases and spread-skill ratios can mean worse; probabilistic and precipitation defaults are forgotten after the first change, and the probabilistic page has none for precipitation; two models look alike; a squared error is labelled with the unsquared unit; the level menu stays active for two surface winds.", "quantifier": "all result files, all choices, all earlier states of the page", "why_tests_cant": "It composes the combination of all files with five selections and an arithmetic over models; there are no tests of the page.", "anchors": ["public_benchmark/apps/dash_app.py:make_app", "public_benchmark/apps/config.py:COLORS", "public_benchmark/combine_results.py:main"]}
{"id": "C74", "title": "The example evaluation script writes the scores of the stored forecasts against the stored targets, or leaves the old file", "statement": "For every setting of the flags with which the script goes ahead, and stored datasets that have the requested times, are on one grid and without missing values there: the file at the output path is, at any moment and wherever the runner was interrupted, the old one (no write has returned), or it opens and holds for every requested variable rmse.<variable> and mse.<variable>; at each region (the globe; latitudes from 20 degrees north) and each label along the dimensions not averaged over, the value is the mean squared error (its root) of the stored forecast against the target stored for init time plus lead time, over exactly the requested times and points of the region, each weighted by the area of its grid cell. The init times run from the start up to, not including, the stop at the frequency, the lead times likewise in hours; none counts twice; variables are served each once, renamed and cut to the requested levels. The chunking flags do not appear in any of this. Such an evaluation does compute its values, so it writes whenever encoding does not fail.", "quantifier": "all flags, all stored data on one grid, all chunkings, all orders and interruptions of the runner", "why_tests_cant": "It composes all layers of the library; the script has no tests.", "anchors": ["evaluation_scripts/run_example_evaluation.py:main", "weatherbenchX/beam_pipeline.py:define_pipeline", "weatherbenchX/data_loaders/xarray_loaders.py:PredictionsFromXarray", "weatherbenchX/aggregation.py:Aggregator", "weatherbenchX/binning.py:Regions", "weatherbenchX/weighting.py:GridAreaWeighting"]}
{"id": "C75", "title": "Select with a method finds the documented label, within the tolerance, and drops and ignores exactly what it is asked to", "statement": "Select with sel_kwargs and isel_kwargs, for every array and axis of numbers or times: nearest finds the label nearest to the one asked for (of two, the greater), pad the one before it and backfill the one after it in the order of an increasing or decreasing axis, if it is no farther than the tolerance; this label is unique, a label of the axis is found as itself, and nearest never fails on a non-empty axis without tolerance. Otherwise KeyError; ValueError on an axis that is not monotonic; NotImplementedError for slices. The values are those of the array at the labels found, for lists element by element, and positions are counted afterwards. drop leaves out exactly the coordinates that lost all dimensions and changes no value; missing_dims ignore or warn leaves out exactly the dimensions that are missing. Without keyword arguments the transform is the plain Select.", "quantifier": "all arrays, increasing or decreasing axes, labels, tolerances, keyword arguments", "why_tests_cant": "Tests try a few labels on one axis; ties, directions and tolerances need all axes and labels.", "anchors": ["weatherbenchX/metrics/wrappers.py:Select"]}
