{"id": "C01", "title": "Thresholding yields truth values in [0,1] that agree with the comparison operator", "statement": "For every data value, threshold and accepted pair of fuzzy bounds the truth value produced by Threshold is between 0 and 1; when the two bounds coincide it is exactly 1 if 'value OP threshold' holds and 0 otherwise.", "quantifier": "all data values, thresholds, comparison operators and accepted fuzzy bounds", "why_tests_cant": "a value grid samples a continuum; the corner cases are equalities at the bounds", "anchors": ["improver/threshold.py:Threshold._calculate_truth_value", "improver/threshold.py:Threshold.__init__", "improver/utilities/rescale.py:rescale"]}
{"id": "C02", "title": "Fuzzy truth values are a monotone ramp through 0 / 0.5 / 1", "statement": "With bounds lower < threshold < upper, the exceedance truth value is 0 at and below the lower bound, 0.5 at the threshold, 1 at and above the upper bound, non-decreasing in the data value, and the 'less than' variants return exactly one minus the 'greater than' variants.", "quantifier": "all data values and all strict bounds", "why_tests_cant": "monotonicity relates every pair of inputs", "anchors": ["improver/threshold.py:Threshold._calculate_truth_value", "improver/threshold.py:Threshold._generate_fuzzy_bounds"]}
{"id": "C03", "title": "Collapsed threshold probabilities are the mean over unmasked realizations", "statement": "Thresholding with collapse over realizations gives, at each grid point and threshold, the sum of that point's truth values over the realizations where it is unmasked divided by how many those are; the output point is masked iff the point is masked in every realization; the result does not depend on the order of the realizations.", "quantifier": "all ensembles (any number of realizations, any masks) and all realization orders", "why_tests_cant": "quantifies over all mask patterns and permutations of the realizations", "anchors": ["improver/threshold.py:Threshold.process"]}
{"id": "C04", "title": "Exceedance probabilities never increase with threshold", "statement": "For a given ensemble, the collapsed probability of being above a threshold is non-increasing as the (non-fuzzy) threshold increases, and the probability of being below is non-decreasing.", "quantifier": "all ensembles, masks and pairs of thresholds", "why_tests_cant": "relates two runs over all inputs", "anchors": ["improver/threshold.py:Threshold.process"]}
{"id": "C05", "title": "Probability inversion is the exact logical complement and an involution", "statement": "Inverting the probabilities of a cube replaces the comparison by its logical negation (>= by <, > by <=, and back), the data by 1-p, so thresholding with the inverse operator and inverting commute; inverting twice restores data, comparison and name; to_threshold_inequality returns a cube of the requested direction.", "quantifier": "all values, thresholds, all four operators and all probability cube names", "why_tests_cant": "needs every value/threshold pair including ties, and every name", "anchors": ["improver/utilities/probability_manipulation.py:invert_probabilities", "improver/utilities/probability_manipulation.py:comparison_operator_dict", "improver/utilities/probability_manipulation.py:to_threshold_inequality"]}
{"id": "C06", "title": "Between-threshold probabilities are non-negative and additive", "statement": "For probabilities that are monotone in threshold, the probability between any two available thresholds is between 0 and 1; contiguous ranges add up to the enclosing range; an above-threshold cube and its complementary below-threshold cube give the same answer; a range whose thresholds are not available is an error.", "quantifier": "all probability profiles, thresholds and lists of ranges", "why_tests_cant": "all subsets of ranges, all profiles", "anchors": ["improver/between_thresholds.py:OccurrenceBetweenThresholds"]}
{"id": "C07", "title": "Expected value from probabilities is a weighted mean of threshold midpoints", "statement": "Integrating a monotone CDF over increasing thresholds gives a value within the first and last (epsilon-extended) thresholds; the weights used are non-negative and sum to exactly one; non-increasing thresholds or a non-monotone CDF are rejected.", "quantifier": "all increasing threshold lists and CDFs with values in [0,1]", "why_tests_cant": "all lists of all lengths", "anchors": ["improver/expected_value.py:ExpectedValue.integrate_over_thresholds"]}
{"id": "C08", "title": "Linear rescaling maps end points to end points and inverts", "statement": "rescale maps the data range's end points to the scale range's end points, is monotone (reversing if the scale is reversed), stays inside the scale range when clipping, does nothing to an interior value when clipping, and rescaling back recovers the data; a zero-width input or output range is an error.", "quantifier": "all data, data ranges and scale ranges", "why_tests_cant": "continuum of inputs, sign combinations", "anchors": ["improver/utilities/rescale.py:rescale"]}
{"id": "C09", "title": "Quantile sampling gives the N equally spaced interior percentiles", "statement": "choose_set_of_percentiles(N) returns exactly N percentiles, the k-th (from 1) equal to 100 k/(N+1): strictly increasing, strictly inside (0,100), symmetric about 50 and partitioning [0,100] into N+1 equal parts.", "quantifier": "every N >= 1", "why_tests_cant": "every N", "anchors": ["improver/ensemble_copula_coupling/utilities.py:choose_set_of_percentiles"]}
{"id": "C10", "title": "The numba and pure-numpy interpolation back ends agree", "statement": "interpolate_multiple_rows_same_x / _same_y return the same numbers whether or not numba is installed (the docstrings promise the equivalent of np.interp).", "quantifier": "all rows, knots (including repeated knots) and target points", "why_tests_cant": "differences appear only on ties / closely spaced knots", "anchors": ["improver/ensemble_copula_coupling/numba_utilities.py:fast_interp_same_x", "improver/ensemble_copula_coupling/numba_utilities.py:fast_interp_same_y", "improver/ensemble_copula_coupling/utilities.py:slow_interp_same_x", "improver/ensemble_copula_coupling/utilities.py:slow_interp_same_y"]}
{"id": "C11", "title": "The incremental row scan of fast_interp_same_y equals independent interpolation of every target", "statement": "For non-decreasing rows, processing ordered targets with the running index, slope and intercept gives at every target what interpolating that target alone gives; so ordered and unordered target lists agree point by point.", "quantifier": "all rows and all target sequences", "why_tests_cant": "the loop carries state between targets: all histories", "anchors": ["improver/ensemble_copula_coupling/numba_utilities.py:fast_interp_same_y"]}
{"id": "C12", "title": "Resampled percentiles are monotone, bounded and exact at the knots", "statement": "ResamplePercentiles returns values non-decreasing in percentile and within the (extended) bounds of the distribution whenever the input percentiles and values are non-decreasing; at an original percentile it returns the original value; resampling to the same percentiles is the identity.", "quantifier": "all forecasts, percentile lists and target percentiles", "why_tests_cant": "relates all pairs of targets", "anchors": ["improver/ensemble_copula_coupling/ensemble_copula_coupling.py:ResamplePercentiles"]}
{"id": "C13", "title": "Out-of-bounds percentile forecasts raise, or widen the bounds minimally when warnings are selected", "statement": "Adding the ECC bounds either leaves a non-decreasing row bracketed by the bounds, or raises when a value falls outside and ecc_bounds_warning is off, or with ecc_bounds_warning on uses the extreme data values as new bounds so that, for non-decreasing input, the result is non-decreasing.", "quantifier": "all rows and bounds", "why_tests_cant": "all rows, error branches included", "anchors": ["improver/ensemble_copula_coupling/ensemble_copula_coupling.py:ResamplePercentiles._add_bounds_to_percentiles_and_forecast_at_percentiles", "improver/ensemble_copula_coupling/ensemble_copula_coupling.py:ConvertProbabilitiesToPercentiles._add_bounds_to_thresholds_and_probabilities"]}
{"id": "C14", "title": "Percentiles from probabilities invert the CDF", "statement": "ConvertProbabilitiesToPercentiles returns values within the bounds, non-decreasing in percentile; asking for the percentile equal to the CDF value at a threshold returns that threshold when the CDF is strictly increasing; above- and below-threshold cubes of complementary probabilities give identical percentiles.", "quantifier": "all CDFs, thresholds and percentiles", "why_tests_cant": "all CDFs, including flat parts", "anchors": ["improver/ensemble_copula_coupling/ensemble_copula_coupling.py:ConvertProbabilitiesToPercentiles"]}
{"id": "C15", "title": "Ensemble reordering permutes the calibrated values and reproduces the raw ranks", "statement": "At every grid point the reordered realizations are a permutation of the calibrated percentile values, and if raw member i is below raw member j then output i is not above output j; ties are split according to the random tie-break only.", "quantifier": "all raw ensembles, calibrated percentiles and random tie-break arrays", "why_tests_cant": "all orderings, ties and random draws", "anchors": ["improver/ensemble_copula_coupling/ensemble_copula_coupling.py:EnsembleReordering.rank_ecc", "improver/utilities/indexing_operations.py:choose"]}
{"id": "C16", "title": "Raw realizations are recycled cyclically to match the number of percentiles", "statement": "When the number of percentiles differs from the number of raw members, slot i receives member i mod M, the new realization numbers are consecutive from the first one, exactly P members result, and no member is used more than once more often than another.", "quantifier": "all P, M >= 1", "why_tests_cant": "all pairs of sizes", "anchors": ["improver/ensemble_copula_coupling/ensemble_copula_coupling.py:EnsembleReordering._recycle_raw_ensemble_realizations"]}
{"id": "C17", "title": "Ensemble reordering processes any number of validity times", "statement": "EnsembleReordering returns a result for inputs holding any number of times, with or without a random seed.", "quantifier": "every number of time slices and every seed", "why_tests_cant": "loop-carried state across times", "anchors": ["improver/ensemble_copula_coupling/ensemble_copula_coupling.py:EnsembleReordering.rank_ecc"]}
{"id": "C18", "title": "Rebadging realizations as percentiles is sorted and accepted back", "statement": "RebadgeRealizationsAsPercentiles sorts each point's members and labels them 100(k+1)/(n+1); these labels always pass the equal-partition test of RebadgePercentilesAsRealizations, so the round trip succeeds and yields n realizations numbered 0..n-1; labels that do not equally partition [0,100] (e.g. the CRPS-optimal ones for n>=2) are rejected.", "quantifier": "every ensemble size and every ensemble", "why_tests_cant": "every n", "anchors": ["improver/ensemble_copula_coupling/ensemble_copula_coupling.py:RebadgeRealizationsAsPercentiles", "improver/ensemble_copula_coupling/ensemble_copula_coupling.py:RebadgePercentilesAsRealizations"]}
{"id": "C19", "title": "Combining undersampled reliability bins terminates, conserves totals and reaches the minimum count", "statement": "ManipulateReliabilityTable's combination of undersampled bins always terminates; afterwards every bin holds at least the minimum forecast count or only one bin is left; totals of observations, probability sums and forecasts are unchanged; the bins still cover the same range contiguously, each output bin being a run of consecutive input bins.", "quantifier": "all tables of any length and any minimum count", "why_tests_cant": "unbounded loop over all tables", "anchors": ["improver/calibration/reliability_calibration.py:ManipulateReliabilityTable._combine_undersampled_bins", "improver/calibration/reliability_calibration.py:ManipulateReliabilityTable._sum_pairs", "improver/calibration/reliability_calibration.py:ManipulateReliabilityTable._create_new_bin_coord"]}
{"id": "C20", "title": "Manipulated reliability tables have non-decreasing observation frequency", "statement": "After ManipulateReliabilityTable the observed frequency is non-decreasing across the bins; a table that was already monotone and well sampled is returned unchanged; forecast counts and probability sums are conserved in total.", "quantifier": "all tables with positive counts", "why_tests_cant": "all tables of any length", "anchors": ["improver/calibration/reliability_calibration.py:ManipulateReliabilityTable._enforce_min_count_and_montonicity", "improver/calibration/reliability_calibration.py:ManipulateReliabilityTable._combine_bin_pair", "improver/calibration/reliability_calibration.py:ManipulateReliabilityTable._assume_constant_observation_frequency"]}
{"id": "C21", "title": "Reliability calibration maps probabilities monotonically into [0,1]", "statement": "Applying a manipulated reliability table to a forecast probability in [0,1] returns a value in [0,1], non-decreasing in the forecast probability, and equal to the clipped linear inter/extrapolation of the table; masked points stay masked; a table with fewer than two bins leaves the forecast unchanged.", "quantifier": "all tables and all probabilities", "why_tests_cant": "all tables, monotonicity relates all pairs", "anchors": ["improver/calibration/reliability_calibration.py:ApplyReliabilityCalibration._interpolate", "improver/calibration/reliability_calibration.py:ApplyReliabilityCalibration._calculate_reliability_probabilities", "improver/calibration/reliability_calibration.py:ApplyReliabilityCalibration._apply_calibration"]}
{"id": "C22", "title": "Every forecast is counted in exactly one probability bin", "statement": "When a reliability table is built each unmasked probability in [0,1] adds one count and its own value to exactly one bin, the one containing it; observation counts never exceed forecast counts; NaN forecasts contribute to no bin; so each bin's mean forecast lies in the bin.", "quantifier": "all forecasts, truths and bin definitions", "why_tests_cant": "all probabilities incl. bin edges", "anchors": ["improver/calibration/reliability_calibration.py:ConstructReliabilityCalibrationTables._populate_reliability_bins", "improver/calibration/reliability_calibration.py:ConstructReliabilityCalibrationTables._define_probability_bins"]}
{"id": "C23", "title": "Reliability tables aggregate additively and never double count a cycle", "statement": "Building a table from a set of times equals summing tables built from any partition of those times; aggregation accepts tables only when their forecast reference time ranges are pairwise disjoint.", "quantifier": "all partitions of all histories, all lists of tables", "why_tests_cant": "all partitions and orders", "anchors": ["improver/calibration/reliability_calibration.py:ConstructReliabilityCalibrationTables._add_reliability_tables", "improver/calibration/reliability_calibration.py:AggregateReliabilityCalibrationTables"]}
{"id": "C24", "title": "Normalised weights are non-negative and sum to one", "statement": "normalise_weights returns weights that sum to exactly one, are non-negative and keep the ratios between the inputs; it raises exactly when some weight is negative or all are zero; normalising twice changes nothing.", "quantifier": "all weight vectors", "why_tests_cant": "all vectors of all lengths", "anchors": ["improver/blending/weights.py:WeightsUtilities.normalise_weights"]}
{"id": "C25", "title": "Default blending weights have the advertised shape", "statement": "Linear default weights change by a constant step, non-linear default weights are geometric with ratio cval and never increase, triangular weights are zero outside the width and decrease with distance from the midpoint; all are non-negative, sum to one and have one weight per point.", "quantifier": "all parameters and numbers of points", "why_tests_cant": "all parameters", "anchors": ["improver/blending/weights.py:ChooseDefaultWeightsLinear", "improver/blending/weights.py:ChooseDefaultWeightsNonLinear", "improver/blending/weights.py:ChooseDefaultWeightsTriangular"]}
{"id": "C26", "title": "Percentile blending returns a monotone distribution within the range of its inputs", "statement": "Blending percentile forecasts gives values non-decreasing in percentile and between the smallest and largest input value; blending a single forecast (weight one) returns it unchanged.", "quantifier": "all sets of percentile forecasts and weights", "why_tests_cant": "all inputs of all sizes", "anchors": ["improver/blending/weighted_blend.py:PercentileBlendingAggregator.blend_percentiles"]}
{"id": "C27", "title": "Weighted mean blending is convex and order independent", "statement": "A weighted mean over the blend dimension lies between the minimum and maximum of the values with non-zero weight, reproduces constant fields, keeps probabilities in [0,1] and does not depend on the order in which (value, weight) pairs are supplied.", "quantifier": "all values, weights with positive sum, and orders", "why_tests_cant": "all permutations", "anchors": ["improver/blending/weighted_blend.py:WeightedBlendAcrossWholeDimension.weighted_mean", "improver/blending/weighted_blend.py:WeightedBlendAcrossWholeDimension._normalise_weights"]}
{"id": "C28", "title": "Threshold probabilities are forced back into order without changing their multiset", "statement": "After calibration the probabilities at each point are monotone in threshold in the direction of the comparison, are a permutation of the values before, and are untouched when already monotone.", "quantifier": "all probability profiles", "why_tests_cant": "all profiles", "anchors": ["improver/calibration/reliability_calibration.py:ApplyReliabilityCalibration._ensure_monotonicity_across_thresholds"]}
{"id": "C29", "title": "A plugin instance gives the same answer however often it was used before", "statement": "Calling an instance of Threshold, ConvertLocationAndScaleParameters, AggregateReliabilityCalibrationTables, WeightedBlendAcrossWholeDimension, TemporalInterpolation, Accumulation, Combine, CubeCombiner, DayNightMask, a neighbourhood plugin, ApplyReliabilityCalibration or ApplyDecisionTree on an input gives the same result as a freshly built instance, whatever it was called on before.", "quantifier": "all call histories on one instance", "why_tests_cant": "all histories", "anchors": ["improver/threshold.py:Threshold.process", "improver/ensemble_copula_coupling/ensemble_copula_coupling.py:ConvertLocationAndScaleParameters._rescale_shape_parameters", "improver/calibration/reliability_calibration.py:AggregateReliabilityCalibrationTables.process", "improver/blending/weighted_blend.py:WeightedBlendAcrossWholeDimension.process", "improver/utilities/temporal_interpolation.py:TemporalInterpolation.construct_time_list", "improver/nowcasting/accumulation.py:Accumulation._check_inputs", "improver/cube_combiner.py:Combine.process", "improver/utilities/solar.py:DayNightMask._create_daynight_mask", "improver/nbhood/nbhood.py:BaseNeighbourhoodProcessing.process"]}
{"id": "C30", "title": "Fuzzy threshold configuration is validated before any data is touched, and accepted configurations can be applied", "statement": "Threshold rejects at construction time any configuration whose bounds do not enclose the threshold, a fuzzy factor outside (0,1), a zero threshold with a fuzzy factor, or both kinds at once; every configuration it accepts produces truth values for all data.", "quantifier": "all configurations and data", "why_tests_cant": "all configurations", "anchors": ["improver/threshold.py:Threshold.__init__", "improver/threshold.py:Threshold._check_fuzzy_bounds", "improver/threshold.py:Threshold._generate_fuzzy_bounds"]}
{"id": "C31", "title": "Spatially varying blending weights respect masks and stay normalised", "statement": "SpatiallyVaryingWeightsFromMask returns, at each grid point, weights in [0,1], zero for every masked slice, scaled by distance/fuzzy_length for slices within the fuzzy length of their mask, and summing to one wherever some contributing slice is further than the fuzzy length from its mask.", "quantifier": "all one-dimensional weights, masks, distances and fuzzy lengths", "why_tests_cant": "all masks and distance fields", "anchors": ["improver/blending/spatial_weights.py:SpatiallyVaryingWeightsFromMask.process", "improver/blending/spatial_weights.py:SpatiallyVaryingWeightsFromMask._rescale_unmasked_weights"]}
{"id": "C32", "title": "Temporal interpolation produces the requested times and values consistent with both inputs", "statement": "TemporalInterpolation returns one field per requested time, strictly increasing, ending at the later input's time, evenly spaced when an interval is given and the inputs are less than a day apart; values lie on the straight line between the inputs (times solar elevation for the solar method, zero at night for solar and day/night); period maxima and minima respect the whole period's value; wherever the two input rates are not both zero, sub-period accumulations are non-negative and add up to the original total over contiguous periods; inconsistent inputs are rejected. (Known violations outside these conditions are proved as *_refuted: gaps of a day or more, points dry in both inputs, solar interpolation over whole days.)", "quantifier": "every pair of inputs, every list of times or interval, every method, every grid value", "why_tests_cant": "Times, gaps, values and methods range over unbounded sets; the failures sit at gaps of a day and at zero rates which fixtures do not contain.", "anchors": ["improver/utilities/temporal_interpolation.py: TemporalInterpolation"]}
{"id": "C33", "title": "Nowcast accumulations are the time integral of the rates over the reported period", "statement": "Accumulation gives, for every complete period, the trapezium integral of the rate fields in that period, independent of the order of the inputs, additive over adjacent periods, non-negative for non-negative rates and equal to rate times duration for constant rates; inputs whose successive times differ in spacing and periods not divisible by the spacing are rejected; outputs span the requested period when the inputs cover it. (Violations otherwise are proved as *_refuted: windows reaching beyond the inputs are silently shortened, inputs all at one time are accepted.)", "quantifier": "every list of rate fields with their times, every period and list of forecast periods", "why_tests_cant": "Number of inputs, times, periods and rates are unbounded.", "anchors": ["improver/nowcasting/accumulation.py: Accumulation"]}
{"id": "C34", "title": "A decision tree gives each point the category its data lead to", "statement": "ApplyDecisionTree gives a point exactly the category of the leaf reached by answering the questions one after the other from the start node (comparison and AND/OR combination taken literally; masked or NaN data answer nothing and leave the point masked); in a tree without cycles or dangling branches every point with ordinary data gets a category; the order of the nodes in the dictionary is irrelevant; nodes whose optional diagnostics are missing are passed over by their if_diagnostic_missing branch provided the two branches of each node still lead to different places, and missing required diagnostics are errors; differences of diagnostics are evaluated with the usual precedence when no addition follows a subtraction; at night a category is replaced by its night version and nothing else changes. (Violations outside these conditions are proved as *_refuted.)", "quantifier": "every tree, every set of inputs at a point, every start node, every set of missing optional diagnostics", "why_tests_cant": "Trees of any shape and size with any data, including cycles, shared nodes and every pattern of missing inputs; tests use two or three trees.", "anchors": ["improver/categorical/decision_tree.py: ApplyDecisionTree.process, find_all_routes, invert_condition, evaluate_condition_chain, evaluate_extract_expression, remove_optional_missing, prepare_input_cubes", "improver/categorical/utilities.py: day_night_map, update_daynight, update_tree_thresholds"]}
{"id": "C35", "title": "The modal category is the most frequent one, independent of the order of the times", "statement": "ModalCategory returns at each point the most frequent category of the period, counting night categories as their day version and preferring the highest code among equally frequent ones, if it makes up at least 30 percent of the times; otherwise the most frequent one after merging the categories of each group into the lowest of that group present. The result does not depend on the order of the times, is always one of the (day) categories present, never the internal marker for undecided points, and a unanimous period gives its category.", "quantifier": "every tree with distinct leaf codes, every list of categories of any length", "why_tests_cant": "All lists of codes of all lengths, with ties and groups, against all trees.", "anchors": ["improver/categorical/modal_code.py: ModalCategory.process, mode_aggregator, _group_codes, _unify_day_and_night, _code_groups"]}
{"id": "C36", "title": "A neighbourhood mean is the weighted mean of the usable in-window points", "statement": "NeighbourhoodProcessing applied to a slice returns, at every grid point, the weighted mean (or with sum_only the weighted total) of the points of the square or circular window around it that are neither masked in the data nor zero in the mask cube; the result is missing exactly where the window has no such point, lies within the range of the contributing values, does not depend on data at masked points and keeps the order of two fields; with re_mask the result is masked exactly where the input was unusable. The shortcuts for fields that are mostly zero or one do not change the result. (In the square method this last clause fails when a field is mostly ones and a differing point lies near, but not on all sides of, the domain edge: positions outside the domain are then counted as ones.)", "quantifier": "all fields of every size, both methods, weighted or not, every positive radius in cells, all data masks and mask fields, all points", "why_tests_cant": "The bounding-box shortcut, the padding and the masks interact through the position of every value of the field; a finite set of fields does not reach every combination, and the existing tests do not reach the edge case that is wrong.", "anchors": ["improver/nbhood/nbhood.py:NeighbourhoodProcessing._calculate_neighbourhood", "improver/nbhood/nbhood.py:NeighbourhoodProcessing._do_nbhood_sum", "improver/nbhood/nbhood.py:circular_kernel", "improver/utilities/neighbourhood_tools.py:boxsum", "improver/utilities/neighbourhood_tools.py:pad_boxsum"]}
{"id": "C37", "title": "Occurrence within vicinity is the maximum over the counted points of the window", "statement": "OccurrenceWithinVicinity returns, at every unmasked grid point, the largest value among the points of the square window (clipped at the domain edge) that are unmasked and, when a land mask is given, on the same side of it; points that are masked keep their value and their mask. Hence an event is reported exactly when it occurs at a counted point, a wider vicinity never gives less, radius zero gives the input, ordered fields stay ordered and, without masks, a vicinity of a vicinity is the vicinity of the summed radii.", "quantifier": "all fields of every size, all masks and land masks, every radius in cells, all points", "why_tests_cant": "The reflecting edge of the filter, the masks and the land/sea split meet at arbitrary positions of arbitrary fields.", "anchors": ["improver/utilities/spatial.py:maximum_within_vicinity", "improver/utilities/spatial.py:OccurrenceWithinVicinity"]}
{"id": "C38", "title": "The recursive filter averages: it stays in range, keeps order and the mask", "statement": "RecursiveFilter rejects smoothing coefficients above one half, fewer than one iteration, and masked data with several times. When it accepts, with coefficients that are not negative, every smoothed slice lies within the range of its input, a constant slice is unchanged, slices ordered point by point stay ordered, the mask is kept, and values under the mask do not influence unmasked points. (Negative coefficients are accepted and leave the range; only the first slice's mask is used; with two or more iterations masked values do reach unmasked points through the halo; and the caller's coefficient cubes keep the zeros of a masked run.)", "quantifier": "all fields of every size of at least two points a side, all coefficient fields, all numbers of iterations and halo widths, all masks, all points", "why_tests_cant": "The forward and backward recursions carry every value to every point of the row, column and halo for any number of iterations.", "anchors": ["improver/nbhood/recursive_filter.py:RecursiveFilter"]}
{"id": "C39", "title": "Grid spacing, distances in cells and halos are exact on a regular grid", "statement": "On a regular coordinate calculate_grid_spacing gives the absolute step, and any coordinate it accepts has every step within the relative tolerance of the result. distance_to_number_of_grid_cells gives the number of whole cells in the distance, and refuses exactly distances shorter than a cell; it undoes number_of_grid_cells_to_distance and is monotone. Adding a halo carries a regular coordinate and its bounds on with the same step, and removing it restores coordinate and data. (Padding accepts an uneven coordinate whose first and last steps agree, and then does not restore it.)", "quantifier": "all coordinates of every length, all distances, widths, fields and points", "why_tests_cant": "Lengths, steps and widths are unbounded; rounding down must be right on both sides of every multiple of the spacing.", "anchors": ["improver/utilities/spatial.py:calculate_grid_spacing", "improver/utilities/spatial.py:distance_to_number_of_grid_cells", "improver/utilities/spatial.py:number_of_grid_cells_to_distance", "improver/utilities/pad_spatial.py:pad_coord", "improver/utilities/pad_spatial.py:pad_cube_with_halo", "improver/utilities/pad_spatial.py:remove_halo_from_cube"]}
{"id": "C40", "title": "Masked neighbourhood processing treats every slice and zone on its own", "statement": "ApplyNeighbourhoodProcessingWithAMask gives, for every x-y slice and every mask zone, the neighbourhood mean (or sum) over the points of that zone that are unmasked in that slice, missing exactly where the window has none, within the slice's range. With collapse weights it gives the mean of the zones' results with those weights, leaving out missing results and masked weights, missing exactly where no zone with a result has weight. (A slice whose values equal those of the slice computed before takes over its result, which is wrong when the masks or the radii of the two differ.)", "quantifier": "all fields, masks, zones, weights, radii and lists of slices in which slices with equal values have equal masks and radii; all points", "why_tests_cant": "The result for one slice depends on the history of the slices before it; the zones, masks and weights meet in every combination.", "anchors": ["improver/nbhood/use_nbhood.py:ApplyNeighbourhoodProcessingWithAMask"]}
{"id": "C41", "title": "The neighbourhood radius follows the lead time", "statement": "radius_by_lead_time accepts one radius, or as many lead times as radii, and the neighbourhood plugins accept what it returns. The radius used for a cube is the listed one at a listed lead time, stays at the ends outside the list, lies within the range of the radii and is monotone if they are; the neighbourhood then reaches as many cells as fit whole into it, at least one and no further than half the domain's diagonal, for every slice. (A cube with several lead times is always refused when radii vary, and a list of radii without lead times is accepted by the constructor only to fail on every cube.)", "quantifier": "all lists of radii and lead times, all lead times, all coordinates and lists of slices", "why_tests_cant": "Lists and lead times are unbounded; the property holds at every lead time between and outside the knots.", "anchors": ["improver/nbhood/__init__.py:radius_by_lead_time", "improver/nbhood/nbhood.py:BaseNeighbourhoodProcessing", "improver/nbhood/nbhood.py:NeighbourhoodProcessing.process", "improver/nbhood/nbhood.py:check_radius_against_distance"]}
{"id": "C42", "title": "The lightning nowcast is a probability limited by rain and raised by storms and ice", "statement": "NowcastLightning returns, at every point and time, the first guess nearest in time (at most 7201 s away), raised to at least 0.25 near lightning or where heavy rain is likely and to 1 inside a storm or where intense rain is likely, capped by a piecewise linear limit on the probability of rain (0.0067, 0.25 and 1 at 0, 0.05 and 0.1), and finally raised by the ice probabilities with an effect that fades to nothing over 150 minutes. The result lies in [0,1] and is monotone in every input. (The neighbourhood smoothing that the plugin announces never reaches the result, but makes it refuse more than one time.)", "quantifier": "all fields of every size, all times, thresholds and lead times, all points", "why_tests_cant": "Six inputs, eight thresholds and the lead time combine at every point; the order of the adjustments matters.", "anchors": ["improver/nowcasting/lightning.py:NowcastLightning", "improver/utilities/rescale.py:apply_double_scaling", "improver/utilities/temporal.py:extract_nearest_time_point"]}
{"id": "C43", "title": "Topographic zone weights and orography bands", "statement": "For contiguous ascending bands GenerateTopographicZoneWeights gives, at every land point whose height is above the lowest bound and not above the highest, weights in [0,1] that sum to one, are 1 at the middle of the band of the point and one half at its edges, are shared only with the adjacent band on the side of the height and vary without a step across a band edge; points the land mask calls sea are masked; band masks from GenerateOrographyBandAncils are 1 in exactly one band for such a land point and 0 for sea points; CorrectLandSeaMask gives 0/1 with 1 exactly where the input is at least one half.", "quantifier": "all lists of bands, all orography fields and land masks, all grid points", "why_tests_cant": "The weights are built by a loop that writes into neighbouring bands; whether they always sum to one depends on every combination of band layout and height, including heights on edges, in the first and in the last band.", "anchors": ["improver/generate_ancillaries/generate_topographic_zone_weights.py:GenerateTopographicZoneWeights", "improver/generate_ancillaries/generate_ancillary.py:GenerateOrographyBandAncils", "improver/generate_ancillaries/generate_ancillary.py:CorrectLandSeaMask"]}
{"id": "C44", "title": "Forecasts are made consistent with a reference forecast", "statement": "EnforceConsistentForecasts returns, at every point, the value nearest to the forecast that satisfies the bounds derived from the reference (linear transformation, one or two sided); values already consistent are unchanged, applying it twice equals applying it once, the warning is issued exactly when some value moved by more than the tolerance, contradictory bounds and mixtures of list and scalar arguments are rejected, and probabilities are never rescaled.", "quantifier": "all forecasts, references, additive and multiplicative amounts, operators and tolerances", "why_tests_cant": "Holds for all real-valued fields and argument combinations, including negative multipliers and swapped operator order.", "anchors": ["improver/utilities/forecast_reference_enforcement.py:EnforceConsistentForecasts"]}
{"id": "C45", "title": "Normalising fields to a reference total", "statement": "normalise_to_reference returns fields that keep their coordinates and their proportions and whose sum equals the reference at every point where it accepts the input (with ignore_zero_total: where the inputs do not sum to zero); it keeps non-negative fields non-negative, is idempotent, and refuses points whose inputs sum to zero while the reference does not. split_cubes_by_name partitions its input.", "quantifier": "all numbers of fields (at least two), all field values, references and points", "why_tests_cant": "Equality of the sum with the reference must hold for any number of fields and all values including zeros and cancelling ones.", "anchors": ["improver/utilities/forecast_reference_enforcement.py:normalise_to_reference", "improver/utilities/forecast_reference_enforcement.py:split_cubes_by_name"]}
{"id": "C46", "title": "Combining cubes element by element", "statement": "CubeCombiner applied to two or more cubes on the same grid gives at each element the sum, difference, product, maximum, minimum or mean of all the values (masked where any is masked) or, for masked_add, the sum of the unmasked values; the result does not depend on the order of the cubes except for a difference or on whether the data are processed realization by realization; a cube lacking the broadcast coordinate counts as constant along it; cubes with different coordinates are refused; MaxInTimeWindow requires equal bounded periods and returns the maximum; expanded bounds are the smallest covering interval.", "quantifier": "all operations, all numbers of cubes, all grids and masks, all elements and all orders", "why_tests_cant": "Any number of cubes, dimensions, broadcast positions and mask patterns.", "anchors": ["improver/cube_combiner.py:CubeCombiner", "improver/cube_combiner.py:MaxInTimeWindow", "improver/cube_combiner.py:masked_add", "improver/utilities/cube_manipulation.py:expand_bounds"]}
{"id": "C47", "title": "Table lookup reads the entry at the nearest lower labels", "statement": "ExtractValueFromTable gives at every point the entry of the table whose row label is the greatest label not above the value of the row cube (labels within 0.00001 count as equal), or the smallest label when the value is below all labels, and likewise for the column; NaN where either value is NaN. Exactly two cubes of the same shape are needed, exactly one of them with the row name. The result does not depend on the order in which the table is written, and is monotone in the row value when the table is.", "quantifier": "every table with distinct labels, every pair of cubes, every order of the cubes and of the table's columns", "why_tests_cant": "ranges over all tables and values, including values between, below, above and within tolerance of labels", "anchors": ["improver/utilities/extract_from_table.py: ExtractValueFromTable"]}
{"id": "C48", "title": "Integration along a coordinate is the cumulative trapezium area of the positive values", "statement": "Integration returns, for each level after the first within the start and end points, in the chosen direction, the area under the straight lines between the positive parts of the values from the first level within the limits; the level as point and the layer as bounds; whatever the order of the levels in the input. Fewer than two levels within the limits is a ValueError. Totals of the two directions agree; running totals never decrease. A limit of exactly 0 is ignored (refuted), and a limit between two levels drops the whole layer.", "quantifier": "every column of at least two levels in ascending or descending order, every pair of limits, both directions", "why_tests_cant": "for all numbers of levels, spacings, values and limits", "anchors": ["improver/utilities/mathematical_operations.py: Integration"]}
{"id": "C49", "title": "The fast linear fit is the least-squares line", "statement": "fast_linear_fit returns the one line with the smallest sum of squared distances of the values present in both arrays, so exactly the line when the points lie on one; there is one exactly when two different abscissae are present; arrays whose masks (or NaNs) differ are refused.", "quantifier": "every pair of arrays and every competing line", "why_tests_cant": "minimality is over all lines", "anchors": ["improver/utilities/mathematical_operations.py: fast_linear_fit"]}
{"id": "C50", "title": "Precipitation phases partition every point", "statement": "SignificantPhaseMask sets exactly one of the rain, sleet and snow masks at every point; PrecipPhaseProbability and calculate_sleet_probability give probabilities of rain, sleet and snow that add up to one with exactly one of them one whenever the rain level is not above the snow level; SnowSplitter divides the precipitation into a rain and a snow part that add up to it.", "quantifier": "all fields, grid sizes, masked points, units, percentile sets and cube orders", "why_tests_cant": "the partition must hold for every snow fraction, altitude and pair of probabilities, in particular at the thresholds 0.01 and 0.99, at altitudes equal to the level, and at masked points", "anchors": ["improver/psychrometric_calculations/significant_phase_mask.py: SignificantPhaseMask", "improver/psychrometric_calculations/precip_phase_probability.py: PrecipPhaseProbability", "improver/precipitation_type/calculate_sleet_prob.py: calculate_sleet_probability", "improver/precipitation_type/snow_splitter.py: SnowSplitter"]}
{"id": "C51", "title": "Hail fraction, convective ratio and shower probability stay within their ranges and mean what they say", "statement": "HailFraction is within [0, 0.25], grows with the updraught, is zero where a condition suppresses hail unless hail is large, and then is at least 0.05; ConvectionRatioFromComponents is masked exactly without precipitation and otherwise completes the dynamic ratio to one; ShowerConditionProbability is the share of realizations with thin cloud or a high convective ratio.", "quantifier": "all inputs at every point, any number of realizations, masks and thresholds", "why_tests_cant": "ranges, monotonicity and the treatment of masked members must hold for every combination of inputs", "anchors": ["improver/precipitation_type/hail_fraction.py: HailFraction", "improver/precipitation_type/convection.py: ConvectionRatioFromComponents", "improver/precipitation_type/shower_condition_probability.py: ShowerConditionProbability"]}
{"id": "C52", "title": "Freezing rain probability averages over the common realizations", "statement": "FreezingRain returns, at every threshold and point, the mean over the realizations common to rain, sleet and temperature of (P(rain) + P(sleet)) * P(T < 0C), within [0, 1]; inputs without common realizations or without a freezing threshold are refused.", "quantifier": "all ensembles (sets of realizations), numbers of thresholds and points, and probability values", "why_tests_cant": "it depends on how the three sets of realizations overlap; the code divides by the number of rain realizations counted before the common ones are extracted", "anchors": ["improver/precipitation_type/freezing_rain.py: FreezingRain"]}
{"id": "C53", "title": "Filling missing data never changes known data and stays within what is known", "statement": "interpolate_missing_data and InterpolateUsingDifference return every known value unchanged whatever the interpolation gives; a value filled using a reference differs from the reference by no less and no more than the differences at known points, subject to the limit; every masked point of a slice with a known point is filled; SnowFraction is snow/(rain+snow) and at dry points the fraction of a nearest point with precipitation, within [0, 1].", "quantifier": "all fields, sizes, masks, references, limits and interpolation results", "why_tests_cant": "it must hold for every pattern of missing points and every value the interpolation may return, including failures", "anchors": ["improver/utilities/interpolation.py: interpolate_missing_data, InterpolateUsingDifference", "improver/precipitation_type/snow_fraction.py: SnowFraction"]}
{"id": "C54", "title": "Extraction by constraints keeps exactly the values that meet them", "statement": "Extracting a sub-cube with constraints of values and ranges (and optional units and steps) returns exactly the input values whose coordinates meet every constraint that applies, each once, with its own coordinates and in the input's order; it reports that nothing was found exactly when no value meets the constraints; a closed range keeps its end points whichever way round they are given; steps keep every step-th remaining value; a later list of values for the same coordinate replaces an earlier one; the caller's cube is unchanged.", "quantifier": "every cube (any number of dimensions, lengths, scalar coordinates), every list of constraints, every linear unit conversion, steps, both settings of use_original_units and ignore_failure", "why_tests_cant": "The claim relates every cell of an arbitrary-rank cube to the constraints and needs the index bookkeeping to be a bijection for all shapes; tests cover a few cubes with positive bounds, and negative bounds behave differently.", "anchors": ["improver/utilities/cube_extraction.py: parse_constraint_list, apply_extraction, extract_subcube, thin_cube, ExtractSubCube", "improver/utilities/cube_constraints.py: create_sorted_lambda_constraint"]}
{"id": "C55", "title": "Missing values along the vertical are filled outward in the expected direction", "statement": "Before a level is extracted, known values are kept; each missing value is counted back from the next known value above it by the number of levels times the increment, or on from the last known one if none follows; every column with a known value is complete afterwards and one without stays missing; the increment has the sign of the expected change, so a column with missing ends that changes strictly the expected way still does so afterwards.", "quantifier": "every set of columns with any pattern of missing values, any increment, both correlations and coordinate orders", "why_tests_cant": "All patterns of missing values in all columns at once (the second pass is only run if some column is still incomplete) must be covered; gaps in the middle of a column behave differently from gaps at its ends.", "anchors": ["improver/utilities/cube_extraction.py: ExtractLevel.fill_invalid, ExtractLevel._one_way_fill"]}
{"id": "C56", "title": "Lapse rates are the limited local regression of temperature on height", "statement": "LapseRate gives, at every land point, the slope of the least-squares line of temperature on height over the land points of the window whose height differs by no more than the given maximum, limited to the given range; the dry adiabatic lapse rate (limited) at sea and where heights or temperatures do not vary; a linear profile gives back its slope; other points, and common shifts of heights or temperatures, have no influence; configurations with limits out of order or negative sizes are refused.", "quantifier": "every grid of temperatures and heights, land mask, radius, height difference, limits, every point (domain edges included)", "why_tests_cant": "It quantifies over all fields and window contents; tests compare a few 5 by 5 grids with stored numbers.", "anchors": ["improver/lapse_rate.py: LapseRate", "improver/utilities/mathematical_operations.py: fast_linear_fit", "improver/utilities/neighbourhood_tools.py: pad_and_roll"]}
{"id": "C57", "title": "Lapse-rate adjustment of temperatures", "statement": "The adjustment is the lapse rate times the height difference up to the limit and the environmental lapse rate times the excess beyond it, in both directions; it is zero for no difference, odd, and has no jump; the gridded plugin adjusts each temperature with the lapse rate of the same coordinates and refuses differing grids and coordinates.", "quantifier": "every lapse rate, height difference and non-negative limit; every pair of temperature and lapse-rate cubes", "why_tests_cant": "Continuity and the pairing of slices must hold for all values and dimension orders; the pairing is by position although the check is by name.", "anchors": ["improver/lapse_rate.py: compute_lapse_rate_adjustment, ApplyGriddedLapseRate"]}
{"id": "C58", "title": "Grid point neighbours of sites", "statement": "NeighbourSelection keeps exactly the sites inside the domain, in order, and gives each a grid point: the nearest one without constraints; a closest land point if one lies within the search radius (strictly), else the nearest point, with the land constraint; with minimum_dz a point of least height difference among the (at most node_limit) closest eligible points within the radius, the closest of equals, else the nearest point. The displacement is site altitude minus orography at the chosen point; a site without altitude takes that of the nearest point. Unique ids must be present, distinct and at most eight characters. What is found for a site does not depend on the other sites.", "quantifier": "all site lists, orographies, land masks, distances, tie-breaks of the k-d tree, radii and node limits", "why_tests_cant": "optimality among all grid points, and independence of tie-breaking and of the other sites, quantify over all grids and site lists", "anchors": ["improver/spotdata/neighbour_finding.py: NeighbourSelection", "improver/spotdata/utilities.py: get_neighbour_finding_method_name"]}
{"id": "C59", "title": "Extraction at sites and lapse rate adjustment", "statement": "SpotExtraction refuses a cube whose grid (points, names, coordinate system, units) does not match the neighbour cube and a method that is not available; otherwise in every slice of the leading dimensions the value of a site is the value of the field at its grid point, and extraction with the neighbours NeighbourSelection found always succeeds on the same grid. SpotLapseRateAdjust adds to it the adjustment for the vertical displacement of that site with the lapse rate of that grid point or the fixed one, and refuses probabilities, other diagnostics, and absent, doubled or mismatching lapse rates.", "quantifier": "all cubes with any leading dimensions, all neighbour cubes, all site lists", "why_tests_cant": "index plumbing must be right for every shape and every site at once; the composition of selection and extraction ranges over all grids", "anchors": ["improver/spotdata/spot_extraction.py: SpotExtraction", "improver/spotdata/apply_lapse_rate.py: SpotLapseRateAdjust", "improver/metadata/utilities.py: check_grid_match, create_coordinate_hash"]}
{"id": "C60", "title": "Height adjustment at sites", "statement": "SpotHeightAdjustment adds the vertical displacement to values; probabilities at a threshold become the linear interpolation of the site's probabilities at threshold plus displacement, and beyond the thresholds the probability of the highest or lowest threshold. Results stay in range, are unchanged at zero displacement, keep their monotonicity, and probabilities and values adjusted for the same displacement describe the same distribution.", "quantifier": "all thresholds, probabilities, ensembles and displacements", "why_tests_cant": "monotonicity and agreement of the two branches quantify over all distributions and displacements", "anchors": ["improver/spotdata/height_adjustment.py: SpotHeightAdjustment"]}
{"id": "C61", "title": "Advection of a field", "statement": "AdvectField gives at each point the bilinear interpolation of the field at the point the trajectory came from; it is masked exactly where that source lies outside the domain or touches a masked value. The result stays within the range of the field, a displacement by whole grid squares moves the field exactly (masked values included), the operation is linear in the field, a zero time step changes nothing, and the result is valid one time step after the input, which is its forecast reference time.", "quantifier": "all fields, masks, velocities, grid spacings and time steps", "why_tests_cant": "range, linearity and exact shifting quantify over all velocity and data fields, including sources between the last grid point and the edge of the domain", "anchors": ["improver/nowcasting/forecasting.py: AdvectField"]}
{"id": "C62", "title": "Orographic enhancement and extrapolation nowcasts", "statement": "ApplyOrographicEnhancement changes only points with at least the minimum rate: subtraction never takes such a point below the minimum rate, addition adds the enhancement, and adding what was subtracted gives the original back wherever the difference stayed above the minimum. The enhancement used is one closest in time, at most 1800 s away, and otherwise it is refused. CreateExtrapolationForecast returns one forecast for each multiple of the interval up to the maximum lead time, in ascending order: the analysis without enhancement, advected by the lead time, with the enhancement valid at that time added; at lead time zero it is the analysis after the round trip; nothing negative appears from non-negative inputs; a rain rate without enhancement is refused.", "quantifier": "all analyses, enhancement cubes, velocities, intervals and maximum lead times", "why_tests_cant": "composition of subtraction, advection and addition for every lead time and every field", "anchors": ["improver/nowcasting/utilities.py: ApplyOrographicEnhancement", "improver/nowcasting/forecasting.py: CreateExtrapolationForecast", "improver/utilities/temporal.py: extract_nearest_time_point"]}
{"id": "C63", "title": "Radar masks and holes", "statement": "ExtendRadarMask masks exactly the pixels whose coverage is neither 1 nor 2 in addition to those masked before, and keeps values. FillRadarHoles keeps every valid pixel, fills a masked pixel exactly if at most 24 of the 81 pixels around it have no value, with zero if one of the valid values among the 25 around it is at most 0.001 mm/h and their geometric mean otherwise, within their range; pixels near the border stay masked.", "quantifier": "all fields, masks and coverages", "why_tests_cant": "which pixels are filled depends on every pattern of masked pixels in a 9 by 9 window and at the border", "anchors": ["improver/nowcasting/utilities.py: ExtendRadarMask, FillRadarHoles"]}
{"id": "C64", "title": "Historic forecasts and truths are matched in time", "statement": "Matching historic forecasts with truths returns two lists of the same length whose k-th members are valid at the same time (point and bounds), in ascending order, each time once. A forecast is kept exactly if it is the first for its time whose values are not all NaN and a truth exists for this time; a truth exactly if such a forecast exists. If nothing matches, ValueError. The outcome does not depend on the order of the truths, and matching again changes nothing.", "quantifier": "all lists of forecast and truth slices with any times, bounds and data", "why_tests_cant": "which slices are kept depends on the whole list, on duplicates and on missing data in any combination", "anchors": ["improver/calibration/utilities.py: filter_non_matching_cubes"]}
{"id": "C65", "title": "Bias of past forecasts and its removal", "statement": "The forecast bias at each point is the mean of forecast minus truth over the times at which neither is masked; the bias cube is named forecast_error_of_ the diagnostic, its reference time is the latest one with bounds covering all. Forecasts that are not single valued, or whose reference hours or periods differ, are refused. Applying it subtracts the mean of the biases given, leaves values within the bounds requested, and does nothing without bias cubes; an unbiased forecast is unchanged; masked biases mask the forecast unless they are filled with zero. Applying one bias cube from many times equals applying one per time. The caller's cubes stay unchanged.", "quantifier": "all histories, fields, masks, bounds and numbers of bias cubes", "why_tests_cant": "mean over arbitrary histories with arbitrary masks; equality of two routes for every input", "anchors": ["improver/calibration/simple_bias_correction.py: CalculateForecastBias, ApplyBiasCorrection", "improver/calibration/__init__.py: split_forecasts_and_bias_files"]}
{"id": "C66", "title": "Guards and glue of calibration", "statement": "Training data are refused exactly if the share of unusable (NaN) pairs exceeds the limit, over all sites or at some site. Merging a land-only calibrated field keeps it on land and takes the uncalibrated one elsewhere. Two cubes match exactly if their forecast periods round up to the same hour and their reference times fall in the same hours of the day. A unified reference time is the latest, bounded by all. Inputs of EMOS are each returned in exactly one role, in order; missing, duplicate or ambiguous inputs are refused.", "quantifier": "all data, times and lists of inputs", "why_tests_cant": "exact boundary conditions over every input list and share", "anchors": ["improver/calibration/utilities.py: check_data_sufficiency, merge_land_and_sea, forecast_coords_match, create_unified_frt_coord", "improver/calibration/__init__.py: split_forecasts_and_coeffs, validity_time_check"]}
{"id": "C67", "title": "Regridding from a regular grid interpolates within the cell of each target", "statement": "RegridWithLandSeaMask (modes bilinear-2 and nearest-2) applied to a regular source grid gives, at every target inside the source, the bilinear interpolation of the four corners of the source cell containing it (resp. the value of a closest source point in degrees among all source points), and missing outside; bilinear values lie within the range of the corners, reproduce fields linear in latitude and longitude, equal the source value at source points, and do not depend on which other targets are requested although the source is first cut to their surroundings.", "quantifier": "all regular grids, fields with or without missing values and lists of targets whose spacing exceeds the closeness tolerance", "why_tests_cant": "The index arithmetic (floor, flattening, edge adjustment, sub-domain cutting) must be right for every grid and every set of targets, including the last row, last column and corner.", "anchors": ["improver/regrid/landsea2.py: RegridWithLandSeaMask.process", "improver/regrid/bilinear.py: basic_indexes, adjust_boundary_indexes, basic_weights, apply_weights", "improver/regrid/nearest.py: nearest_regrid", "improver/regrid/grid.py: slice_cube_by_domain, group_target_points_with_source_domain, mask_target_points_outside_source_domain"]}
{"id": "C68", "title": "Land-sea aware regridding uses only sources of the target's type when one is near", "statement": "In bilinear-with-mask-2 regridding the value of a covered target is a weighted sum of source points whose weights sum to one and are above -1e-8; every weighted source has the surface type of the target unless no point of that type is within the vicinity among the eight nearest, in which case the plain bilinear weights are used. Uniform fields stay uniform; with four matching corners the result is plain bilinear interpolation. nearest-with-mask-2 takes the closest point of the type of the target in the surroundings if one is near enough, else the closest point.", "quantifier": "all grids, masks, vicinities, fields and targets, and every correct nearest-neighbour search", "why_tests_cant": "There are many combinations of matching corners, positions in the cell and distances; the claim is about all of them.", "anchors": ["improver/regrid/bilinear.py: adjust_for_surface_mismatch, one_mismatched_input_point, lakes_islands", "improver/regrid/idw.py: inverse_distance_weighting", "improver/regrid/nearest.py: nearest_with_mask_regrid, update_nearest_points, lakes_islands"]}
{"id": "C69", "title": "RegridLandSea set-up, attributes and coastal correction", "statement": "RegridLandSea accepts exactly its seven modes and requires a land mask exactly for those with a mask; after regridding the grid attributes are those of the target if the source had them, the title is the requested one or unknown and all other attributes are unchanged. AdjustLandSeaPoints changes a point exactly if the source type at it differs from the target type and a source point of the target type is in the vicinity, and then takes the value of the closest such point. grid_contains_cutout is true exactly if the points of the cut-out agree with consecutive points of the grid on both axes.", "quantifier": "all attribute dictionaries, masks, fields and axes", "why_tests_cant": "The correction runs twice over the same field (sea, then land) and must be independent of order for every mask; the search must succeed for every position of a cut-out.", "anchors": ["improver/regrid/landsea.py: RegridLandSea, AdjustLandSeaPoints, grid_contains_cutout"]}
{"id": "C70", "title": "Percentiles and probabilities of a distribution given by location and scale", "statement": "From location and scale fields of a normal (or truncated normal) distribution: where the scale is positive, the value issued for percentile p has probability p% of not being exceeded, higher percentiles never have lower values and all lie within the truncation limits; a zero scale gives the location for every percentile (hence possibly outside the limits: refuted there). The probability issued for a threshold is the distribution's probability of exceeding (or not exceeding) it, between 0 and 1 and monotone in the threshold; exceedance and non-exceedance sum to 1; probabilities and percentiles are consistent with each other. The result is masked exactly where location or scale is; percentiles are refused exactly when some unmasked value cannot be computed. Thresholds in other units give the same probability if the units have the same zero (refuted for units with an offset, such as Celsius: the scale is converted with the offset).", "quantifier": "all location/scale fields, masks, percentile lists, thresholds, unit conversions and standard distributions", "why_tests_cant": "tests use a few parameter values; the statements hold for every field, percentile and threshold and for every distribution with the stated laws", "anchors": ["improver/ensemble_copula_coupling/ensemble_copula_coupling.py: ConvertLocationAndScaleParameters, ConvertLocationAndScaleParametersToPercentiles, ConvertLocationAndScaleParametersToProbabilities"]}
{"id": "C71", "title": "EMOS location and scale from coefficients", "statement": "With the mean as predictor the location at each point is alpha + beta*ensemble mean + sum of beta_k*additional field_k, each coefficient found by the name of its predictor whatever the order of predictors and coefficients, and independent of the order of the realizations; with realizations as predictor it is alpha + sum of beta_r^2*member_r (whole-domain or per-site coefficients; refuted for per-cell coefficients and for one member at several sites, which raise). The scale is the square root of gamma^2 + delta^2*variance, not negative, and grows with the ensemble variance. A domain, diagnostic, forecast-period or reference-hour mismatch is refused; with a land-sea mask the parameters are masked exactly at sea and otherwise those without it.", "quantifier": "all ensembles, additional fields, coefficient sets (per domain or per point), masks", "why_tests_cant": "needs all predictor orders, ensemble sizes, shapes and values", "anchors": ["improver/calibration/ensemble_calibration.py: CalibratedForecastDistributionParameters"]}
{"id": "C72", "title": "Applying EMOS end to end", "statement": "ApplyEMOS returns the type of forecast it was given, or probabilities if a template is given (with a land-sea mask both must agree), with a row per percentile, threshold or realization and nothing masked. At sea the input forecast is returned unchanged; on land the result is the same with and without the mask. On land with positive scale: percentiles have the stated probability of not being exceeded under the calibrated distribution and respect its limits; probabilities are those of the calibrated distribution; realizations are the equally spaced quantiles of the calibrated distribution, each used once, in the order of the raw members. Attributes of the coefficients are usable only if all agree; additional fields at sites must be for the same sites in the same order; converting percentiles or probabilities needs a number of realizations.", "quantifier": "all forecasts, coefficients, land-sea masks, requests", "why_tests_cant": "relates whole results for arbitrary masks, types and values; tests fix one grid and a few percentiles", "anchors": ["improver/calibration/ensemble_calibration.py: ApplyEMOS", "improver/calibration/utilities.py: merge_land_and_sea, forecast_coords_match"]}
{"id": "C73", "title": "Estimating EMOS coefficients", "statement": "For whole-domain estimation the minimiser receives truths, variances and predictors paired by time and point, each unmasked pair once (refuted at sites when truth and forecast are masked at different times: they are paired wrongly without an error). With a land-sea mask values at sea have no influence; a mask together with additional fields always fails. The default first guess reproduces the raw ensemble mean and standard deviation; a regression first guess is the regression line for means (refuted for realizations, whose gradients are then squared). The coefficients created from a vector give, when applied by ApplyEMOS, exactly the location and scale that were scored for that vector, whole-domain or per site. Point by point, the coefficients of a point depend on its own data only and a point without truth keeps its first guess; two co-located points make the call fail. Pairs without a truth do not count in the score; one NaN forecast makes the score constant. Requests are accepted exactly under the documented conditions.", "quantifier": "all training data, masks, coordinates, minimisers, regressions and scores", "why_tests_cant": "alignment, independence of points and agreement of training with application must hold for all arrays, masks and vectors, and for every behaviour of the minimiser", "anchors": ["improver/calibration/ensemble_calibration.py: ContinuousRankedProbabilityScoreMinimisers, EstimateCoefficientsForEnsembleCalibration", "improver/calibration/utilities.py: flatten_ignoring_masked_data, broadcast_data_to_time_coord"]}
{"id": "C74", "title": "Maxima over height and the heights of them", "statement": "maximum_in_height returns at every point the greatest value over the levels between the two bounds (a bound not given does not restrict), NaN exactly if one of these values is NaN, and raises a ValueError exactly if no level is between the bounds. height_of_maximum reports at every point the height of a level that holds the given maximum; with find_lowest the lowest such level and otherwise the highest; a cube with one level is refused.", "quantifier": "all numbers of levels and points, all heights and values including NaN and ties, all bounds, both settings of find_lowest", "why_tests_cant": "Ties between levels, NaN and levels outside the bounds that hold the same value are rare in test data; the unit test for find_lowest passes the strings True and False, which are both true.", "anchors": ["improver/utilities/cube_manipulation.py:maximum_in_height", "improver/utilities/cube_manipulation.py:height_of_maximum"]}
{"id": "C75", "title": "Reordering, adding and sorting dimensions keeps every value in place", "statement": "enforce_coordinate_ordering puts the dimensions asked for first (or last) in the order asked for, keeps the order of the others, ignores names that are not dimensions, lets the word threshold stand for the threshold coordinate, is idempotent, and leaves the value at every labelled position unchanged. add_coordinate_to_cube puts the new dimension at the place asked for and repeats every value along it; a place outside the dimensions is refused. sort_coord_in_cube gives the same slices, each with its point, in ascending or descending order.", "quantifier": "all cubes with any number of dimensions, all lists of names, both anchors, all data", "why_tests_cant": "The number of dimensions and permutations is unbounded; a transposed axis goes unnoticed when lengths are equal.", "anchors": ["improver/utilities/cube_manipulation.py:enforce_coordinate_ordering", "improver/utilities/cube_manipulation.py:add_coordinate_to_cube", "improver/utilities/cube_manipulation.py:sort_coord_in_cube"]}
{"id": "C76", "title": "Comparing and merging cubes", "statement": "compare_attributes lists for each of several cubes exactly the attributes not shared by all with the same value; merging keeps exactly the shared attributes and the shared cell methods, and if asked refuses cubes whose time periods differ in length. expand_bounds gives the least and the greatest value covered by the inputs with the point at the upper end, and refuses a mixture of bounded and unbounded inputs. filter_realizations keeps exactly the realizations given for every time, each with every time and the field given for it, whatever the order of the cubes.", "quantifier": "all numbers of cubes, all attributes, all periods, all sets of times and realizations in any order", "why_tests_cant": "The properties range over all sets of attributes and over all orders of cubes; a tolerance of the comparison only shows for periods longer than a day.", "anchors": ["improver/utilities/cube_manipulation.py:compare_attributes", "improver/utilities/cube_manipulation.py:MergeCubes", "improver/utilities/cube_manipulation.py:expand_bounds", "improver/utilities/cube_manipulation.py:filter_realizations", "improver/utilities/cube_manipulation.py:clip_cube_data"]}
{"id": "C77", "title": "Attributes of new and amended cubes", "statement": "generate_mandatory_attributes gives title, source and institution, each the value shared by all inputs or else its default, and the model id if asked for, refusing exactly if the inputs do not share one; the order of the inputs does not matter. get_model_id_attr gives the shared value or a ValueError. create_new_diagnostic_cube lets the optional attributes win and insists on all three mandatory ones. amend_attributes carries out every entry of the changes on the value from before and touches nothing else, in whatever order the entries come; if one entry fails exactly the entries before it have been carried out. An appended history keeps what it was.", "quantifier": "all lists of cubes in any order, all attribute dictionaries, all changes, every failing entry", "why_tests_cant": "They range over all dictionaries, all orders and all places at which an amendment can fail.", "anchors": ["improver/metadata/utilities.py:generate_mandatory_attributes", "improver/metadata/utilities.py:get_model_id_attr", "improver/metadata/utilities.py:create_new_diagnostic_cube", "improver/metadata/amend.py:amend_attributes", "improver/metadata/amend.py:set_history_attribute"]}
{"id": "C78", "title": "Model identifiers of a blend", "statement": "The model identifier of a blend consists of the words of the identifiers of all inputs, each once and in alphabetical order; it depends on nothing but the set of these words, blending in stages gives the identifier of blending at once, and an input without identifier is refused.", "quantifier": "all numbers of cubes, all identifiers with any number of words, all orders and all groupings into stages", "why_tests_cant": "Independence of order, repetition and grouping is a statement about all lists of cubes.", "anchors": ["improver/metadata/amend.py:update_model_id_attr_attribute"]}
{"id": "C79", "title": "Names of probability cubes", "statement": "From the name probability_of_X[_in_vicinity|_in_variable_vicinity]_above|below_threshold or _between_thresholds the diagnostic X is recovered, with or without the vicinity; the vicinity form of the name keeps X and the relation and does not change when formed again; names that do not begin so are refused and all others accepted. Renaming a diagnostic replaces X and names the threshold coordinate after the new diagnostic without vicinity; exactly the cell methods whose single comment mentions the diagnostic are changed, and only in their comment.", "quantifier": "all diagnostic names in which none of the conventional parts occurs, all relations and vicinities, all lists of cell methods", "why_tests_cant": "The names are extracted with a lazy regular expression; that it stops at the right place is a statement about all texts.", "anchors": ["improver/metadata/probabilistic.py:probability_cube_name_regex", "improver/metadata/probabilistic.py:in_vicinity_name_format", "improver/metadata/probabilistic.py:get_threshold_coord_name_from_probability_name", "improver/metadata/probabilistic.py:get_diagnostic_cube_name_from_probability_name", "improver/metadata/amend.py:update_diagnostic_name", "improver/metadata/probabilistic.py:format_cell_methods_for_probability"]}
{"id": "C80", "title": "Forecast periods", "statement": "A forecast period that is there is taken as it is unless recalculation is asked for; otherwise it is, point by point and for the bounds, the time since the forecast reference time (or the blend time), in whole seconds; two different reference times are refused, and so are a cube without a time or a reference time and one that is not of the standard types and units. Rounding to integers changes a number by at most a half and keeps integers.", "quantifier": "all cubes, all numbers of times with or without bounds, all reference times", "why_tests_cant": "They range over all times and bounds, and the deviations show only for several reference times, for large numbers and for mixed units.", "anchors": ["improver/metadata/forecast_times.py:forecast_period_coord", "improver/metadata/forecast_times.py:_calculate_forecast_period", "improver/utilities/round.py:round_close"]}
{"id": "C81", "title": "A common cycle", "statement": "Rebadging several forecasts puts them all on the latest of their reference times (or on the one given): validity times, data and all other coordinates stay, the reference time becomes the cycle, and the forecast period is measured from it with its bounds; the order of the cubes is kept, a single cube without given cycle is left as it is, and rebadging again changes nothing.", "quantifier": "all lists of cubes in any order, all reference times in any units, all validity times", "why_tests_cant": "Idempotence and preservation are statements about all lists of cubes and all times.", "anchors": ["improver/metadata/forecast_times.py:rebadge_forecasts_as_latest_cycle", "improver/metadata/forecast_times.py:unify_cycletime", "improver/metadata/forecast_times.py:_find_latest_cycletime", "improver/metadata/forecast_times.py:_create_frt_type_coord"]}
{"id": "C82", "title": "Standard types and units", "statement": "check_mandatory_standards passes exactly the cubes whose times are 64-bit integers counting seconds since 1970, whose lengths of time are 32-bit integers of seconds, whose other floating-point data are float32, and whose bounds have the type of their points; anything else is a ValueError. enforce_dtype refuses exactly floating-point results other than float32.", "quantifier": "all cubes with any coordinates of any types and units", "why_tests_cant": "The equivalence ranges over all combinations of types, bounds and units of all coordinates.", "anchors": ["improver/metadata/check_datatypes.py:check_mandatory_standards", "improver/metadata/check_datatypes.py:check_dtype", "improver/metadata/check_datatypes.py:check_units", "improver/metadata/check_datatypes.py:enforce_dtype", "improver/metadata/constants/time_types.py:TIME_COORDS"]}
{"id": "C83", "title": "Mean wind direction", "statement": "At every point where the average of the members' unit vectors is at least 0.01 long, WindDirection gives the one direction in [0, 360) in which that average points: the common direction if all agree, within w degrees of any direction from which all members are at most w (w at most 60) away, independent of the order of the members, and turning with them. Elsewhere, and only there, it gives the value of realization 0 unchanged (first_realization; AttributeError if there is none) or the direction of the average of the smoothed vectors (neighbourhood). Each slice of a cube gets its own mean at its time; an instance used twice mixes in or rejects the slices of earlier calls.", "quantifier": "all ensembles of any size and directions, all fields, all numbers of slices and all histories of calls on an instance", "why_tests_cant": "The circular mean is determined for every combination of real directions; tests cover a few round numbers, and one call per instance.", "anchors": ["improver/wind_calculations/wind_direction.py:WindDirection", "improver/utilities/complex_conversion.py:deg_to_complex", "improver/utilities/complex_conversion.py:complex_to_deg"]}
{"id": "C84", "title": "Wind components", "statement": "ResolveWindComponents gives components whose speed is the given speed and which point along the given direction (from true north, corrected by the angle of the grid), away from it if the direction is named wind_from_direction; speed and direction can be recovered from them. The cube of directions is changed in place, so that a second call with the same cubes gives another answer.", "quantifier": "all speeds, directions and grid angles", "why_tests_cant": "The identities range over all real angles, and the aliasing shows only in a second call.", "anchors": ["improver/wind_calculations/wind_components.py:ResolveWindComponents.resolve_wind_components"]}
{"id": "C85", "title": "Nested commands on the command line", "statement": "Arguments with [ and ] are read as nested lists exactly when every ] closes an earlier [ and all are closed; writing the lists back gives the arguments, so there is only one reading; otherwise a ValueError names the first bad position and no command is run. Each bracketed command is run exactly once, after those inside it and to its left, and its result takes its place: the outer command receives the very object, while text and paths are loaded as files. If a command fails nothing runs after it. A dry run runs nothing. An output file is written exactly when a name is given and the result is true, and then the outer command receives the object (pass-through) or None.", "quantifier": "all argument lists with any nesting, all commands (with any effects and exceptions)", "why_tests_cant": "Nesting depth and failing position are unbounded, and the order of effects is a property of every execution.", "anchors": ["improver/cli/__init__.py:unbracket", "improver/cli/__init__.py:execute_command", "improver/cli/__init__.py:main", "improver/cli/__init__.py:maybe_coerce_with", "improver/cli/__init__.py:with_output", "improver/cli/__init__.py:ObjectAsStr"]}
{"id": "C86", "title": "Size of hail stones from the tables", "statement": "HailSize gives the entry of the first table at the nearest row and column (the last ones beyond the table), reduced by the second table according to the band of the height of freezing; sizes lie between 0 and 120 mm, never decrease with either temperature difference, never exceed the unreduced size and, from 3350 m on, never increase with the height; there is none from 4400 m on, where an input is masked or where the condensation level is below 268.15 K. Refuted: that sizes are unchanged below 3350 m (from 3300 m to 3350 m all hail is removed) and that a negative difference gives none (from -0.25 K on it can give 5 mm).", "quantifier": "all temperatures and heights, masked or not", "why_tests_cant": "Monotonicity and the bands range over all real inputs; tests sample a few cells of the tables.", "anchors": ["improver/psychrometric_calculations/hail_size.py:HailSize.get_hail_size", "improver/psychrometric_calculations/hail_size.py:HailSize.updated_hail_size", "improver/psychrometric_calculations/hail_size.py:HailSize.hail_size_data", "improver/psychrometric_calculations/hail_size.py:HailSize.nomogram_values"]}
{"id": "C87", "title": "Gradients and orographic smoothing coefficients", "statement": "Gradients between adjacent grid squares are differences over distances: a plane with increasing coordinates has its slope everywhere, on a sphere the gradient times the signed distance is the difference and a circular axis is closed. OrographicSmoothingCoefficients refuses limits outside [0,0.5]; the coefficients lie between the limits, the flattest pairs of cells getting one and the steepest the other, on one scale for both directions, ordered by steepness (linear for power 1); a mask of zeros and ones zeroes exactly the pairs with a masked cell (inverted: unmasked; boundary: different) and a mask on another grid is refused; the recursive filter accepts the result. Refuted: the sign for decreasing coordinates on a plane, a number where all pairs are equally steep (all NaN), masks on circular grids (IndexError), inverted boolean masks (all zero).", "quantifier": "all surfaces, grid sizes, limits, increasing power functions and masks", "why_tests_cant": "Order, range and sign must hold for every orography and grid; tests use one or two small fields.", "anchors": ["improver/generate_ancillaries/generate_orographic_smoothing_coefficients.py:OrographicSmoothingCoefficients", "improver/utilities/spatial.py:GradientBetweenAdjacentGridSquares", "improver/utilities/spatial.py:DifferenceBetweenAdjacentGridSquares", "improver/utilities/spatial.py:DistanceBetweenGridSquares"]}
{"id": "C88", "title": "Texture of a field of zeros and ones", "statement": "For fields of zeros and ones FieldTexture computes, where the field is 1, the number of neighbours with 0 of the cells with 1 in the window relative to four times the number of those cells, and 1 where the field is 0; the ratio lies in [0,1], is 0 inside an area of ones and 1 where no two cells with 1 touch; the result is the share of the realizations whose ratio exceeds the threshold; other values raise ValueError. Refuted: that a lone cell has ratio 1 (at the edge of the domain it has less).", "quantifier": "all grids, radii, thresholds, numbers of realizations", "why_tests_cant": "It ranges over all fields of zeros and ones of all sizes and windows of all radii.", "anchors": ["improver/utilities/textural.py:FieldTexture._calculate_ratio", "improver/utilities/textural.py:FieldTexture._calculate_transitions", "improver/utilities/textural.py:FieldTexture.process"]}
{"id": "C89", "title": "Temperature at the top of convective cloud", "statement": "At each point, independently of the others, CloudTopTemperature gives the temperature of the parcel at the last level (in the order of the cube) before the first level above the cloud base where the parcel is colder than its surroundings, and masks it if there is no base or if it is less than 4 K below the temperature of the base; levels above the stopping level do not matter; a parcel stopped at the first level above the base makes no cloud. Refuted: that the order of the levels does not matter.", "quantifier": "all profiles, numbers of levels and points, parcel ascents", "why_tests_cant": "It ranges over all profiles and over all combinations of points that end the loop at different levels.", "anchors": ["improver/psychrometric_calculations/cloud_top_temperature.py:CloudTopTemperature._calculate_cct"]}
{"id": "C90", "title": "Thresholds depending on the latitude, lightning from CAPE and precipitation", "statement": "LatitudeDependentThreshold compares each row with the threshold of its latitude, keeps masks and refuses NaN. For lightning the threshold is the mid-latitude value beyond 50 degrees, the tropical value within 10 degrees of the equator, linear in between and the same in both hemispheres. LightningFromCapePrecip gives 1 exactly where CAPE and precipitation both exceed their thresholds, 0 elsewhere and masked exactly where an input is masked; it accepts exactly CAPE valid at the beginning of a period of one or three hours of the same forecast on the same grid. Refuted: independence of the order of the dimensions.", "quantifier": "all latitudes, fields, masks and pairs of inputs", "why_tests_cant": "The threshold is a function of a continuous variable and the fields are arbitrary.", "anchors": ["improver/threshold.py:LatitudeDependentThreshold.process", "improver/lightning.py:LightningFromCapePrecip", "improver/lightning.py:latitude_to_threshold"]}
{"id": "C91", "title": "Multivariate probability of lightning", "statement": "For non-negative CAPE, water and precipitation and non-positive inhibition, LightningMultivariateProbability_USAF2024 gives the documented regression reduced for little water and limited to 95 %, always a number between 0 and 0.95, 0 without water, never decreasing with CAPE above zero and never increasing with inhibition; it accepts exactly five inputs with the right names and units, valid at the beginning of a period of three hours, of one forecast and grid. Refuted: monotonicity down to no CAPE, and a result for positive inhibition.", "quantifier": "all real values of the five variables, all lists of inputs", "why_tests_cant": "Bounds of logarithmic regressions over all real inputs cannot be sampled.", "anchors": ["improver/lightning.py:LightningMultivariateProbability_USAF2024"]}
{"id": "C92", "title": "Visibility combined with the cloud base at ground level", "statement": "VisibilityCombineCloudBase accepts exactly one visibility and one cloud base probability cube in either order; for every point and threshold the probability of a visibility below it becomes the larger of that given and the cloud base times a share that is the initial value at 0, 1 from the first unscaled threshold on and never falls between (for above-threshold cubes the complement). Probabilities stay probabilities, poor visibility never becomes less likely, monotonicity in the threshold is kept and the complement of the visibility cube gives the complement. Refuted: a cloud base cube of above-threshold probabilities is inverted; an initial value outside 0 to 1 is refused.", "quantifier": "all pairs of cubes with any number of points and thresholds, all scaling values, all first unscaled thresholds", "why_tests_cant": "Tests use a few thresholds and values; that the combination stays monotone and within 0 to 1 concerns all of them.", "anchors": ["improver/visibility/visibility_combine_cloud_base.py:VisibilityCombineCloudBase"]}
{"id": "C93", "title": "Feels like temperature", "statement": "calculate_feels_like_temperature gives the wind chill index (with the wind at least at walking speed) up to 10 degrees Celsius, Steadman's apparent temperature from 20 on and between a mixture that meets both at its ends and lies between them, in the units of the temperature given. More wind never feels warmer, more humidity never colder; up to 10 degrees it always feels colder than it is, and colder for lower temperatures; wind below walking speed makes no difference there. Refuted: that warmer air always feels warmer (in a gale between 10 and 20 degrees it may not).", "quantifier": "all real temperatures, winds, humidities and pressures, any non-negative saturation vapour pressure function", "why_tests_cant": "Monotonicity and inequalities over all real inputs, with a power of 0.16, cannot be established by samples.", "anchors": ["improver/feels_like_temperature.py:calculate_feels_like_temperature"]}
{"id": "C94", "title": "Standardising metadata meets the standards and changes nothing else", "statement": "Whenever StandardiseMetadata returns a cube, that cube and all its coordinates pass check_mandatory_standards, and standardising it again with no options returns an equal cube. Dimensions of one point other than realizations become scalar coordinates, other dimensions keep length and order and every value stays where it was (in the requested units). Status-flagged values become NaN and the flag coordinate is gone. Times and periods are the same moments and lengths, exactly when they are whole seconds (and fit the type) and otherwise to half a second. Coordinates to be removed are gone, all others stay; a value given for a scalar coordinate is a single one, never for a time, and is what the coordinate has afterwards. Of the cell methods only point-in-time goes.", "quantifier": "for every cube (any dimensions, coordinates, units, types, flags, cell methods) and every set of options", "why_tests_cant": "tests standardise a handful of cubes; the guarantee is over all shapes, units and combinations of options, and idempotence is a property of every output", "anchors": ["improver/standardise.py:StandardiseMetadata"]}
{"id": "C95", "title": "Checks of coordinates, lists of cubes and masks", "statement": "However cubes are nested in lists and arguments, as_cubelist gives all of them from left to right, with a TypeError exactly if something else is among them and a ValueError exactly if there are none. check_cube_coordinates moves no value: the result has the dimensions of the new cube (scalar coordinates that are dimensions of the cube becoming dimensions of one), those shared with the cube in its order, exceptions at their places if named in that order. assert_time_coords_valid accepts exactly two or more cubes with bounds as asked at equal times and (unless the first is blended) equal reference times. apply_mask returns the cube that is not the mask, masked at a position exactly if it was or if the mask (inverted if asked) is set at the same coordinates, whatever the order of the dimensions and of the cubes, and refuses other numbers of cubes, missing or ambiguous masks and different dimensions.", "quantifier": "for every nesting of arguments, every set and order of dimensions, every cube and mask", "why_tests_cant": "tests use two or three dimension orders and one nesting; positions must agree for every order and shape", "anchors": ["improver/utilities/common_input_handle.py:as_cubelist", "improver/utilities/flatten.py:flatten", "improver/utilities/cube_checker.py:check_cube_coordinates", "improver/utilities/cube_checker.py:find_dimension_coordinate_mismatch", "improver/utilities/cube_checker.py:assert_time_coords_valid", "improver/utilities/mask.py:apply_mask"]}
{"id": "C96", "title": "Time-lagged ensembles, labels of periods and integrals over time", "statement": "The time-lagged ensemble of two or more cubes has every member of every cube exactly once, in the order of realization numbers that all differ: the original numbers if none is used twice, otherwise 0, 1, 2, ... in the order of the cubes. Relabelling to a period of h >= 1 hours puts bounds from h hours before to the point on a single time and forecast period, whatever bounds were there. Integrating a rate over time multiplies every value by the seconds between the bounds of its own time, orders the times, and replaces the cell methods over time by a sum over time.", "quantifier": "for every list of ensembles, every period and every cube of rates with any number of times in any unit of time", "why_tests_cant": "tests lag two or three small cubes; that no member is lost or doubled must hold for every pattern of repeated numbers", "anchors": ["improver/utilities/time_lagging.py:GenerateTimeLaggedEnsemble", "improver/utilities/temporal.py:relabel_to_period", "improver/utilities/temporal.py:integrate_time"]}
{"id": "C97", "title": "Rainforest calibration gives monotone probabilities from the nearest lead time's trees", "statement": "For any decision trees, whatever they predict, the rainforest calibration returns one probability in [0,1] per threshold asked for, never larger for a higher threshold when thresholds ascend. The predictions are clipped and made non-increasing by the change that is smallest in the worst case; already non-increasing ones stay. Between the model's thresholds, and between the lower bound (probability 1) and the first, probabilities are interpolated linearly and averaged over the realizations; the first threshold has probability 1 if it is the lower bound. The trees are those of the nearest lead time, the shorter of two equally near ones, with features in alphabetical order whatever the order given, variables without realizations counting for all of them. The order of the configuration does not matter; all lead times must have the same thresholds. A wrong number of features, repeated names, other dimensions or thresholds out of order are refused. Binning the data does not change the result. [Refuted: values equal to a split get another point's prediction with bin_data; thresholds in descending order all get one probability; with rates in m s-1 numpy's tolerance of 1e-8 makes 0.03 mm/h certain and takes 0.08 for 0.1 mm/h; realizations of a feature of the forecast's own name are not compared.]", "quantifier": "every set of trees, lead time, configuration order, list of features, realizations, points and output thresholds", "why_tests_cant": "the tests use a few small trained models and fixed thresholds, none with a value on a split, descending thresholds or tiny units; monotonicity and equality of the binned result must hold for all trees and data", "anchors": ["improver/calibration/rainforest_calibration.py:ApplyRainForestsCalibrationLightGBM", "improver/calibration/rainforest_calibration.py:_make_decreasing", "improver/calibration/rainforest_calibration.py:_evaluate_probabilities", "improver/calibration/rainforest_calibration.py:_get_ensemble_distributions"]}
{"id": "C98", "title": "Rescaling by the difference in altitude removes an exponential altitude error", "statement": "The scale factor estimated from historic forecasts and truths is the slope of the least squares line of the log ratio against the altitude difference, using only points with nonzero forecast and truth and a difference within bounds. If forecasts are everywhere c exp(k dz) times the truth, the estimated scaling of a site is exp(-k dz), dz taken to the nearest bound, and the rescaled forecast is c times the truth. Sites need not be the same in the three cubes: those they share are used, each with its own altitude difference, if listed in the same order. The estimate is filed under its forecast period and the hour of its reference time. When applied, sites must agree in order; the shortest forecast period at least as long as the forecast's is used, the last if none; and the hour of the reference time nearest to the forecast's within the leniency, the earlier of two, modulo 24; otherwise it is refused. Every value is multiplied by its site's scaling. [Refuted: sites in another order silently change the scale factor; a scale factor of exactly 0 with a missing bound makes all scalings NaN.]", "quantifier": "all real forecasts, truths and altitude differences, sites, bounds, leniencies, periods and hours", "why_tests_cant": "unit tests fit a handful of constructed values; optimality of the fit, the clipping for every sign of the factor and the choice of hour modulo 24 need all inputs", "anchors": ["improver/calibration/dz_rescaling.py:EstimateDzRescaling", "improver/calibration/dz_rescaling.py:ApplyDzRescaling"]}
{"id": "C99", "title": "Weighting and blending in one call gives the weighted mean of what was passed, and only of inputs with weight", "statement": "WeightAndBlend, for every list of inputs and each of its three ways of weighting (configuration, linear, non-linear), returns at each point the mean of the inputs not masked there, weighted in the proportions the configuration, line or power gives for the input's model, blend point or position; the weights are non-negative and add up to one. The value lies between those of the inputs with weight; the data of an input without weight have no effect; one input, or one input left with weight, is returned unchanged. The order of the inputs does not matter over a coordinate, nor over models with a configuration (over models with the linear and non-linear weights it does). An instance gives the same result when called again. Unknown models, missing or repeated model attributes, repeated points and differing validity times are refused. With spatially varying weights values stay between those of the inputs; percentiles stay in order and within the range of the inputs.", "quantifier": "all numbers of inputs, values, masks, weights configurations, lead times, models, orders and sequences of calls", "why_tests_cant": "the property ranges over every configuration, ordering and mask pattern; tests use two or three inputs in one order", "anchors": ["improver/blending/calculate_weights_and_blend.py:WeightAndBlend", "improver/blending/weighted_blend.py:MergeCubesForWeightedBlending", "improver/blending/weights.py"]}
{"id": "C100", "title": "Triangular blending across adjacent points uses the points within the width, around one that must exist", "statement": "TriangularWeightedBlendAcrossAdjacentPoints works exactly if one of the points is the central one and the width, in the coordinate's units, is positive. It returns the metadata of the slice at the central point and at each grid point the mean of the slices with weights falling linearly from one at the central point to zero at the width: slices at least the width away have no effect, the result lies between the values of those nearer and is masked only if all of those are. With none of those around within the width the central slice is returned. The order of the slices does not matter. Percentiles come out in order and within the range of the slices.", "quantifier": "all numbers and positions of points, central points, widths, units, values and masks", "why_tests_cant": "the weights depend on every combination of positions, width and units", "anchors": ["improver/blending/blend_across_adjacent_points.py:TriangularWeightedBlendAcrossAdjacentPoints", "improver/blending/weights.py:ChooseDefaultWeightsTriangular"]}
{"id": "C101", "title": "Tables of past forecasts and truths become cubes holding exactly the rows about the same sites, times and percentiles", "statement": "forecast_and_truth_dataframes_to_cubes, for every pair of tables about one diagnostic: the training dates are exactly the n times before the cycle time that have the hour of the forecast. If cubes are made, the forecast and the truth cube have the same sites, in order of their identifiers, each once: those in both tables with a forecast at a time that both have. Their times are the training dates that both tables have. Each forecast value is that of the last row about that site, time and percentile or realization (of the experiment, period and percentiles asked for), missing if there is none, and likewise each truth. The order of the rows does not matter to the values when no row is given twice. No cube comes out only if there is no common training date. Realizations of one experiment at sites which do not move always give cubes, with each site in its place. Not true: that the dates are at least a day before the cycle; that a site that moved is always put right; that the most recent position is used; that missing positions are filled from the same site; that the order of the rows is irrelevant to acceptance.", "quantifier": "all forecast and truth tables (rows, order, duplicates, gaps, missing columns), cycle times, forecast periods, training lengths, percentiles and experiments", "why_tests_cant": "the pairing of forecasts with truths depends on the combination of gaps, duplicates and orders in two tables; tests try a few tables", "anchors": ["improver/calibration/dataframe_utilities.py: forecast_and_truth_dataframes_to_cubes, forecast_dataframe_to_cube, truth_dataframe_to_cube, _prepare_dataframes, _training_dates_for_calibration, _drop_duplicates, _quantile_check, _fill_missing_entries, _ensure_consistent_static_cols"]}
{"id": "C102", "title": "Downscaled winds follow the logarithmic profile below the reference height, keep the winds aloft, and respond to the orography in the right direction and measure", "statement": "RoughnessCorrection, at every point and for every column of winds: winds at other heights are interpolated linearly between levels and in proportion to height below the lowest; the scale of the hills lies between those of the two grids, the reference height is at least a metre and at most twice the amplitude of the hills and the inverse wavenumber; results are never negative and one for each level; over the sea and where ancillaries are unknown the winds are unchanged; at and above the reference height over level ground they are unchanged; below it they are U ln(h/z0)/ln(H/z0), rising from calm at z0 to U at H; the higher the grid's orography the stronger the wind, the effect being at most U(1/k) k |dz| exp(-kh); an unknown orography counts as level; scaling the winds scales the results; each time is handled alone; negative winds are refused. Not true: that a second call gives the same (where the roughness length was not positive); that wind rises with height when z0 exceeds the reference height.", "quantifier": "all ancillaries, grid resolutions, columns of levels and winds, lists of times", "why_tests_cant": "profiles and ancillaries are continuous quantities; tests use a handful of grids", "anchors": ["improver/wind_calculations/wind_downscaling.py: RoughnessCorrection.process, RoughnessCorrectionUtilities, FrictionVelocity"]}
{"id": "C103", "title": "Optical flow finds the motion that best explains the change, exactly for patterns of second degree, and never more than a third of the rows of boxes", "statement": "OpticalFlow and generate_optical_flow_components, for all pairs of fields: in each box with structure in two directions the displacement found has the least mismatch of all displacements, in the others it is zero; a pattern of second degree moving by (u, v) (fractions of squares included) satisfies the flow equation at every point, edges included, and is found to move by exactly (u, v) everywhere, after smoothing, whatever the rain weights and iterations; exchanging the fields reverses the motion; equal fields and dry fields do not move; no speed exceeds a third of the number of rows of boxes in grid lengths over the time between the fields; boxes without rain do not influence those with rain in the smoothing, which keep within the displacements of rainy boxes; the smoothing radius lies between 3 squares and the box size; fields of other names, other grids or in the wrong order are refused; the list of fields may be in any order. Not true: that motion up to a third of the domain is kept (the limit counts boxes, not points); that rows and columns are treated alike.", "quantifier": "all fields, shapes, box sizes, weights, iteration counts, displacements, times and orders of fields", "why_tests_cant": "the result depends on the whole of two fields and on many iterations of smoothing; tests use small arrays and tolerances", "anchors": ["improver/nowcasting/optical_flow.py: OpticalFlow, generate_optical_flow_components"]}
{"id": "C104", "title": "Orographic enhancement is a distance-weighted mean of the upwind point values and vanishes where air does not rise", "statement": "OrographicEnhancement computes a point value that is zero unless the mean height of the 3x3 neighbourhood is at least 20 m, the humidity at least 0.8 and the uplift at least 0.0005 m/s in size, and never negative; it is zero where the air descends. The enhancement of a point is 0.23265 times a weighted mean of the point values at the point itself and at points of the domain upwind of it less than 15 km away, the weight being greatest at the point and falling with distance; hence it lies between the scaled smallest and largest of those values, does not decrease if the point values increase, and is unaffected by values elsewhere. Over a uniform slope with uniform fields it is the closed formula at every point, edges included. Without wind it is zero. (On a grid coarser than 15 km the result with wind is not a number.)", "quantifier": "every grid size and spacing up to 10 km, every orography, wind, temperature, pressure and humidity field, every saturation vapour pressure function and every point", "why_tests_cant": "the unit tests use a few small fields; domain edges, wind directions and distances are unboundedly many", "anchors": ["improver/orographic_enhancement.py:OrographicEnhancement._orography_gradients", "improver/orographic_enhancement.py:OrographicEnhancement._point_orogenh", "improver/orographic_enhancement.py:OrographicEnhancement._locate_source_points", "improver/orographic_enhancement.py:OrographicEnhancement._add_upstream_component"]}
{"id": "C105", "title": "The wet bulb temperature of a point depends on that point alone and solves the enthalpy balance to the precision", "statement": "WetBulbTemperature works on whole arrays with shrinking selections of points, but the value at each point equals what iterating from the temperature at that point alone gives: increments are added until the next is at most the precision, at most twenty times. So either the enthalpy at the result differs from that of the air by at most the precision times the gradient, or twenty increments were made. Saturated air keeps its temperature; where the enthalpy grows no faster than the gradient the result lies between the exact solution and the air temperature. Cubes on levels are treated level by level; level coordinates of different names, or on only some of the cubes, are refused (the values of the levels are not compared).", "quantifier": "every array length, every temperature, humidity and pressure, every saturated humidity function, every precision, every number of levels", "why_tests_cant": "the selections shrink differently for every combination of inputs; tests use arrays of a few points", "anchors": ["improver/psychrometric_calculations/wet_bulb_temperature.py:WetBulbTemperature._calculate_wet_bulb_temperature", "improver/psychrometric_calculations/wet_bulb_temperature.py:WetBulbTemperature._slice_inputs"]}
{"id": "C106", "title": "Saturation vapour pressure grows with temperature, humidity is between 0 and 1, adiabats compose, and latent heat is conserved", "statement": "The Goff-Gratch vapour pressure is positive and strictly increasing in temperature (to 1000 K), continuous at the triple point; the table lookup never leaves the table whatever the temperature, lies between the values at the ends of its tenth of a degree, is exact at them, never decreases and is constant outside 183.15-338.15 K. The saturated humidity is in (0,1], 1 exactly where the vapour pressure reaches the pressure, falls with pressure and above freezing rises with temperature; the mixing ratio is between 0 and it. Dry adiabatic temperatures do not depend on the path, the pressure and temperature functions are inverse, rising air cools. Adjusting for latent heat never cools or moistens and the warming is exactly the latent heat of the water lost, whatever the solver returns. (The last tenth of a degree of the table is unused; below the table colder air gets a higher vapour pressure.)", "quantifier": "every temperature, pressure, humidity and solver result", "why_tests_cant": "they are inequalities and identities over all real inputs", "anchors": ["improver/generate_ancillaries/generate_svp_table.py:SaturatedVapourPressureTable", "improver/psychrometric_calculations/psychrometric_calculations.py:calculate_svp_in_air", "improver/psychrometric_calculations/psychrometric_calculations.py:saturated_humidity", "improver/psychrometric_calculations/psychrometric_calculations.py:dry_adiabatic_temperature", "improver/psychrometric_calculations/psychrometric_calculations.py:adjust_for_latent_heat", "improver/psychrometric_calculations/cloud_condensation_level.py:CloudCondensationLevel"]}
{"id": "C107", "title": "Gust diagnostic, vertical updraught and ultraviolet index give exactly their documented combinations and refuse inputs that do not belong together", "statement": "WindGustDiagnostic gives at every time and point the larger of the gust percentile and the wind speed percentile asked for; a missing percentile, different percentile coordinates, or times that do not match (equal as far as both lists go, or the wind speed times within the gust bounds) are refused. VerticalUpdraught is never negative, is the sum of a CAPE part (nothing below 10 J/kg) and a precipitation part (nothing below 5 mm/h), does not decrease in either, and is made exactly when the CAPE is instantaneous at the start of the precipitation period of the same forecast. calculate_uv_index accepts exactly fluxes of the right name that are numbers and not negative and scales each. (Gusts at several times are accepted with wind speeds at the first of them.)", "quantifier": "every field, percentile list, time list and bounds", "why_tests_cant": "tests use single fields and a few time combinations; the comparison of time lists of different lengths is not tested", "anchors": ["improver/wind_calculations/wind_gust_diagnostic.py:WindGustDiagnostic.process", "improver/wind_calculations/vertical_updraught.py:VerticalUpdraught", "improver/uv_index.py:calculate_uv_index"]}
{"id": "C108", "title": "The record of contributing model runs states each run and its weight", "statement": "A record_run attribute reads back as the runs and weights it was written from; updating it by a weight leaves the runs as they are and scales each weight to within half a thousandth; the total of the recorded weights after a blend differs from one by at most half a thousandth per run; each slice is scaled by the weight of its own point; a cube with a record keeps it and one without gets its model identifier, cycle and weight 1; a combined record joins the records of the cubes in order of their source attribute. The recorded weights need not add up to exactly one and a contributing run may be recorded with weight zero.", "quantifier": "every list of runs with every weight, every number of cubes and slices, every non-negative weight", "why_tests_cant": "the accumulated rounding depends on every weight and on the number of contributing runs; parsing must invert printing for every run name", "anchors": ["improver/blending/utilities.py:store_record_run_as_coord", "improver/blending/utilities.py:update_record_run_weights", "improver/blending/utilities.py:record_run_coord_to_attr"]}
{"id": "C109", "title": "A blend carries the metadata of one cycle, names its models and has the mandatory attributes", "statement": "After a blend over cycles or models the blend time and the forecast reference time are the cycle time, without bounds, a forecast period is measured from it, and time, data and everything else are as they were; without a cycle time it is refused. A blend over anything else leaves the times alone. A model blend names the contributing models, sorted, in the model attribute; exactly the named coordinates are removed (those along the blend dimension that are not times); the mandatory attributes are there afterwards and attributes not asked to change are kept.", "quantifier": "every cube, cycle time, list of models, coordinate list and attribute dictionary", "why_tests_cant": "tests use a few fixed cubes; the claim is over every combination of time coordinates, units, model lists and attributes", "anchors": ["improver/blending/utilities.py:update_blended_metadata", "improver/blending/utilities.py:_set_blended_time_coords", "improver/blending/utilities.py:get_coords_to_remove", "improver/blending/utilities.py:find_blend_dim_coord"]}
{"id": "C110", "title": "improver compare is silent exactly when two files agree", "statement": "compare_netcdfs reports nothing (and does not raise) if and only if the files have the same groups, dimensions and sizes, the same variables outside the excluded ones with the same types, equal attributes outside the ignored ones, data within atol + rtol*|desired| of each other (special values in the same places), and exactly equal coordinate variables. A file agrees with itself when no attribute is NaN; wider tolerances never find more; with zero tolerance the comparison is symmetric. (It is not symmetric in general; a file with a NaN attribute differs from itself; dimension names of variables are not compared, nor shapes when one is a scalar.)", "quantifier": "every pair of files with any nesting of groups, every tolerance, exclusion and ignore list", "why_tests_cant": "completeness (no difference is missed) is over all pairs of files of any nesting", "anchors": ["improver/utilities/compare.py:compare_netcdfs", "improver/utilities/compare.py:compare_datasets", "improver/utilities/compare.py:compare_vars", "improver/utilities/compare.py:compare_attributes", "improver/utilities/compare.py:compare_data", "improver/cli/compare.py:process"]}
{"id": "C111", "title": "Saving a file is atomic at every crash point and under every interleaving of savers of different files", "statement": "At any moment, wherever a save (or any number of concurrent saves to different files) stops, each target file is exactly what it was before or exactly the complete new contents; it is complete once the save has finished; no other file except its own temporary file is touched; a later save succeeds whatever a crashed one left behind. Nothing is written unless every cube meets the metadata standards and has known units; saved cubes have ordered cell methods and no least_significant_digit attribute. (Two savers of the same file share one temporary file and can leave neither version; attributes of cubes before a refused one are changed; chunk sizes are decided by the leading, not the horizontal, dimensions.)", "quantifier": "every crash point, every schedule of any number of processes, every initial file system without hard links, every list of cubes", "why_tests_cant": "crash points and interleavings cannot be enumerated by unit tests", "anchors": ["improver/utilities/save.py:save_netcdf", "improver/utilities/save.py:_order_cell_methods", "improver/utilities/save.py:_check_metadata"]}
{"id": "C112", "title": "The day-night mask says where the sun is up", "statement": "calc_solar_elevation gives the sine of the sun's elevation as the scalar product of the place and the point under the sun; it is between -90 and 90 degrees, greatest (90 - |lat - declination|) at solar noon and least at midnight, and does not change by going round the globe. DayNightMask marks a cell as day exactly where the sun is above the horizon at the time (or the middle of the time's bounds), by the terminator on latitude-longitude grids and at sites and by the elevation on other grids, for all latitudes including the poles, all days 0 to 365 and all hours; days, hours and latitudes out of range raise ValueError; get_hour_of_day is the time to the nearest minute in [0, 24]. The mask does not depend on what the plugin processed before.", "quantifier": "all latitudes, longitudes, days of year, times, grids, lists of times with and without bounds, histories of one plugin instance", "why_tests_cant": "The agreement of the terminator with the elevation is an identity over all real latitudes and hour angles; the dependence on the first period and on earlier cubes only shows for particular cubes and histories.", "anchors": ["improver/utilities/solar.py:calc_solar_elevation", "improver/utilities/solar.py:daynight_terminator", "improver/utilities/solar.py:DayNightMask", "improver/utilities/solar.py:get_hour_of_day", "improver/utilities/solar.py:calc_solar_time"]}
{"id": "C113", "title": "Clear-sky radiation is the integral of a bounded irradiance over the period", "statement": "GenerateClearskySolarRadiation evaluates irradiance at equally spaced times from the start of the accumulation period to its end (ValueError unless the spacing divides the period) and integrates it by the trapezium rule; irradiance is never negative nor more than outside the atmosphere, zero exactly when the sun is not up, and does not increase with turbidity; radiation is between 0 and the sun's output over the period, zero in the polar night, and adds up over successive periods; the result has the period's bounds and its end as time; altitude or turbidity on another grid raise ValueError.", "quantifier": "all grids, altitudes above -17 km, turbidities, times, periods and spacings", "why_tests_cant": "Bounds, monotonicity and additivity are about all real inputs and all period lengths.", "anchors": ["improver/generate_ancillaries/generate_derived_solar_fields.py:GenerateClearskySolarRadiation", "improver/generate_ancillaries/generate_derived_solar_fields.py:GenerateSolarTime"]}
{"id": "C114", "title": "pysteps extrapolation nowcasts: lead times, enhancement and masks", "statement": "PystepsExtrapolate(interval, max_lead_time) applied to a rain-rate analysis returns the analysis and one field per multiple of the interval up to the maximum lead time, at exactly those validity times and with one forecast reference time; each field is what pysteps gives for the analysis less its orographic enhancement and for displacements in grid squares per step, with the enhancement nearest to the field's own time (within 30 minutes) added back, in the units of the input, and it is masked exactly where pysteps has no value. The first field is the analysis, up to what the minimum rate takes. Forecast periods agree with times and reference times. A cube that is not a rate, a grid that is not equal-area, a zero interval, or no enhancement within 30 minutes is refused.", "quantifier": "every analysis, advection field, enhancement series, interval, maximum lead time and extrapolator that returns as many fields as it is asked for", "why_tests_cant": "tests use one small analysis and two lead times with an enhancement at each of them; the statement is for every series of times, mask and field", "anchors": ["improver/nowcasting/pysteps_advection.py:PystepsExtrapolate", "improver/nowcasting/utilities.py:ApplyOrographicEnhancement"]}
{"id": "C115", "title": "Percentiles over coordinates", "statement": "PercentileConverter(coordinates, percentiles) (and generate-percentiles with coordinates) gives, for each requested percentile and each index of the remaining dimensions, the linearly interpolated percentile of the unmasked values of exactly the cells that agree with that index, and is masked only where all of them are. The result increases with the percentage, commutes with increasing changes of units, gives the members at their own percentages, does not depend on the order of the members or of the coordinates named, and is the same for the fast and the masked-data method. It is accepted exactly when the names are distinct, each is that of one coordinate, one is on a dimension and no other coordinate is a percentile coordinate (and, with the fast method, nothing is masked and the percentages are within 0 to 100); generate-percentiles never fails because of a mask.", "quantifier": "every cube shape, set of coordinates on any dimensions, mask, list of percentages", "why_tests_cant": "tests collapse fixed small cubes over one or two coordinates and compare with stored numbers; the statement is over all shapes, masks and percentages", "anchors": ["improver/percentile.py:PercentileConverter", "improver/cli/generate_percentiles.py:process"]}
{"id": "C116", "title": "SpotManipulation: sites, percentiles and lapse rates together", "statement": "SpotManipulation applied to a forecast and a neighbour cube: subsetting a spot forecast by an identifier keeps exactly the sites listed in the neighbour cube, in the order of the forecast, and is refused exactly when the identifier is missing or no site is left; the values at a site do not depend on which other sites are present; a gridded forecast gives the same as the spot forecast of the values at the grid points of the sites; lapse rates add to each value the adjustment for the displacement of its site, with a cube of lapse rates taking precedence over a fixed one; percentiles of realizations are those of the unmasked values, percentiles already present are returned as they are, and percentiles from probabilities or resampling never decrease with the percentage.", "quantifier": "all forecasts (gridded or spot; realizations, percentiles, probabilities or single values), neighbour cubes, identifiers, percentages, lapse rates and options", "why_tests_cant": "The plugin chains five others with options that interact; independence of the other sites and monotonicity must hold for every combination of options and values.", "anchors": ["improver/spotdata/spot_manipulation.py:SpotManipulation", "improver/spotdata/spot_extraction.py:SpotExtraction", "improver/spotdata/apply_lapse_rate.py:SpotLapseRateAdjust"]}
{"id": "C117", "title": "The metadata interpreter accepts exactly the cubes that meet the standard", "statement": "MOMetadataInterpreter.run accepts a cube if and only if the cube is one of the intermediate kinds that are not checked, or the interpreter has recorded no error before and the cube meets every rule of the standard (units, name, threshold coordinate and relation of probabilities; percentile coordinate; cell methods; attributes; records of blended models; spot coordinates; time coordinates and their bounds; data types; one realization for deterministic models). The order of coordinates, cell methods and attributes does not matter; an accepted cube can always be displayed and the first line says whether it is spot or gridded and what it holds; the command fails if and only if some cube is not compliant. Refuted: an interpreter can be reused after a refusal; the relation word is tied to the end of the name; the comment is compared in full; every problem is collated rather than raised.", "quantifier": "every cube with uniquely named coordinates and attributes, every previous state of the interpreter, every list of cubes for the command", "why_tests_cant": "the standard is a conjunction of a dozen rules over names, attributes, methods and coordinates; tests try one violation at a time on a few cubes", "anchors": ["improver/developer_tools/metadata_interpreter.py:MOMetadataInterpreter.run", "improver/developer_tools/metadata_interpreter.py:display_interpretation", "improver/cli/interpret_metadata.py:process"]}
{"id": "C118", "title": "Land and sea are neighbourhood processed apart", "statement": "The nbhood_land_and_sea command gives at every point with data the neighbourhood mean (or, with area_sum, the sum) over the points of its window that are of the same surface, land or sea: changing data on the other surface changes nothing there. The mean lies within the range of the data of that surface in the window. With topographic zones the land points get the result of the zones collapsed with the weights and the sea points that of the sea alone. The radius is that for the lead time, or the first one if no lead times are given; one field comes out for each slice. Masks or weights that include sea points, zones without weights, weights without zones, and radii that do not match the lead times are refused. Missing data stay missing if only one surface occurs (where both do they come out as 0).", "quantifier": "every gridded cube, land mask or topographic zones with weights, neighbourhood shape, radius or radii with lead times, mean or sum", "why_tests_cant": "The tests compare one or two fixed fields; that no value leaks from the sea to the land (through the filled zeros of the sum, or the fast path of the neighbourhood code) is a statement about every field and every mask.", "anchors": ["improver/cli/nbhood_land_and_sea.py:process", "improver/nbhood/nbhood.py:NeighbourhoodProcessing", "improver/nbhood/use_nbhood.py:ApplyNeighbourhoodProcessingWithAMask"]}
{"id": "C119", "title": "Realizations generated from percentiles or probabilities, end to end", "statement": "The generate-realizations command gives back a cube that already has realizations, refuses (ValueError) a cube that is neither percentiles nor probabilities, and refuses to guess how many realizations are wanted when neither a number nor a raw ensemble is given. Otherwise it gives exactly as many realizations as asked for (or as the raw ensemble has): with the raw ensemble's own numbers if that many were asked for, else numbered on from its first, else (no raw ensemble) from 0. At each point the values, sorted, are those of the equally spaced percentiles of the forecast; they ascend if there is no raw ensemble, and otherwise no member with a lower raw value has a higher value, the raw members being used again in turn when there are too few; no value lies outside the range of the forecast and the bounds; where one of the equal percentiles is a percentile of the forecast (or a probability of the forecast's distribution), the value of that rank is the forecast's value (threshold); and nothing after the percentiles have been found can fail, whatever the random numbers or seed.", "quantifier": "Every forecast of percentiles or probabilities, every raw ensemble, number of realizations, bounds, seed and draw of random numbers.", "why_tests_cant": "The command composes three plugins, one of them random; tests compare two or three stored results, while the claim is about every sequence of draws, every number of raw members against every number of realizations, and every distribution.", "anchors": ["improver/cli/generate_realizations.py:process", "improver/ensemble_copula_coupling/ensemble_copula_coupling.py:ResamplePercentiles", "improver/ensemble_copula_coupling/ensemble_copula_coupling.py:ConvertProbabilitiesToPercentiles", "improver/ensemble_copula_coupling/ensemble_copula_coupling.py:EnsembleReordering", "improver/ensemble_copula_coupling/ensemble_copula_coupling.py:RebadgePercentilesAsRealizations"]}
{"id": "C120", "title": "The command that applies EMOS coefficients, when it calibrates and when it does not", "statement": "Given inputs that can be told apart (one forecast, perhaps a template of probabilities, coefficients, static fields, a mask), the command calibrates exactly if there are coefficients and the hour and minute of the forecast's first time are among the HHMM texts given (or none are given); it then hands the calibration exactly these inputs and adds nothing. Otherwise it gives back, with a warning added below any comment: the template, if there is one, or the forecast, unchanged; or, if percentiles are asked for, the forecast at exactly these percentiles, not falling, within the values of the forecast and the bounds, and with the forecast's own values at its own percentiles. A percentile outside 0 to 100, or a text that is not a number, is refused. Without calibration the order of the inputs does not matter. What is given back does not depend on the reason why nothing was calibrated. Every forecast given is used, or refused.", "quantifier": "Every list of input cubes in every order, every list of validity times and percentiles, every calibration plugin, distribution and bounds.", "why_tests_cant": "The fallbacks combine: reason for not calibrating, template, percentiles, type of forecast, order of the inputs; tests run a few of these on stored data and compare to stored results, so they show neither that the result is a function of the set of inputs nor where the promise of the same percentiles fails.", "anchors": ["improver/cli/apply_emos_coefficients.py:process", "improver/calibration/__init__.py:split_forecasts_and_coeffs", "improver/calibration/__init__.py:validity_time_check", "improver/calibration/__init__.py:add_warning_comment", "improver/ensemble_copula_coupling/ensemble_copula_coupling.py:ResamplePercentiles"]}
{"id": "C121", "title": "Forecasts, truths and the land-sea mask are told apart", "statement": "Splitting the inputs of the commands that train calibrations: the cubes of one diagnostic (probabilities of a diagnostic count as that diagnostic, with its vicinity) are truths if they have the value of the attribute given as key=value, and forecasts otherwise, each in the order given; a single cube of another name, among two or more, is the land-sea mask wherever it stands; every cube has exactly one role. No cubes or more than two names give ValueError; two or more cubes of each of two names, and no truths or no forecasts, give IOError; a text without exactly one '=' is never accepted. The order of the inputs does not matter as far as it does not matter to the merging.", "quantifier": "Every list of cubes in every order, every attribute text, every way of merging.", "why_tests_cant": "Which group is the mask is decided by sorting the groups by their size, stably; the tests use three or four cubes in one order, the claim is about every number and order of cubes, including groups of equal size.", "anchors": ["improver/calibration/__init__.py:split_forecasts_and_truth", "improver/metadata/probabilistic.py:get_diagnostic_cube_name_from_probability_name", "improver/cli/estimate_emos_coefficients.py:process"]}
{"id": "C122", "title": "Accumulating a nowcast gives, for each lead time, the time integral of the rates forecast by the minute", "statement": "For an analysis (no forecast period, or one of 0), nowcast_accumulate extrapolates by the minute and returns one total for each multiple of the lead-time interval that is at most the maximum and not shorter than the accumulation period, in order; forecast period and time bounds span exactly the period that ends there; each total is the sum over its minutes of 60 seconds at the mean of the rates at the two ends, in the units asked for, and is missing exactly where one of the rates is. The totals of consecutive periods add up to the total of the whole, and a total lies between the period times the least and the greatest rate. If no whole period ends at a multiple, or the period is 0, it is refused.", "quantifier": "all inputs, extrapolations, velocities, enhancements, maximum lead times, intervals, periods and units", "why_tests_cant": "tests fix one radar field and one set of lead times; that no minute is counted twice or lost, for every period and interval, is a statement about all windows", "anchors": ["improver/cli/nowcast_accumulate.py:process", "improver/nowcasting/accumulation.py:Accumulation", "improver/nowcasting/pysteps_advection.py:PystepsExtrapolate"]}
{"id": "C123", "title": "A spot cube has its sites last and every coordinate on the dimension it describes", "statement": "build_spotdata_cube puts the data in unchanged (a number counts as one site); the dimensions are, in order, the neighbour methods, the grid attributes, the additional dimensions and the sites, each of the two first with a coordinate of names of the same length; the coordinates given for a dimension vary along it; altitude, latitude, longitude, WMO id, unique id and further site coordinates vary along the sites, so when all dimensions of the data are described each has exactly one value per site. A cube is made exactly if names are distinct, every coordinate is as long as its dimension and scalar coordinates have one point; unique ids without the name of their coordinate give ValueError.", "quantifier": "all shapes of data, numbers of sites, methods, attributes, additional dimensions and lists of coordinates", "why_tests_cant": "the number and sizes of the dimensions are free; agreement of every coordinate with its dimension is for all of them", "anchors": ["improver/spotdata/build_spotdata_cube.py:build_spotdata_cube"]}
{"id": "C124", "title": "All neighbour methods together are the four single selections for the same sites", "statement": "neighbour_finding with all methods gives one row for each of nearest, nearest land, least height difference and both, numbered 0 to 3 in this order; each row is what the command gives with those constraints alone, all rows have the same sites with the same altitudes and identifiers, so they can always be merged, and the command succeeds exactly if each single one does (so it is refused on a grid without land). With one method the result is that of the plugin, options that are not given having its defaults. All methods with a constraint, or an unknown coordinate system, give ValueError; options for a coordinate system without one give TypeError.", "quantifier": "all grids, land masks, site lists, coordinate systems, search radii and node limits", "why_tests_cant": "tests compare one small grid; agreement of the merged rows with four separate runs, and that merging cannot fail, is for all sites and grids", "anchors": ["improver/cli/neighbour_finding.py:process", "improver/spotdata/neighbour_finding.py:NeighbourSelection"]}
{"id": "C125", "title": "Blending over cycles and realizations counts every cycle alike", "statement": "blend_cycles_and_realizations accepts at least one cube, each with realizations, of different reference times and one validity time, and nothing else; at every point the result is the mean, over the cycles with an unmasked member there, of the mean of those members; it does not depend on the order of the cubes and lies between the extreme members; with equally many members it is the mean over all members, and otherwise it is not. collapse_realizations gives the named statistic of the unmasked members, in whatever order they come, is masked exactly where too few are unmasked, and refuses other names and cubes without realizations.", "quantifier": "all cubes, numbers of realizations, grids, masks, reference times and orders of the cubes", "why_tests_cant": "Tests blend one set of cubes with equally many members; the weighting of unequal ensembles, masked members and all orders cannot be enumerated.", "anchors": ["improver/cli/blend_cycles_and_realizations.py: process", "improver/utilities/cube_manipulation.py: collapsed, collapse_realizations", "improver/blending/calculate_weights_and_blend.py: WeightAndBlend.process"]}
{"id": "C126", "title": "temporal_interpolate takes its two cubes in either order", "statement": "The temporal_interpolate command gives the same result for its two cubes in either order when they are of different times (when they are not, the second is returned); the times of the result increase from after the earlier cube's to the later cube's and, where times are given, are those and the later cube's; linearly interpolated values lie on the straight line through the two cubes' values, and the last field is the later cube's; contradictory options, unknown methods, unreadable times and period options with other methods than linear are refused whatever the cubes.", "quantifier": "all cubes, options, times, intervals and fields", "why_tests_cant": "The order of arguments, options and times combine without bound; tests try a few with the cubes in one order.", "anchors": ["improver/cli/temporal_interpolate.py: process", "improver/utilities/temporal_interpolation.py: TemporalInterpolation.__init__, process"]}
{"id": "C127", "title": "enforce_consistent_forecasts finds its reference and changes the other cube as little as needed", "statement": "The enforce_consistent_forecasts command takes as reference the one of its two cubes that bears the name given (in either order) and returns the other with each value moved to the nearest one the bounds allow; it succeeds exactly for two cubes of which one bears the name, of equal units and sizes, with one or two values for each argument, operators >= and <= once each, bounds that do not cross and, for probabilities, no transformation; the warning is given exactly where a value moves by more than the threshold; wrong numbers of arguments or cubes and ambiguous names are refused.", "quantifier": "all cubes, names, amounts, operators, thresholds and values", "why_tests_cant": "Tests use one or two pairs of cubes; every pairing of names, lists and values cannot be enumerated.", "anchors": ["improver/cli/enforce_consistent_forecasts.py: process", "improver/utilities/forecast_reference_enforcement.py: EnforceConsistentForecasts"]}
{"id": "C128", "title": "Loading gives the wanted cubes with their dimensions in the standard order", "statement": "Loading gives exactly the cubes of the files that meet the constraint, in the order of the files, never the legacy prefixes cube; with no cube left a ValueError is raised; each cube keeps every value at its coordinates, its dimensions are reordered to realization, percentile and threshold first and y and x last with the others between them in their order, variable names are removed from the cube and its coordinates except threshold, and the legacy attribute is dropped; a cube without exactly one x and one y axis is refused; a single cube is loaded as it is and several are merged.", "quantifier": "all files, constraints, cubes, dimensions and coordinates", "why_tests_cant": "Tests load a few files of fixed dimensions; the permutations of dimensions and sets of cubes in files have no bound.", "anchors": ["improver/utilities/load.py: load_cubelist, load_cube", "improver/utilities/cube_manipulation.py: strip_var_names, enforce_coordinate_ordering"]}
{"id": "C129", "title": "Generated metadata cubes have exactly what is asked for", "statement": "generate_metadata (and generate-metadata-cube) succeeds exactly for known cube types, grids, units, corners of two numbers, all mandatory attributes, nonzero spacings, strictly monotonic leading values and levels, consistent times; the cube's dimensions are the realizations, percentiles or thresholds given (or as many realizations as members), then the levels, then y and x, coordinates of one point being scalar; the grid points start at the corner, or have their middle at zero, and are the spacing apart, their cells meeting without a gap; all values are zero; the forecast period is the time less the reference time and never negative, time bounds hold the time; mandatory attributes win over those given and those of the standard grid; the JSON input may give one kind of leading values only.", "quantifier": "all names, units, grids, spacings, corners, sizes, leading values, levels, times, periods and attributes", "why_tests_cant": "The options combine without bound; tests change one option at a time from the default.", "anchors": ["improver/synthetic_data/generate_metadata.py: generate_metadata", "improver/synthetic_data/set_up_test_cubes.py: set_up_variable_cube, set_up_percentile_cube, set_up_probability_cube, construct_yx_coords, construct_scalar_time_coords", "improver/synthetic_data/utilities.py", "improver/cli/generate_metadata_cube.py: process"]}
{"id": "C130", "title": "EMOS coefficients from tables are estimated from exactly the forecasts and truths asked for", "statement": "The command that estimates EMOS coefficients from tables of site forecasts and truths reads the rows about the diagnostic whose cycles are as many days as the training length, a day apart, at the hour of the cycle, all of whose forecasts for the period asked for are for times before the cycle. What it hands to the estimation is one forecast cube and one truth cube about the same sites in order of their identifiers, whose times are the training dates that have both, and whose values are those of the (last) row of the table about that diagnostic, site, time, period, percentile and experiment; each additional predictor is handed over at those same sites in the same order. Without truths of the diagnostic it fails; it does nothing only if no training date has both.", "quantifier": "all tables, cycles, periods, training lengths, percentile lists, experiments and lists of additional predictors", "why_tests_cant": "The join of two tables with missing rows, sites and dates has unboundedly many shapes; the tests run the command on one acceptance data set.", "anchors": ["improver/cli/estimate_emos_coefficients_from_table.py: process", "improver/calibration/dataframe_utilities.py: forecast_and_truth_dataframes_to_cubes"]}
{"id": "C131", "title": "The blending commands refuse contradictory options and blend with the options of the method chosen", "statement": "weighted-blending refuses (RuntimeError) exactly the contradictory combinations of options, whatever the cubes; unknown methods are refused; the options of other methods have no effect; the result lies between the cubes at each point and is masked only where one is; with the linear method the shares lie on the line between the end values, in order of the coordinate, with the nonlinear method each is the factor times the one before; the end values and the factor are needed unless the cubes merge to a single slice. blend-with-vicinity-and-rename does the same and gives the cube the new name and the radius, marked as a maximum exactly if the radii of the cubes were not all the same. blend-adjacent-points refuses coordinates with 'time' in their name, takes the option for blending over time only with the forecast period and then only if all time bounds have the same length, and blends what is nearer than the width.", "quantifier": "all combinations of options, and all lists of cubes", "why_tests_cant": "The options combine in thousands of ways; the tests check one refusal at a time on one data set.", "anchors": ["improver/cli/weighted_blending.py: process", "improver/cli/blend_with_vicinity_and_rename.py: process", "improver/cli/blend_adjacent_points.py: process", "improver/blending/calculate_weights_and_blend.py: WeightAndBlend", "improver/utilities/spatial.py: update_name_and_vicinity_coord"]}
{"id": "C132", "title": "temp-lapse-rate gives limited lapse rates for each realization, or the dry adiabatic one", "statement": "temp-lapse-rate succeeds exactly if the dry adiabatic rate is asked for, or the limits are in order, the height difference and the radius are not negative and orography and mask are given; nonsensical limits are refused before missing files. The dry adiabatic rate is given everywhere whatever the other options; otherwise every rate lies within the limits, sea points have the limited dry adiabatic rate, and the field of each realization is what the command gives for it alone.", "quantifier": "all options, grids, fields and realizations", "why_tests_cant": "The options and fields are unbounded; the tests run one grid.", "anchors": ["improver/cli/temp_lapse_rate.py: process", "improver/lapse_rate.py: LapseRate"]}
{"id": "C133", "title": "normalise-to-reference returns the named cube's share of the reference", "statement": "normalise-to-reference needs exactly one cube of the reference's name and exactly one other cube of the name to return; what it returns has that cube's coordinates and, at each point where the others' total is not zero, times that total it is the reference times the cube; the runs for all the other names add up to the reference; the reference itself cannot be returned.", "quantifier": "all lists of named cubes, names and options", "why_tests_cant": "The number, order and values of the cubes are unbounded.", "anchors": ["improver/cli/normalise_to_reference.py: process", "improver/utilities/forecast_reference_enforcement.py: normalise_to_reference, split_cubes_by_name"]}
{"id": "C134", "title": "wind-downscaling corrects each realization on its own", "statement": "wind-downscaling corrects each realization by itself: the result has the realizations of the input along a dimension in ascending order, also when there was a single one as a scalar coordinate, and each has the corrected levels of that realization, or those of the height asked for in the units given; a cube without realizations stays without; a height that the corrected wind has not is refused.", "quantifier": "all wind cubes (numbers and order of realizations and levels), heights, units and correction plugins", "why_tests_cant": "The realizations and levels may come in any number and order; the acceptance tests use two files.", "anchors": ["improver/cli/wind_downscaling.py: process", "improver/utilities/cube_extraction.py: apply_extraction"]}
{"id": "C135", "title": "The texts of constraints mean what they say", "statement": "For improver extract, a text key=[a:b] means the range from a to b of that coordinate and key=[a:b:s] every s-th point of it, however many blanks surround key and value and with or without brackets; any other value is read as a number or a list of numbers, and as a text to compare with if it is neither; only the first equals sign counts; the units of a coordinate are those last given with it; a text without an equals sign, an end or step that is not a number, and a list of units of another length are refused.", "quantifier": "all keys, values, numbers of blanks, lists of constraints and of units, and all ways of reading numbers", "why_tests_cant": "Unit tests try a dozen texts; the reading is a composition of splitting, stripping and literal evaluation that must agree for every key, value and spacing.", "anchors": ["improver/utilities/cube_extraction.py: parse_range_string_to_dict, parse_constraint_list", "improver/cli/extract.py: process"]}
{"id": "C136", "title": "UV index is zero at night and only there", "statement": "improver apply-night-mask sets exactly those values to zero at whose time and place it is night and leaves every other value as it is, for every number of realizations, thresholds and times; probabilities other than of exceeding a threshold are refused; missing points stay missing.", "quantifier": "all cubes (any leading dimensions, one or several times, grids or sites), all patterns of night", "why_tests_cant": "The mask is broadcast to the cube by position: whether it lands on the right dimension depends on order and sizes, which tests sample only for one layout.", "anchors": ["improver/cli/apply_night_mask.py: process", "improver/utilities/solar.py: DayNightMask._create_daynight_mask, DayNightMask.process"]}
{"id": "C137", "title": "Copied attributes are those of the template", "statement": "CopyAttributes gives every cube the values the template has of the attributes named and leaves all other attributes alone; if the template lacks one of them it is a KeyError and no cube has changed.", "quantifier": "all cubes, templates and lists of names", "why_tests_cant": "Values pass through a function that interprets them; tests only copy harmless ones.", "anchors": ["improver/utilities/copy_attributes.py: CopyAttributes", "improver/cli/copy_attributes.py: process", "improver/metadata/amend.py: amend_attributes"]}
{"id": "C138", "title": "Collapsing realizations by the command", "statement": "improver collapse-realizations succeeds exactly for cubes with a dimension of realizations and the six methods; every point of the result is that statistic of its members that are not missing, and the name changes only if a new name is given that is not empty.", "quantifier": "all cubes, methods and names", "why_tests_cant": "The statistics must hold for every number of members and every pattern of missing values.", "anchors": ["improver/cli/collapse_realizations.py: process", "improver/utilities/cube_manipulation.py: collapse_realizations"]}
{"id": "C139", "title": "Altitude of a precipitation phase change", "statement": "PhaseChangeLevel gives, at every point whose wet-bulb temperature integral reaches the phase change's threshold (90, 202.5, 5000 K m for snow-sleet, sleet-rain, hail-rain) between two levels, the altitude on the straight line between them above the orography; where the integral is above the threshold on every level, the highest height plus the orography; at a sea point with the integral below it everywhere, and temperatures that fall with height, the altitude at which the integral carried on below the sea along the line of best fit meets the threshold, at most 2000 m down; elsewhere nothing. A phase change with a greater threshold is never above one with a smaller. Filling the gaps changes no altitude found, puts no new one above the orography and leaves none. Unknown phase changes and cubes of different models are refused.", "quantifier": "every column (levels, integrals, temperatures, orography, land or sea), threshold, interpolation and square root that keep their promises, and field", "why_tests_cant": "The cases depend on all values of a column and on three thresholds at once; tests fix a few grids.", "anchors": ["improver/psychrometric_calculations/psychrometric_calculations.py:PhaseChangeLevel", "improver/utilities/interpolation.py:interpolate_missing_data", "improver/utilities/mathematical_operations.py:fast_linear_fit"]}
{"id": "C140", "title": "Percentiles from a neighbourhood", "statement": "GeneratePercentilesFromANeighbourhood gives, for each percentile asked for (in increasing order) and each point, that percentile (linear between order statistics) of the values at all the points within the radius, the field being carried on beyond its edges by means of the values next to them. The results lie between the least and greatest value of the field, increase with the percentage, follow a change of units, are transposed and mirrored with the field, and away from the edges depend on nothing outside the radius. Masked cubes, radii that do not fit, percentages outside 0 to 100, repeated or none are refused.", "quantifier": "every field, grid size, radius and list of percentiles", "why_tests_cant": "The value at a point depends on all the values in a circle that grows with the radius; tests look at a few small grids.", "anchors": ["improver/nbhood/nbhood.py:GeneratePercentilesFromANeighbourhood", "improver/utilities/neighbourhood_tools.py:pad_and_roll"]}
{"id": "C141", "title": "Remaking a diagnostic as a shower condition", "statement": "make_shower_condition_cube (and improver remake-as-shower-condition) accepts exactly the cubes with a threshold coordinate (the one called threshold, or else the first with that var_name) of a single point, no other coordinate being called shower_condition already. The result differs from the cube in its name and that coordinate's name, var_name, value (1) and unit only; doing it twice is doing it once. The cube given changes only in place.", "quantifier": "all cubes with any coordinates, in place or not", "why_tests_cant": "That nothing else changes, and which coordinate is taken, must hold for every list of coordinates.", "anchors": ["improver/precipitation_type/utilities.py: make_shower_condition_cube", "improver/cli/remake_as_shower_condition.py: process", "improver/metadata/probabilistic.py: find_threshold_coordinate"]}
