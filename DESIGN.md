# A Rocq (Coq 8.16.1) model of metoppv/improver

## 1. What this is

`rocq/theories` holds an executable Gallina model of the pure numerical / decision
core of IMPROVER, mirrored function by function from `/repo/improver` (every
definition cites file and lines), and machine-checked theorems about it. One
directory-free family of files per area:

* `Model_<Area>.v`  – the model (definitions only; executable; citations),
* `Proofs_<Area>.v` – lemmas,
* `Props_<Area>.v`  – only the property theorems (each closed by `exact`),
  their non-vacuity `Example`s, and `Print Assumptions`.

Shared: `Base.v` (exceptions as values, boolean comparisons on `Q`, sums, sorting,
sortedness), `Interp.v` (`np.interp`, the numba interpolation, `np.searchsorted`).

## 2. Modelling decisions (apply everywhere)

* **Numbers.** Data values, thresholds, probabilities and weights are exact
  rationals `Q`; sizes, indices and times are `nat`/`Z`. IEEE rounding (float32 /
  float64) is *not* modelled unless a definition says so; theorems talk about the
  algorithm in exact arithmetic. `==` is rational equality.
* **Masks and NaN** are `option Q` (`None` = masked, or NaN where stated).
* **Exceptions** are values: `result A := Ok a | Err kind`. A raised exception in
  the code is an `Err` with the same exception class; warnings are ignored.
* **Iris cubes** are reduced to the data plus the coordinates a function reads.
  Slicing, merging and metadata copying by iris is trusted, not modelled, except
  where a property is about it.
* **Grids.** numpy functions that act point-wise along one axis are modelled on the
  vector at one grid point; the lift to the grid is `map`.
* **Randomness** is an explicit argument (any random draw is covered).
* **Plugins with state** are state records; `process` returns the new state, and
  properties quantify over call histories.

## 3. Trusted base

Coq's kernel (and `coqchk`); that the model reads as the cited Python does; numpy,
scipy, iris and cf_units primitives behave as documented (each one modelled is
listed beside its definition: `np.interp`, `np.searchsorted`, `np.sort`,
`np.lexsort`/`argsort`, `np.clip`, `np.linspace`, `np.where`, ...). What `Print
Assumptions` reports for each theorem is listed in section 6.

## 4. Plan per property

| id | modelled | proof |
|----|----------|-------|
| C01 C02 C30 | `Model_Threshold`: constructor validation, fuzzy bounds, `_calculate_truth_value` | case analysis + linear arithmetic on `Q` |
| C03 C04 | accumulation loop over realization slices with masks | induction on the ensemble, permutation invariance of sums |
| C05 | operator table, `invert_probabilities`, name rewriting on strings | case analysis; induction on strings |
| C06 | `_slice_cube`, `_calculate_probabilities` on (threshold, probability) lists | telescoping |
| C07 | `integrate_over_thresholds` at one point | convexity by induction |
| C08 | `rescale` | field arithmetic |
| C09 | `choose_set_of_percentiles` through `np.linspace` | induction / `nth` |
| C10 C11 C12 | `Interp.v` | sorted-list search lemmas; refutation by witness on ties |
| C13 C14 | bounds insertion, CDF inversion | from interpolation lemmas |
| C15 C16 C17 | `lexsort`, `argsort`, `choose`, recycling, the time loop with its seed variable | permutation/ranking lemmas; refutation by witness |
| C18 | rebadging labels and the spacing test | arithmetic on labels |
| C19 C20 | the `while` loop with a length measure; PAVA-like pass | invariant by well-founded induction |
| C21 C28 | `_interpolate`, sorting | interpolation lemmas |
| C22 C23 | binning, table addition, `_check_frt_coord` | search lemmas, additivity, transitivity |
| C24 C25 | weights | arithmetic by induction |
| C26 C27 | percentile blending, weighted mean | interpolation lemmas, convexity |
| C29 | instance state machines | induction over histories, refutation by witness where the code is stateful |
| C31 | rescaling of blending weights next to masks, at one point | arithmetic by induction on the inputs |
| C32 C33 | `Model_Temporal`, `Model_Accumulation`: time selection, linear/solar/accumulation interpolation, accumulating rates | sorted-list lemmas, telescoping sums |
| C34 C35 | decision trees as syntax, route finding, masks of missing nodes; modal category over a tree | induction over paths of a finite graph; counting |
| C36 C37 C38 C39 | box sums by cumulative sums, circular kernels, vicinity maxima, recursive filter, padding/unpadding | summation by parts over `Z` ranges; induction over rows and iterations |
| C40 C41 C42 | neighbourhood of whole cubes (slices, masks, lead-time radii), collapse by zones, lightning | refinement to the slice theorem |
| C43 | topographic bands and weights | partition of unity by cases |
| C44 C45 C46 | scaling to reference fields, forced consistency, `Combine`/`CubeMultiplier` with broadcasting | point-wise; list bookkeeping |
| C47 | table lookup of two-dimensional tables | search lemmas |
| C48 C49 | vertical integration, correlation-based field texture/statistics | induction over layers, algebra |
| C50 C51 C52 | precipitation phase probability, hail size, showers, freezing rain | point-wise cases, realization matching |
| C53 | filling of masked fields by interpolation with an abstract `griddata` | point-wise; the oracle is an argument |
| C54 C55 | extraction of sub-cubes, vertical filling | bijection between cells; induction along a column |
| C56 C57 | lapse rates by regression in a window, their application | least squares algebra, cases |
| C58 C59 C60 | neighbour finding at sites with the k-d tree as an oracle, extraction, height adjustment | optimality over finite lists, composition of selection and extraction |
| C61 C62 C63 | advection, orographic enhancement, extrapolation nowcasts, radar masks | floor/convexity arguments, counting in windows |
| C64 C65 C66 | matching of forecasts and truths, forecast bias and its removal, guards and input splitting of calibration | list induction over the matching loop, uniqueness of sorted lists, mean over unmasked pairs |
| C67 C68 C69 | `Model_Regrid.v`, `Spec_Regrid.v`: regrid/{grid,bilinear,nearest,idw,landsea2,landsea}.py on regular ascending grids, flattened indices with numpy's negative indexing, edge and corner adjustment with isclose, cutting to the surroundings; projections and the KD-tree are arguments (the tree with a correctness hypothesis met by an exhaustive search) | `Proofs_Regrid.v` shows that the cut window keeps the cell of every covered target and that the adjusted indices are those of this cell; C67 then by algebra, C68 by cases on the types of the four corners, C69 by computation on attribute lists and masks |
| C70 C71 C72 | location/scale parameters, percentiles and probabilities of normal and truncated normal distributions, ApplyEMOS with land-sea mask, reordering of realizations (scipy's quantile and distribution functions are arguments constrained by `standard_distribution`, met by a rational example) | inversion of the pipeline, pointwise equations per row and point, permutation and rank order from C15 |
| C73 | preparation of training data, first guess, score, whole-domain and per-point estimation, creation of coefficients (scipy's search, the regression and the CRPS of a value are arguments) | positions of unmasked entries as a common index list, lookup by unique names, agreement of the vector formulas with C71 |
| C74 | `maximum_in_height`, `height_of_maximum` per point | fold lemma: the loop keeps the last level that matches; sortedness of the heights |
| C75 | cubes as named dimensions with a function from index lists; `enforce_coordinate_ordering`, `add_coordinate_to_cube`, `sort_coord_in_cube` | a permutation of the axes keeps labelled values; sorted lists without repeats are unique |
| C76 | attributes as association lists, cell methods, period check, `expand_bounds`, `filter_realizations` (iris' merge of single times), `clip_cube_data` | the fold over cubes computes the common entries; extreme values; sorted sets |
| C77 | attribute dictionaries as association lists; `generate_mandatory_attributes`, `get_model_id_attr`, attributes of `create_new_diagnostic_cube`, `amend_attributes` with the state after a failure, `set_history_attribute`; the current time is an argument | lemmas on setting and removing an entry; induction over the changes |
| C78 | `update_model_id_attr_attribute` with Python's split, set, sorted and join on strings | splitting and joining are inverse; strictly sorted lists with the same members are equal |
| C79 | the regular expression as a search for the shortest name before a tail; `in_vicinity_name_format`, `update_diagnostic_name`, `_update_cell_methods` | no proper end of a conventional part begins a tail (computed), so no match starts inside a clean name |
| C80 | time coordinates with types, units and bounds; `forecast_period_coord`, `_calculate_forecast_period` with numpy's broadcasting and int32, `round_close` | rounding is the identity on integers; inversion of each step |
| C81 | `unify_cycletime`, `rebadge_forecasts_as_latest_cycle`, `_find_latest_cycletime` | maximum of a fold; the second run meets the same cube |
| C82 | `check_dtype`, `check_units`, `check_mandatory_standards`, `enforce_dtype` over objects with a type, a type of bounds and units | case analysis against the written-out standard |
| C83 | `deg_to_complex`, `complex_to_deg` (numpy's angle by arccosine, mod 360), `WindDirection` per slice with both backups, and the instance's growing list of slices; real numbers | polar form of the argument, uniqueness of the angle modulo a turn, linearity of the average, sine and cosine addition |
| C84 | `resolve_wind_components` at a point with the directions changed in place; real numbers | trigonometric identities |
| C85 | `unbracket` as the stack machine it is, `execute_command` with an arbitrary dispatcher with state and exceptions, `ObjectAsStr`, `maybe_coerce_with`, `with_output` | induction on nested lists with the pending output as invariant; calls given by an independent inductive relation |
| C86 | both tables of `HailSize`, rounding half to even, clipping, bisection, negative indexing, masks | monotone rounding, and exhaustive kernel computation over the finite tables |
| C87 | differences, distances and gradients between adjacent cells (plane and sphere), scaling, masks of `OrographicSmoothingCoefficients`; power function and length of a degree are arguments; regridding, metadata not | field arithmetic, extrema of lists, composition with the model of the recursive filter (C38) |
| C88 | `FieldTexture`: padding, transitions, ratio (on the neighbourhood model of C36), thresholding, mean over realizations; masks and metadata not | sums over windows, induction over realizations |
| C89 | the loop over levels of `CloudTopTemperature` with its early end, over all points together; the ascent of the parcel is an argument | induction over levels, the loop is shown to act on each point alone |
| C90 | `LatitudeDependentThreshold.process`, `latitude_to_threshold`, checks and product of `LightningFromCapePrecip`; metadata not | case analysis on the rescaling, rows and columns of lists |
| C91 | all of the regression of `LightningMultivariateProbability_USAF2024` at a point, in real numbers, and its checks | bounds of logarithms from (1 + x/n)^n <= exp x, monotonicity of ln and sqrt |
| C92 | `VisibilityCombineCloudBase`: choice of the cubes, scaling factors, combination, order of thresholds, direction | value at every point and threshold, permutation of thresholds; monotonicity of a quartic |
| C93 | all of `feels_like_temperature.py` at a point, in real numbers; the saturation vapour pressure is an argument | case analysis, monotonicity of powers, bounds of 25th roots |
| C94 | Model_Standardise (standardise.py on top of Model_Times and Model_Attributes) | inversion of the pipeline, idempotence by fixed points of each stage, lists of dimensions by induction |
| C95 | Model_Check (flatten, common_input_handle, cube_checker, mask on the labelled cubes of Model_Manip) | induction over nested arguments, permutations of dimensions, C75 |
| C96 | Model_Lagged (time_lagging.py, temporal.py 251-349) | permutations and sortedness, induction over the cubes |
| C97 | Model_Rainforests: trees, parsing, alignment, feature array, binning (digitize, lexsort, forward fill), monotone correction, interpolation, mean | invariants of running extrema, permutation and fill induction, interpolation lemmas of Interp, concrete refutations |
| C98 | Model_Dz (Reals): log ratios, least squares slope, filter, clipped exponentials with infinite bounds, site matching, period and hour choice | normal equations, exp monotone, stable sort of leniencies, induction on zipped sites |
| C99 | Model_WeightBlend on Model_Blending: merging by model number or point, weights by configuration, line or power, slices without weight left out, means, spatial weights, percentiles, the instance's coordinate name | inversion of the call, proportionality of normalised weights, permutation invariance of averages |
| C100 | Model_WeightBlend.triangular_blend: central slice, width and point in other units, triangular weights, blend over time | weights as max(0, 1 - distance/width), averages up to scale |
| C101 | tables as lists of rows with optional columns; drop_duplicates, matching, completion, filling, consistency, sorting, merging and cube merging as list functions | invariants of each step on the keys (core of a row), sorted-list uniqueness, induction on the filled blocks of a site |
| C102 | RoughnessCorrection at one point of the grid over the real numbers (`Model_Downscale.v`): ancillaries with NaN and -32767, wavenumber, reference height, interpolation in the column, roughness and height correction, in-place change of the roughness length, list of times; not modelled: coordinates, transpositions, resolutions from coordinates, 3-d heights with missing values | closed forms for each point of a column; order and bounds by monotonicity of ln, exp and max |
| C103 | OpticalFlow on exact rationals (`Model_Flow.v`): derivatives, boxes, solution of the 2x2 system, extreme value check, smart smoothing, kernels with reflection, process, sorting and mean over pairs; the rain weight 1 - exp(-x/0.8) is an argument; not modelled: unit conversion, equal-area check, warnings, advection by pysteps | linear algebra of sums over boxes; smoothing as convex combination (induction on iterations); derivatives of quadratics by ring |
| C104 | Model_Orogenh: smoothing, gradients, point values, sources, weights and the upstream sum over R, svp an argument | bounds on rounding and the dominant direction; weighted-mean bounds; closed form over a plane (partial) |
| C105 | Model_WetBulb: the loop on lists with boolean selection, index selection and scattered addition, levels | loop invariant: each selected list is the map of the point data over the selected indices; then induction on the iterations |
| C106 | Model_Psychro: Goff-Gratch formula, table lookup, humidity, adiabats, latent heat over R, newton an argument | bounds on logarithms and powers; piecewise linear monotonicity; Rpower algebra (partial) |
| C107 | Model_Gust: percentile selection, time comparison by zip, broadcasting maximum, updraught formula and time checks, uv index | positional reasoning on zipped lists; monotonicity of sqrt and Rpower |
| C108 | Model_Records.v: record text, splitting, weights in thousandths, store / update / join | induction on text and lists; rounding bound by rhe_near |
| C109 | Model_BlendMeta.v over Model_Times / Model_Attributes | case analysis, reuse of C80 / C77, induction on the coordinates to remove |
| C110 | Model_Compare.v (files as trees of groups), Spec_Compare.v (agreement) | induction on the tree; one lemma for every set comparison |
| C111 | Model_Save.v: file system with names and files, savers as small-step processes, schedules | invariant over every schedule (no bound), frame lemma per step |
| C112 | Model_Solar: declination, equation of time, hour angle, elevation, terminator, mask of regular grids, sites and projected grids, plugin state; reals | terminator identity sin(lat - T); parity argument that the declination is never 0; whole mask against a scalar-product specification (Spec_Solar) |
| C113 | Model_Clearsky: evaluation times, air mass, Ineichen irradiance, trapezium rule, defaults and checks of inputs; reals | induction on the trapezium rule; bounds from exp/cos |
| C114 | Model_Pysteps: PystepsExtrapolate.process over Model_Nowcast's enhancement and times; extrapolator an argument | induction over the steps, inversion of apply_oe |
| C115 | Model_PercConv: PercentileConverter.process, iris collapse, numpy.percentile, mquantiles; Spec_PercConv: what a percentile is, which cells are collapsed | order statistics on sorted permutations, double counting of names, enumeration of index tuples |
| C116 | `Model_SpotManip.v`: the whole plugin over the models of extraction, lapse rates, resampling, probability conversion and percentiles of realizations | `Props_SpotManip.v`: every conversion is a map over sites (independence by commuting the selection of positions with it); monotonicity from C07-C09; refutations by counterexample |
| C117 | `Model_Interpret.v` (all of metadata_interpreter.py but the texts; the interpreter as a state; the command) against the rules of `Spec_Interpret.v` | each check shown equivalent to its rule (`Proofs_Interpret.v`, `Proofs_InterpretRest.v`), then composed; the standard is invariant under permutation |
| C118 | Model_LandSeaNbhood.v: surfaces, radii, the two calculations (those of C36/C40) and their sum | both calculations are taken apart slice by slice; at a point of one surface the other's is masked, hence 0; then C36/C40 with windows restricted to the surface |
| C119 | Model_Generate.v: the command as the steps of Model_Percentiles.v and Model_Reordering.v | the equal percentiles always rebadge to n realizations (their spacing is found even); then C10–C16: order, range and knots of the percentiles, order of the raw ensemble, numbers |
| C120 | Model_EmosCommand.v: the command over cubes with a name, first time, comment and percentiles; split_coeffs of Model_Bias.v by place; resample of Model_Percentiles.v | the inputs told apart (a relation independent of the model's splitting) determine the split; then cases on time, coefficients, template, percentiles; texts HHMM are read digit by digit |
| C121 | Model_EmosCommand.v: groups by diagnostic name as an insertion-ordered dictionary; sizes compared stably | the groups are the filters by name, in the order of their first cubes; cases on the number of names; permutations permute the groups |
| C122 | `Model_NowcastAcc`: the command over `Model_Pysteps` at one minute, `Accumulation` on fields with missing values, the lead times of `arange`; merging of two or more results not modelled | windows of an evenly spaced list are contiguous segments; induction over minutes at a point; integrals over consecutive segments add |
| C123 | `Model_SpotCube`: build_spotdata_cube and the checks of `iris.cube.Cube`; coordinates as names and lengths, data as shapes | the loops as numbered lists; acceptance characterised by an invariant of the names and dimensions used so far |
| C124 | `Model_NeighbourCli` over `Model_Spot`: options and defaults, coordinate systems, the four methods, merging as agreement of the sites | case analysis on the four selections; rows of any two methods have the same sites |
| C125 | Model_CycleBlend: collapse_realizations with the six numpy.ma statistics over exact values (the standard deviation by its square), then Model_WeightBlend with linear weights 0.5, 0.5 over the reference time | statistics by their defining equations and uniqueness; success by an equivalence; the blend from C99_means with equal weights |
| C126 | Model_InterpolateCli on Model_Temporal: reading of options and times (strptime an argument), exchange of the cubes, process; the merge as the list of slices | case analysis of the order; C32 for the values, with the line stated symmetrically |
| C127 | Model_EnforceCli on Model_Reference: lengths of the lists, extraction of the reference by any of its names, the plugin; units that differ are taken as not convertible | acceptance by an equivalence; bounds as an inductive relation; C44 for the values |
| C128 | Model_Load on Model_Manip (C75): the selection of cubes, strip_var_names, find_threshold_coordinate and the two orderings (iris.load given as the list of a file's cubes; the merge an argument) | the permutations of C75 composed; what is stripped by induction on the coordinates |
| C129 | Model_Synthetic: generate_metadata, the set-up functions for gridded cubes, the scalar times, the axes and their bounds, and the command (iris' tables of names arguments; coordinate systems, data types and spot cubes not modelled) | the requests that succeed characterised exactly, then each part of the cube made |
| C130 | cli/estimate_emos_coefficients_from_table.py on Model_Frames; the estimation is an argument; rows have the time of their cycle | reading by cycle shown to choose, for the period, the same rows as choosing by time; C101 on the result; uniqueness of ordered lists of names for the predictors |
| C131 | cli/weighted_blending.py, blend_with_vicinity_and_rename.py, blend_adjacent_points.py, update_name_and_vicinity_coord, on Model_WeightBlend (whose data-level theorems C99, C100 carry over) | case analysis of the options; error analysis of the plugin (it never gives RuntimeError); C99/C100 for the data |
| C132 | cli/temp_lapse_rate.py on Model_Lapse, with the realizations and numpy.squeeze of lapse_rate.py 439-459 | case analysis of the options; C56 for the values |
| C133 | cli/normalise_to_reference.py on Model_Reference | inversion of the command; C45 for the values |
| C134 | cli/wind_downscaling.py; the plugin (C102) is an argument; merge in order of the realization; extraction by exact equality of heights in the units given | permutation and sortedness of the merge; induction over the realizations |
| C135 | Model_ConstraintText.v: characters of the texts, Python float/int/literal_eval as arguments | lemmas on cut/split/strip of concatenated texts; dictionary of units by lookup |
| C136 | Model_NightMask.v: named dimensions and sizes, the pattern of night an argument (C112) | broadcasting by position shown equal to lookup by name when the grid comes last |
| C137 | Model_CopyAttributes.v on Model_Attributes | induction over cubes and changes, C77 lemma for one change |
| C138 | Model_CopyAttributes.v (collapse_command) on Model_CycleBlend | C125 theorems on the statistics |
| C139 | `Model_PhaseLevel`: one column, then the slice, then the plugin; stratify.interpolate, sqrt and griddata are arguments | `Props_PhaseLevel`: the arguments' promises are stated (`interpolates`, `square_root` with a relative error) and shown to be met by functions that exist; the sea case compares the area of the column below the sea with the threshold; refutation for temperatures whose levels are listed downwards |
| C140 | `Model_NbhoodPercentiles`: numpy.pad by means, the circular window and the merging of the percentiles, on `Model_Nbhood`, `Model_NbhoodCube` and `Model_PercConv` | `Props_NbhoodPercentiles`: the window is every offset in the circle once; percentiles by the specification of C115; refutation for percentiles not in order |
| C141 | Model_Shower: cubes as names, coordinates and data; the argument afterwards | cases on where the threshold coordinate is |

## 5. What is modelled, what is not, and what was found

Each `Model_*.v` starts by saying which functions it models and what it leaves out;
every definition cites its lines. Left out everywhere: floating-point rounding,
lazy (dask) evaluation, netCDF input/output, command-line parsing, cube attributes
and metadata unless a property names them, warnings, and the internals of iris,
numpy, scipy, cf_units, numba and stratify. Not modelled at all so far: EMOS
coefficient fitting (an external minimiser), optical flow (smoothing iterations),
GRIB/StaGE standardisation, solar geometry, FFT-free texture, regridding kernels
except where listed in MANIFEST.json.

A refutation (`..._refuted`) is a theorem exhibiting an input on which the code as
modelled does not do what the property says. They are findings about the code:

* C04/C30: explicit fuzzy bounds in the wrong order are accepted; a bound equal to its threshold on one side passes the constructor and fails in `process`.
* C05: a name containing both "above" and "below" is not restored by inverting twice; legacy attribute values are not handled.
* C06: `isclose` with the default relative tolerance can pick a neighbouring threshold.
* C10: the two interpolation back ends differ on (near-)ties. C12: end percentiles 0 and 100 are replaced by the bounds.
* C15: a calibrated mask that varies with percentile leaks a masked value. C17: the seed variable is rebound, so the second validity time raises `TypeError`.
* C23: the mask of an aggregated reliability table depends on the order of aggregation. C28: a forecast with one threshold cannot be calibrated.
* C25: fill values swapped for descending configurations. C26: a zero-weight input can set the top percentile; ties. C27: points of the weights cube are never compared. C31: weights do not sum to one where every slice is close to its own mask.
* C29: instances or caller's objects that carry state between calls (percentile thresholds, truncated-normal shape parameters, aggregate coordinate list, blend coordinate, `TemporalInterpolation` times, default `Accumulation`, unnamed `Combine`, broadcast thresholds, irregular `DayNightMask`, decision trees with missing diagnostics, recursive-filter coefficients).
* C32: `timedelta.seconds` ignores whole days; dry periods give NaN; solar interpolation over whole days divides by zero; accumulations divide the input in place. C33: a window longer than the inputs is silently shortened.
* C34: branches that coincide, a start node that is a leaf, `+` evaluated before `-`, thresholds matched to one percent, the caller's dictionary rewritten.
* C36: square means near the domain edge are wrong for fields that are mostly one. C38: negative smoothing coefficients accepted, only the first slice's mask used, masked values leak after two iterations. C39: the uniformity check of `pad_coord` telescopes. C40: a slice is reused although its mask or radius differs. C41: several lead times refused. C42: the neighbourhood result is discarded.
* C43: the lowest bound belongs to no band. C44/C45: matching of coordinates by name but of data by position. C46: the dimension check stops at the shorter list; one realization against several. C48: a limit of exactly 0 is treated as absent; a limit between levels drops a whole layer.
* C52: the divisor counts realizations before matching; members are paired by position. C53: a reference with fewer slices silently shortens the result. C54: negative range bounds exclude themselves; coordinates of the caller's cube stay converted. C55: gaps inside a column may be filled against the expected direction.
* C58: `node_limit` truncates the search before heights are compared. C59: the coordinate hash ignores bounds. C60: the adjustment of probabilities and of values of the same distribution disagree. C61: values fade to zero beyond the last row/column and a mask grows under whole-number displacements. C63: the mask is replaced rather than extended; a single dry pixel among 25 sets a filled hole to zero.
* C67: a target less than the isclose tolerance below the last row or column is shifted into the previous cell and extrapolated; a missing corner with weight zero makes a target on a valid source point missing; if no target is inside the source the call fails instead of returning missing values; two targets at the upper right corner of the source raise a ValueError.
* C68: a missing source point of the other type makes the result missing although its weight is zero; a corner of the cell with the type of the target is ignored when it is neither among the four nearest points nor within the vicinity.
* C64: if only one of forecast and truth has time bounds, iris compares by containment or raises TypeError, so the k-th pair need not be valid at the same time. C65: with `fill_masked_bias_data` a single bias cube of the caller is filled in place. C66: the share of NaN counts only pairs in which *both* are NaN, so forecasts that are all NaN pass; of two inputs with a time that are not probabilities the first is dropped silently, three end in UnboundLocalError; a masked uncalibrated value is replaced by the number under its mask.
* C70: thresholds whose units differ by an offset from those of the forecast give wrong probabilities because the *scale* is converted with the offset too (e.g. Celsius thresholds for a Kelvin forecast); a zero scale gives percentiles outside the truncation limits, and NaN probabilities. C71: realizations as predictor with coefficients per grid cell, or with one member at several sites, raise ValueError in `numpy.hstack`.
* C73: at sites (2-D data) truth and forecast masked at different times, equally often, are silently mispaired; a land-sea mask with additional fields always raises because `numpy.broadcast_to` drops the mask; for realizations the regression gradients are used as coefficients that are squared later; two sites with coordinates within the isclose tolerance make point-by-point estimation raise for all sites; one NaN forecast makes the score constant, so that the search cannot improve on its first guess.
* C74: `height_of_maximum` with `find_lowest` (the default) reports the highest level of several that hold the maximum, and the lowest if it is off: the loop overwrites earlier matches. The unit test passes the strings "True" and "False", both true, and expects the high cube. Where no level matches, the maximum itself is returned as a height in metres.
* C75: with a dimension without coordinate any true reordering is a ValueError; naming a dimension twice is a ValueError unless the order is already right.
* C76: `MergeCubes` compares period lengths with `numpy.isclose`: periods of three days that differ by 2 s are accepted; `filter_realizations` without any complete realization is an IndexError.
* C77: `create_new_diagnostic_cube` writes the optional attributes into the dictionary that the caller passed; a value with two `{}` raises an IndexError after the entries before it have been applied.
* C79: `update_diagnostic_name` replaces every occurrence of the diagnostic's name, so a diagnostic called `threshold` damages the suffix `_above_threshold`.
* C80: `_calculate_forecast_period` subtracts the reference times along the columns of the bounds: with two times and two reference times the bounds are silently wrong, with more a ValueError; periods beyond 2^31 s wrap; `round_close` uses the default relative tolerance of `numpy.allclose`, so any number above 50000 passes as an integer; reference times are compared as numbers whatever their units.
* C83: a `WindDirection` instance keeps the slices of earlier calls: the same cube again is a MergeError, another one gets the old times merged in; the first-realization backup returns directions outside [0, 360) as they are, and without realization 0 is an AttributeError (on None).
* C84: `resolve_wind_components` turns the caller's cube of directions in place: a second call with the same cubes turns it again.
* C85: a nested command with an output file and without pass-through hands None to the outer command, which is not noticed here; a result that counts as false is not saved although an output was asked for.
* C86: `get_hail_size` tests for 3300 m but the second table starts at 3350 m: in between the row index is -1, the last row, and all hail is removed, against the documentation; differences of the ascent between -0.25 and 0 K round to the first row and can give hail.
* C87: `calculate_grid_spacing` takes absolute values, so on projected grids gradients along a decreasing coordinate have the wrong sign (on latitude-longitude grids they are right); orography with one steepness (level ground) gives 0/0 = NaN coefficients; a mask on a circular grid raises IndexError; an inverted boolean mask zeroes everything.
* C88: padding by edge values makes the edge of the domain count as smooth: a lone cell in a corner gets ratio 1/2 instead of 1.
* C89: levels are taken in the order of the cube and nothing checks that pressure decreases: with increasing pressure the parcel is stopped at the first level and all cloud is masked.
* C90: the thresholds are broadcast along the last but one dimension without a check that this is latitude: with longitude first and a square grid the wrong thresholds are used silently.
* C91: without CAPE and with 1 inch of rain at a lifted index of 0 the probability is 0.4, with CAPE of 0.001 J/kg it is less than an eighth of that; inhibition given with a positive sign leads to division by zero or logarithms of negative numbers.
* C92: the cloud base cube is used as it is even when it holds "above" probabilities, although a comment says all are inverted; an initial scaling value outside 0 to 1 is not refused and leads to probabilities above 1; a first unscaled threshold of 0 is a ZeroDivisionError.
* C93: in a wind of 30 m/s dry air of 15 degrees feels colder than of 10 degrees, since the two indices are mixed.
* C94: StandardiseMetadata: coords_to_remove strips the coordinate of a dimension too (leaving an anonymous dimension); coord_modification keeps stale bounds; with status flags a realization dimension of length one is dropped although realization is 'expected always to be a dimension'; a forecast period beyond int32 seconds wraps silently (C94_*_refuted).
* C95: apply_mask compares only the names of the dimensions, so a mask of shape (3,2) on a field of shape (2,3) is silently reshaped and a mask of one value is spread, which is what the comment in the code says the check prevents; it also changes the mask cube in place, so a second call with invert_mask=True and the same mask cube masks the opposite points. check_cube_coordinates moves exceptions, or raises an IndexError, if they are not named in the order of their places (C95_*_refuted).
* C96: relabel_to_period subtracts period * 3600 whatever the units of the coordinate: for times in hours the period is 3600 times too long (C96_period_units_refuted).
* C97: rainforest_calibration.py: np.digitize puts a value equal to a split into the upper bin while LightGBM sends it left, so bin_data changes predictions at such values; output thresholds in descending order all get (p1+pn)/2 because _make_decreasing runs over the requested order; np.isclose/allclose with the default atol 1e-8 make P(rate > 0.03 mm/h) = 1 in m s-1; realization coordinates keyed by variable name hide a mismatch between forecast and same-named feature.
* C98: dz_rescaling.py: EstimateDzRescaling pairs forecasts, truths and altitude differences by position after extracting the common sites in each cube's own order, so differently ordered sites give a wrong factor silently; with no dz bound and a factor of exactly 0 (for example forecasts equal to truths) 0*inf makes every scaling NaN.
* C99: over models, linear and non-linear weights depend on the order in which the cubes are passed (C99_order_of_models_refuted).
* C100: the width is converted like a point: Unit.convert(2, 'kelvin') from celsius makes it 275.15 K, so with units that have an offset slices far beyond the width are blended in (C100_width_refuted). With percentiles a slice beyond the width, of weight zero, decides percentiles (C100_percentiles_window_refuted), because unlike in WeightAndBlend slices without weight are not removed.
* C101: C101: (a) _training_dates_for_calibration documents dates 'at least one day prior to the cycletime'; with a forecast period over a day the last date may be under a day before. (b) _ensure_consistent_static_cols compares the numbers of distinct values between sites, not with one, so one site whose altitude is corrected is not noticed and merging fails (MergeError). (c) It takes the last of the distinct values, not the most recent: 10, 12, 10 gives 12. (d) _fill_missing_entries groups the forward fill by site but not the backward fill, so a site without an altitude gets that of the next site. (e) _quantile_check compares percentiles in order of first appearance, so the same rows in another order are refused.
* C102: a second call of the same RoughnessCorrection plugin corrects points it left alone the first time: the roughness length array is overwritten (not positive becomes 0.0001) after the mask is made, in the ancillary cube itself (`C102_second_call_refuted`). Where z0 exceeds the reference height, which may be as low as 1 m, the wind grows towards the ground (`C102_rises_with_height_refuted`). Above the highest level the winds are extrapolated along the line through the lowest and the highest level, and a single level is extrapolated in proportion to height (`C102_interpolated_above`, `C102_single_level`).
* C103: the extreme value check compares displacements in grid squares with a third of the number of rows of boxes, not of the domain: with boxes of 30 squares real motion of more than 1/90 of the domain is set to zero (`C103_fast_translation`, `C103_third_of_domain_refuted`); and it looks at rows only, so a domain and its transpose give different answers (`C103_transposed_refuted`).
* C104: C104: OrographicEnhancement takes int(15 km / spacing * max(sin,cos)) sources including the point itself, so a grid coarser than 15 km (10.6 km for diagonal winds) has none and divides 0 by 0: every windy point is NaN.
* C105: WetBulbTemperature zips the levels of its inputs without comparing their values, so levels at different heights are combined and surplus levels dropped silently (C105_level_values_refuted).
* C106: psychrometric_calculations.py: the table is clipped one increment early (338.15 K, although documented to 338.25 K) (C106_table_end_refuted); below 183.15 K the pressure correction grows as the temperature falls while the table value is held, so colder air has the higher vapour pressure (C106_cold_refuted).
* C107: WindGustDiagnostic compares time points with zip, so gusts at several times are combined with wind speeds at the first time only (C107_all_times_refuted).
* C108: record_run (C108): the recorded weights are rounded to three decimals slice by slice, so the recorded weights of a blend need not sum to 1 (1/3 each gives 0.999) and a run with a small positive weight can be recorded as 0.000; the lines of a joined attribute follow the source order rather than the order of the lines.
* C109: Blended metadata (C109): a forecast reference time in units other than seconds since 1970 passes for a blend without forecast period and is refused for one with it (the raw numbers of blend time and reference time are compared); a model that contributes twice is named twice in the model attribute, unlike elsewhere (C78).
* C110: improver compare (C110): an attribute that is NaN (e.g. _FillValue) makes a file differ from itself; the dimensions of variables are not compared, so a field on (y, x) and the same numbers on (x, y) agree on a square grid; a scalar variable agrees with a constant array; the type of array attributes is not compared; swapping the two files can change the verdict.
* C111: save_netcdf (C111): two concurrent saves to the same file use the same temporary file (filename.tmp), so without file locks the target can end up with neither version; cell methods are reordered and least_significant_digit removed on the caller's cubes even when a later cube is refused; the chunk sizes are set if the first two dimensions of all cubes agree (the comment says the horizontal ones), so they may not fit the other cubes; only one cube's mosg__ attributes are treated as global.
* C112: C112: DayNightMask uses the bounds of the first time of the cube for every time (solar.py:397), so a cube of several bounded times gets the first period's mask throughout (C112_one_period_for_all, C112_own_period_refuted); and its irregular attribute is never reset, so a regular latitude-longitude grid processed after spot data gets whole rows marked by the diagonal (C112_history_refuted).
* C113: C113: a negative temporal spacing that divides the period is accepted and gives zero radiation everywhere (C113_negative_spacing_refuted).
* C114: C114: PystepsExtrapolate overwrites forecast_period with the time since the analysis even when the analysis is itself a forecast, while its forecast_reference_time is kept: time, reference time and period then disagree (C114_times_agree_refuted). orographic_enhancement has the default None (as in CLI nowcast_extrapolate), but the plugin then always fails with AttributeError (C114_refused).
* C115: C115: with the method for masked data percentages outside 0 to 100 are not refused but give the extreme values, while the fast method refuses them (C115_out_of_range_refuted): whether generate-percentiles --percentiles=150 fails depends on whether anything is masked. The doc string of generate-percentiles promises a ValueError when neither probabilities nor coordinates are given; realizations are rebadged instead.
* C116: SpotManipulation (C116): a single number for extract_percentiles is documented but raises TypeError (0 is silently ignored); a fixed lapse rate without the flag to apply it is ignored for a gridded forecast but makes a spot forecast raise NotImplementedError; the options about ECC bounds are not passed on when percentiles are resampled; a single-site probability forecast, or a subset of one site, loses its spot_index dimension; a spot forecast that needs no change is returned itself, and its attribute model_grid_hash is removed in the caller's cube.
* C117: C117: an interpreter that has refused one cube refuses all later ones; a name of a quantity that itself contains "above"/"below" lets a wrong relation through; a comment is only matched as a prefix; a blended cube whose run record lacks one of its models raises KeyError (CoordinateNotFoundError and IndexError for two other faults), which the command does not catch.
* C118: nbhood_land_and_sea: where land and sea both occur, points without data come out as 0 and not masked (C118_missing_becomes_zero); a topographic domain without sea whose weights array has no mask is refused (C118_all_land_zones_refuted); a fractional land mask can end in UnboundLocalError (C118_fractional_mask_refuted).
* C119: a raw ensemble without a realization coordinate gives CoordinateNotFoundError, also when the number of realizations is given (C119_raw_without_realizations).
* C120: with a template and percentiles asked for, the percentiles are returned if the time does not match, and the template if there are no coefficients (C120_reason_refuted); percentiles asked of a forecast of realizations are an error when nothing is calibrated, though calibration would succeed (C120_percentiles_refused); of two forecasts that are not probabilities the first is dropped without a word (C120_two_forecasts_refuted).
* C122: C122 nowcast_accumulate of an input whose forecast period is not 0: the extrapolation keeps that period on the first field but counts the others from 0, so the window is chosen wrongly: with an input of T+15 min and 15 min periods the first total is labelled 1 to 15 min and the second has 16 minutes of rain (960 s instead of 900 s at rate 1) and claims 30 min in its time bounds, silently.
* C123: C123 build_spotdata_cube: `zip` of additional_dims and additional_dims_aux stops at the shorter list: a dimension is dropped with no message and the sites are attached to its place whenever the lengths agree (3 x 2 x 2 data with 2 sites: spot_index on the second dimension); equally for data with an undescribed leading dimension (2 x 2 data: spot_index on the first).
* C124: C124 neighbour_finding --all-methods on a regional grid without land (or a mask of zeros) is refused, although two of its four methods need no land; and `iris.util.squeeze` takes away the spot_index dimension when one site remains, so the layout of the result depends on the number of sites (read from the code, not modelled).
* C125: C125: cycles count alike, so that a member of a small (lagged or incomplete) ensemble counts for more than one of a large ensemble (`C125_all_members_alike_refuted`)
* C126: C126: two cubes of the same time are not exchanged and the second is returned, so that there the order matters (`C126_order_same_time_refuted`)
* C127: C127: three empty lists pass the check that says "must be length 1 or 2" and raise IndexError later (`C127_empty_lists_refuted`)
* C129: a single percentile or threshold cannot be generated: the leading dimension is only made for more than one value, so that the branch for one value in _percentile_cube and _probability_cube is never reached from generate_metadata and the coordinate is looked for in vain (`C129_one_refuted`); a single realization given is dropped without a message (`C129_one_realization`).
* C130: estimate_emos_coefficients_from_table extracts additional predictors at the sites of the truths in the predictor's own order and does not compare the sites: a predictor whose sites are not in order of the identifier, or that lacks some, reaches the estimation with its values against other sites (C130_predictors_refuted).
* C131: weighted_blending tests its options by truth, not for None: cval of 0 with the linear method and y0val/ynval of 0 with the nonlinear one are accepted and ignored, although the documentation says they raise (C131_zero_refuted); likewise a vicinity radius of 0 counts as none.
* C132: LapseRate squeezes the whole field when there is no realization dimension, so that a field on a grid with a single row or column is refused by the coordinates of the result; as a realization it is not (C132_row_refuted).
* C135: a text value with a colon (a time of day) is always taken as a range and refused; None with a blank before it is taken as units (C135_colon_refuted, C135_blank_none_refuted)
* C136: numpy.where drops the mask, so missing points come out as data; with x before y or realizations after as many times the wrong values become zero without an error (C136_missing_refuted, C136_order_refuted, C136_realizations_refuted)
* C137: a template attribute whose text is remove deletes the attribute, {} is filled in with the old value, numbers cannot be copied (C137_remove_refuted, C137_braces_refuted, C137_number)
* C139: C139 (`C139_temperature_order_refuted`): PhaseChangeLevel sorts the levels of the integral but not those of the temperature; with temperature levels listed downwards and an integral without bounds, the "highest" height is the lowest one (and the sea fit uses the top five levels).
* C140: C140 (`C140_order_refuted`): GeneratePercentilesFromANeighbourhood merges the output fields in order of their percentile but fills them in the order the percentiles were given: with [100, 50, 0] the field labelled 0 holds the maxima and that labelled 100 the minima (iris merging sorts; this is not executed here).
* C141: make_shower_condition_cube relabels a probability of being below a threshold as one of being above it, leaving the data and the spp__relative_to_threshold attribute as they were (C141_below_called_above_refuted); and a cube it refuses in place has already been renamed (C141_refused_yet_renamed).

## 6. Assumptions

Every `Props_*.v` ends with `Print Assumptions` for each of its theorems. For every
theorem except those of C83 and C84 (`Props_Wind.v`) of C91 (`Props_Lightprob.v`), C93 (`Props_Feels.v`), C98 (`Props_Dz.v`), C102 (`Props_Downscale.v`), C104 (`Props_Orogenh.v`), C106 (`Props_Psychro.v`), C107 (`Props_Gust.v`), C112 (`Props_Solar.v`) and C113 (`Props_Clearsky.v`) the answer is "Closed under the global context": no axiom,
neither of ours nor of the standard library, is used.

The theorems of C83, C84, C91, C93 and C98 speak about real numbers and rest on the standard library's axioms for them:
`ClassicalDedekindReals.sig_forall_dec`, `ClassicalDedekindReals.sig_not_dec`,
`FunctionalExtensionality.functional_extensionality_dep` and, where trigonometric functions, logarithms or powers are used,
`Classical_Prop.classic`.
