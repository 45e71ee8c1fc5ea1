{
 "claims": [
  {
   "property": "C01",
   "status": "proved",
   "theorems": [
    "C01_truth_in_unit_interval",
    "C01_crisp_agrees_with_operator",
    "C01_truth_value",
    "C01_operator_strings",
    "C01_operators_accepted"
   ],
   "note": ""
  },
  {
   "property": "C02",
   "status": "proved",
   "theorems": [
    "C02_ramp",
    "C02_fuzzy_is_ramp",
    "C02_fuzzy_total",
    "C02_complement"
   ],
   "note": ""
  },
  {
   "property": "C03",
   "status": "proved",
   "theorems": [
    "C03_mean_over_unmasked",
    "C03_masked_iff_all_masked",
    "C03_order_independent",
    "C03_shape",
    "C03_success_iff"
   ],
   "note": ""
  },
  {
   "property": "C04",
   "status": "proved",
   "theorems": [
    "C04_monotone_in_threshold",
    "C04_monotone_explicit_bounds",
    "C04_unordered_bounds_refuted"
   ],
   "note": "With unordered explicit bounds the claim is false: witness proved."
  },
  {
   "property": "C05",
   "status": "partial",
   "theorems": [
    "C05_inverse_is_negation",
    "C05_invert",
    "C05_inverted_attribute",
    "C05_invert_total",
    "C05_involution_partial",
    "C05_name_involution_refuted",
    "C05_standard_name_above",
    "C05_standard_name_below",
    "C05_threshold_commutes",
    "C05_threshold_process_commutes",
    "C05_requested_direction",
    "C05_legacy_attribute_refuted"
   ],
   "note": "The name is restored by inverting twice unless it mentions both 'above' and 'below' (refuted then); legacy attribute values 'above'/'below' are not handled by to_threshold_inequality (refuted)."
  },
  {
   "property": "C06",
   "status": "proved",
   "theorems": [
    "C06_probability",
    "C06_value",
    "C06_additive",
    "C06_complement",
    "C06_unavailable",
    "C06_rejects_narrow_range",
    "C06_success",
    "C06_available_refuted"
   ],
   "note": "Available thresholds closer than the relative tolerance are refused (witness proved)."
  },
  {
   "property": "C07",
   "status": "proved",
   "theorems": [
    "C07_weighted_mean",
    "C07_accepts_iff",
    "C07_rejection_is_value_error",
    "C07_dominance",
    "C07_direction_irrelevant"
   ],
   "note": ""
  },
  {
   "property": "C08",
   "status": "proved",
   "theorems": [
    "C08_errors",
    "C08_linear",
    "C08_endpoints",
    "C08_clip",
    "C08_clip_value",
    "C08_monotone",
    "C08_inverse",
    "C08_default_range",
    "C08_double_scaling",
    "C08_double_scaling_errors"
   ],
   "note": ""
  },
  {
   "property": "C09",
   "status": "proved",
   "theorems": [
    "C09_quantile_values",
    "C09_quantile_total",
    "C09_quantile_shape",
    "C09_random"
   ],
   "note": ""
  },
  {
   "property": "C10",
   "status": "partial",
   "theorems": [
    "C10_same_x_agree_partial",
    "C10_same_y_agree_partial",
    "C10_same_x_shapes",
    "C10_spaced_ok",
    "C10_same_x_refuted",
    "C10_same_y_refuted"
   ],
   "note": "The two back ends agree only for knots whose spacing is not below the numba tolerance; ties refute the unrestricted claim."
  },
  {
   "property": "C100",
   "status": "partial",
   "theorems": [
    "C100_blend",
    "C100_point_twice",
    "C100_window",
    "C100_alone",
    "C100_order",
    "C100_width_refuted",
    "C100_percentiles_partial",
    "C100_percentiles_window_refuted"
   ],
   "note": "Percentiles stay within the range of all slices, not of those within the width (refuted, as in C26); a width in units with an offset is moved by it (refuted)."
  },
  {
   "property": "C101",
   "status": "partial",
   "theorems": [
    "C101_dates",
    "C101_dates_refuted",
    "C101_values",
    "C101_nothing",
    "C101_order",
    "C101_total",
    "C101_one_place",
    "C101_moved_refuted",
    "C101_recent_refuted",
    "C101_borrowed_refuted",
    "C101_ascending_refuted"
   ],
   "note": "values, sites, dates, order and totality proved for tables about one diagnostic without station_id; refuted: that dates are at least a day before the cycle, that moved sites are always put right, with the most recent value, that gaps are filled from the same site, that row order is irrelevant to acceptance"
  },
  {
   "property": "C102",
   "status": "partial",
   "theorems": [
    "C102_interpolated_between",
    "C102_interpolated_below",
    "C102_interpolated_above",
    "C102_interpolated_single",
    "C102_interpolated_bounded",
    "C102_wavenumber",
    "C102_wavenumber_positive",
    "C102_reference_height",
    "C102_size",
    "C102_not_negative",
    "C102_smooth_unchanged",
    "C102_formula",
    "C102_formula_unrough",
    "C102_aloft_unchanged",
    "C102_logarithmic",
    "C102_profile_rises",
    "C102_profile_ends",
    "C102_profile_upside_down",
    "C102_higher_is_windier",
    "C102_height_effect_bounded",
    "C102_unknown_orography",
    "C102_scaling",
    "C102_times",
    "C102_second_call_partial",
    "C102_second_call_refuted",
    "C102_rises_with_height_refuted",
    "C102_single_level"
   ],
   "note": "One point of the grid over the reals; coordinate handling, resolutions and 3-d heights with missing values are not modelled. A repeated call is proved equal only for positive or absent roughness lengths, and refuted otherwise."
  },
  {
   "property": "C103",
   "status": "partial",
   "theorems": [
    "C103_least_mismatch",
    "C103_unstructured",
    "C103_exact_displacement",
    "C103_derivatives_exact",
    "C103_bounded",
    "C103_translation",
    "C103_fast_translation",
    "C103_reversed",
    "C103_still",
    "C103_dry_boxes_bounded",
    "C103_extreme_boxes_ignored",
    "C103_neighbour_weights",
    "C103_dry_boxes_ignored",
    "C103_third_of_domain_refuted",
    "C103_transposed_refuted",
    "C103_time",
    "C103_refused",
    "C103_radius",
    "C103_speed_bounded",
    "C103_no_motion",
    "C103_iterations",
    "C103_order",
    "C103_two_fields",
    "C103_one_field",
    "C103_mean_bounded",
    "C103_perturbation"
   ],
   "note": "Exact rationals with the rain weight as an argument; unit conversion, equal-area check, warnings, generate_advection_velocities_from_winds are not modelled."
  },
  {
   "property": "C104",
   "status": "partial",
   "theorems": [
    "C104_plane",
    "C104_curved",
    "C104_point_formula",
    "C104_point_not_negative",
    "C104_descending",
    "C104_opposite",
    "C104_sources",
    "C104_upwind",
    "C104_range",
    "C104_weights",
    "C104_between",
    "C104_uniform",
    "C104_monotone",
    "C104_local",
    "C104_calm",
    "C104_enhancement",
    "C104_nothing",
    "C104_coarse_refuted",
    "C104_slope"
   ],
   "note": "Proved over the reals for the point values, the sources and the upstream sum; sorting of axes, rotation of winds, regridding and units are not modelled and the saturation vapour pressure is an argument. Refuted: grids coarser than 15 km give NaN with wind (C104_coarse_refuted)."
  },
  {
   "property": "C105",
   "status": "proved",
   "theorems": [
    "C105_pointwise",
    "C105_stops",
    "C105_saturated",
    "C105_between",
    "C105_levels",
    "C105_levels_refused",
    "C105_level_values_refuted",
    "C105_constant_humidity"
   ],
   "note": "Refinement of the array loop by the pointwise iteration, with the saturated humidity as an argument; unit conversions and metadata are not modelled."
  },
  {
   "property": "C106",
   "status": "partial",
   "theorems": [
    "C106_vapour_pressure",
    "C106_triple_point",
    "C106_in_table",
    "C106_lookup_between",
    "C106_lookup_increasing",
    "C106_table_end_refuted",
    "C106_humidity_range",
    "C106_humidity_pressure",
    "C106_humidity_warm",
    "C106_cold_refuted",
    "C106_mixing_ratio",
    "C106_path",
    "C106_inverse",
    "C106_inverse",
    "C106_rising",
    "C106_latent_heat",
    "C106_condensation_partial"
   ],
   "note": "Proved over the reals; scipy's newton is an argument, so nothing is proved about its convergence. Refuted: the end of the table, and monotonicity below the table."
  },
  {
   "property": "C107",
   "status": "proved",
   "theorems": [
    "C107_times",
    "C107_gust",
    "C107_refused",
    "C107_all_times_refuted",
    "C107_updraught",
    "C107_reference",
    "C107_updraught_times",
    "C107_updraught_field",
    "C107_uv",
    "C107_uv_value"
   ],
   "note": "Data and times modelled; attributes, titles and the spatial coordinate check are not. Refuted: that all times are compared."
  },
  {
   "property": "C108",
   "status": "proved",
   "theorems": [
    "C108_read_back",
    "C108_update",
    "C108_no_weight",
    "C108_weight",
    "C108_total",
    "C108_total_one",
    "C108_two_stages",
    "C108_sum_refuted",
    "C108_vanishes_refuted",
    "C108_slices",
    "C108_store",
    "C108_store_refused",
    "C108_order",
    "C108_discard",
    "C108_join",
    "C108_lines_refuted"
   ],
   "note": "Python's float accepts other forms of number (exponents, signs) that are not modelled: a record is read back as the code writes it. The text of the cycle is an argument of the model."
  },
  {
   "property": "C109",
   "status": "proved",
   "theorems": [
    "C109_dimension",
    "C109_remove",
    "C109_remove_scalar",
    "C109_times",
    "C109_times_refused",
    "C109_hours_refuted",
    "C109_update",
    "C109_mandatory",
    "C109_kept",
    "C109_models",
    "C109_repeated_refuted",
    "C109_refused"
   ],
   "note": "The cycle time is given as its moment (parsing of the text is not modelled); the values of scalar coordinates are text; a model attribute that is not given is not modelled."
  },
  {
   "property": "C11",
   "status": "proved",
   "theorems": [
    "C11_scan_equals_single_target",
    "C11_target_order_irrelevant",
    "C11_same_y_equals_same_x"
   ],
   "note": ""
  },
  {
   "property": "C110",
   "status": "proved",
   "theorems": [
    "C110_datasets",
    "C110_agree",
    "C110_open",
    "C110_coordinates",
    "C110_wider",
    "C110_self",
    "C110_self_refuted",
    "C110_symmetric",
    "C110_symmetric_refuted",
    "C110_dimensions_refuted",
    "C110_shape_refuted",
    "C110_numbers"
   ],
   "note": "Text of messages is not modelled, only kind and place. Comparing an array attribute with a number may raise in numpy after the message about the type; comparing numbers with text too."
  },
  {
   "property": "C111",
   "status": "proved",
   "theorems": [
    "C111_atomic",
    "C111_completes",
    "C111_again",
    "C111_same_file_refuted",
    "C111_saved",
    "C111_refused",
    "C111_refused_changes_refuted",
    "C111_pieces",
    "C111_pieces_refuted",
    "C111_keys",
    "C111_keys_one",
    "C111_keys_refuted"
   ],
   "note": "File locks of HDF5 are not modelled (the refutation for two savers of one file assumes none); what iris writes is an arbitrary list of pieces; cell methods are text. Rename is taken as atomic (POSIX)."
  },
  {
   "property": "C112",
   "status": "partial",
   "theorems": [
    "C112_declination_bound",
    "C112_never_equinox",
    "C112_elevation_is_height",
    "C112_elevation_range",
    "C112_elevation_positive",
    "C112_elevation_limits",
    "C112_noon_and_midnight",
    "C112_round_the_globe",
    "C112_solar_time_near",
    "C112_solar_time_normal",
    "C112_errors",
    "C112_terminator_range",
    "C112_terminator_horizon",
    "C112_hour_of_day",
    "C112_mask_partial",
    "C112_one_period_for_all",
    "C112_own_period_refuted",
    "C112_remembers_spot_data",
    "C112_history_refuted"
   ],
   "note": "Terminator and elevation methods proved to mark exactly where the sun is up; for bounded times only when the cube has one time (the first period is used for all: refuted), and for regular grids only if the plugin has not seen spot data (refuted)."
  },
  {
   "property": "C113",
   "status": "proved",
   "theorems": [
    "C113_times",
    "C113_air_mass",
    "C113_irradiance_bounds",
    "C113_irradiance_zero",
    "C113_irradiance_positive",
    "C113_turbidity",
    "C113_trapezium",
    "C113_trapz_bounds",
    "C113_trapz_app",
    "C113_process",
    "C113_errors",
    "C113_radiation_bounds",
    "C113_polar_night",
    "C113_additive",
    "C113_negative_spacing_refuted"
   ],
   "note": "Real arithmetic; the calendar (day of year) is an argument. A negative spacing is accepted and gives zeros (refuted)."
  },
  {
   "property": "C114",
   "status": "partial",
   "theorems": [
    "C114_fields",
    "C114_lead_times",
    "C114_analysis",
    "C114_times_agree_partial",
    "C114_times_agree_refuted",
    "C114_refused"
   ],
   "note": "The pysteps extrapolator is an argument, assumed only to return as many fields as asked for. Forecast periods agree with times only for an analysis that is not itself a forecast (C114_times_agree_refuted shows the other case). Attributes and history not modelled here."
  },
  {
   "property": "C115",
   "status": "proved",
   "theorems": [
    "C115_accepted",
    "C115_values",
    "C115_percentile_unique",
    "C115_percentile_increasing",
    "C115_percentile_units",
    "C115_percentile_members",
    "C115_percentile_shares",
    "C115_methods_agree",
    "C115_order",
    "C115_masks_handled",
    "C115_out_of_range_refuted"
   ],
   "note": "Exact rationals; requested percentages increase strictly (iris merges the fields by percentage); metadata other than the names of coordinates not modelled. numpy.percentile and mquantiles(alphap=betap=1) are modelled from their definitions."
  },
  {
   "property": "C116",
   "status": "partial",
   "theorems": [
    "C116_subset",
    "C116_site_alone",
    "C116_gridded",
    "C116_lapse",
    "C116_realizations",
    "C116_available",
    "C116_increasing",
    "C116_collapse",
    "C116_input_hash",
    "C116_refused",
    "C116_input_kept_refuted",
    "C116_bounds_option_refuted",
    "C116_site_dimension_refuted"
   ],
   "note": "Leading dimensions other than realization, percentile and threshold, scalar percentile and realization coordinates, titles and other attributes, and masked values where percentiles are resampled or probabilities converted are not modelled; percentiles are exact rationals. Three expectations are refuted: the input cube may lose an attribute, the option about ECC bounds does not reach resampling, the site dimension may be lost."
  },
  {
   "property": "C117",
   "status": "partial",
   "theorems": [
    "C117_verdict",
    "C117_order",
    "C117_reuse",
    "C117_display",
    "C117_first_line",
    "C117_command",
    "C117_reuse_refuted",
    "C117_relation_refuted",
    "C117_comment_refuted",
    "C117_collated_refuted"
   ],
   "note": "Verdict, order, display and command proved for every cube; the texts of errors, the verbose lines and the check of data types (C80) are not modelled, and four expected properties are refuted (reuse after refusal, relation word anywhere in the name, comment only as a prefix, errors that are raised rather than collated)."
  },
  {
   "property": "C118",
   "status": "partial",
   "theorems": [
    "C118_slices",
    "C118_same_surface_mean_partial",
    "C118_same_surface_sum",
    "C118_range",
    "C118_surface_range_partial",
    "C118_missing_one_surface",
    "C118_missing_becomes_zero",
    "C118_no_mixing_sum",
    "C118_no_mixing_mean_partial",
    "C118_arguments",
    "C118_extra_radii_ignored",
    "C118_all_land_zones_refuted",
    "C118_zones_sea_mean_partial",
    "C118_zones_sea_sum",
    "C118_zones_land",
    "C118_fractional_mask_refuted"
   ],
   "note": "The statements about means need edge_safe, as in C36 and C40 (the fast path for fields of mostly ones is wrong near edges); the sums, ranges, masks and refusals are proved without it. Refuted: missing data come out as 0 where land and sea both occur (C118_missing_becomes_zero); weights without a masked point are refused; a mask of fractions gives no result."
  },
  {
   "property": "C119",
   "status": "partial",
   "theorems": [
    "C119_unchanged",
    "C119_refused",
    "C119_numbers",
    "C119_realizations",
    "C119_total",
    "C119_percentile_range",
    "C119_percentile_values_partial",
    "C119_probability_range",
    "C119_probability_values_partial",
    "C119_raw_without_realizations"
   ],
   "note": "One validity time and unmasked data. The exact values at percentiles are proved for percentiles far enough apart to be told apart (spaced), those at probabilities for strictly rising distributions inside (0, 1)."
  },
  {
   "property": "C12",
   "status": "partial",
   "theorems": [
    "C12_monotone",
    "C12_within_range",
    "C12_exact_at_knots_partial",
    "C12_identity_partial",
    "C12_default_percentiles",
    "C12_asked_percentiles",
    "C12_endpoints_refuted"
   ],
   "note": "Exactness at an original percentile holds except at 0 and 100 when bounds are added (refuted there, differently for the two back ends)."
  },
  {
   "property": "C120",
   "status": "partial",
   "theorems": [
    "C120_times",
    "C120_calibrated",
    "C120_uncalibrated",
    "C120_percentiles",
    "C120_percentiles_refused",
    "C120_order",
    "C120_reason_refuted",
    "C120_two_forecasts_refuted"
   ],
   "note": "ApplyEMOS and the bounds of the distribution are arguments (C72 is about ApplyEMOS); exact values at the forecast's own percentiles for percentiles far enough apart (spaced). Refuted: that the result does not depend on the reason (C120_reason_refuted); that all forecasts given are used or refused (C120_two_forecasts_refuted); percentiles asked of a forecast without percentiles are an error (C120_percentiles_refused)."
  },
  {
   "property": "C121",
   "status": "proved",
   "theorems": [
    "C121_one_name",
    "C121_mask",
    "C121_names_refused",
    "C121_two_of_each",
    "C121_one_of_each",
    "C121_attribute",
    "C121_each_once",
    "C121_order",
    "C121_diagnostic"
   ],
   "note": "IOError is FileNotFound in the model; MergeCubes is an argument."
  },
  {
   "property": "C122",
   "status": "proved",
   "theorems": [
    "C122_totals",
    "C122_result",
    "C122_period_zero",
    "C122_adds_up",
    "C122_bounded",
    "C122_one_field",
    "C122_forecast_input_refuted"
   ],
   "note": "C122_totals, C122_result, C122_adds_up, C122_bounded, C122_period_zero for analyses, at any extrapolation that gives as many fields as asked (C114). C122_forecast_input_refuted: for an input that is itself a forecast the first minute is attributed to a later window, whose total is too large. The merging of the results along time is not modelled."
  },
  {
   "property": "C123",
   "status": "proved",
   "theorems": [
    "C123_layout",
    "C123_sites",
    "C123_refused",
    "C123_sites_refuted"
   ],
   "note": "C123_layout (exactly when, and what), C123_sites, C123_refused for matching lists of additional dimensions; C123_sites_refuted: lists of different lengths, or data with a dimension not described, can attach the sites to the wrong dimension. Coordinates are names and lengths."
  },
  {
   "property": "C124",
   "status": "proved",
   "theorems": [
    "C124_all_methods",
    "C124_same_sites",
    "C124_single",
    "C124_refused",
    "C124_no_land_refuted"
   ],
   "note": "C124_all_methods (iff), C124_same_sites, C124_single, C124_refused over Model_Spot (C58); C124_no_land_refuted: one grid without land points defeats all four. The squeezing of a single site's dimension before merging is not modelled."
  },
  {
   "property": "C125",
   "status": "proved",
   "theorems": [
    "C125_statistics",
    "C125_masked",
    "C125_determined",
    "C125_member_order",
    "C125_collapse",
    "C125_collapse_refused",
    "C125_blend",
    "C125_order",
    "C125_accepted",
    "C125_equal_sizes",
    "C125_all_members_alike_refuted",
    "C125_between"
   ],
   "note": "statistics of exact values; the standard deviation by its square; metadata of the blend in C109"
  },
  {
   "property": "C126",
   "status": "proved",
   "theorems": [
    "C126_order",
    "C126_same_time",
    "C126_order_same_time_refuted",
    "C126_times",
    "C126_linear",
    "C126_last",
    "C126_refused"
   ],
   "note": "strptime is an argument; merge along time as a list of slices"
  },
  {
   "property": "C127",
   "status": "proved",
   "theorems": [
    "C127_values",
    "C127_warning",
    "C127_accepted",
    "C127_order",
    "C127_ambiguous",
    "C127_refused",
    "C127_empty_lists_refuted",
    "C127_defaults"
   ],
   "note": "units that differ are taken as not convertible; cubes of one shape"
  },
  {
   "property": "C128",
   "status": "proved",
   "theorems": [
    "C128_loaded",
    "C128_nothing",
    "C128_axes",
    "C128_order",
    "C128_one",
    "C128_stable"
   ],
   "note": "iris.load is given as the list of cubes of a file; the order is stated for cubes whose dimensions all have names and whose x and y are not probabilistic coordinates."
  },
  {
   "property": "C129",
   "status": "partial",
   "theorems": [
    "C129_accepted",
    "C129_cube",
    "C129_times",
    "C129_attributes",
    "C129_grid",
    "C129_side",
    "C129_cells",
    "C129_one_refuted",
    "C129_one_realization",
    "C129_command"
   ],
   "note": "That one percentile or threshold can be given fails (C129_one_refuted) and one realization is dropped (C129_one_realization); the rest is proved. Coordinate systems, data types and spot cubes are not modelled."
  },
  {
   "property": "C13",
   "status": "proved",
   "theorems": [
    "C13_strict_accepts_iff",
    "C13_strict_value",
    "C13_warning_widens",
    "C13_warning_accepts_iff",
    "C13_thresholds_strict_rejects_iff",
    "C13_thresholds_widen"
   ],
   "note": ""
  },
  {
   "property": "C130",
   "status": "partial",
   "theorems": [
    "C130_cycles",
    "C130_given",
    "C130_no_truth",
    "C130_nothing",
    "C130_predictors",
    "C130_predictors_refuted"
   ],
   "note": "Proved for tables whose rows' times are cycle plus period. The clause on additional predictors is refuted for predictors whose sites are not in order of the identifier or that lack sites (C130_predictors_refuted), proved otherwise (C130_predictors). The estimation is an argument (see C73)."
  },
  {
   "property": "C131",
   "status": "partial",
   "theorems": [
    "C131_refused",
    "C131_refused_only",
    "C131_method",
    "C131_unused",
    "C131_between",
    "C131_line",
    "C131_powers",
    "C131_needed",
    "C131_zero_refuted",
    "C131_vicinity",
    "C131_vicinity_name",
    "C131_zero_radius",
    "C131_adjacent"
   ],
   "note": "The refusal of options that are given but zero is refuted (C131_zero_refuted). Cycle time, attributes and the record of runs in the result are those of C109/C108; weights that vary in space are C99's."
  },
  {
   "property": "C132",
   "status": "partial",
   "theorems": [
    "C132_refused",
    "C132_accepted",
    "C132_dry",
    "C132_rates",
    "C132_row_refuted"
   ],
   "note": "Refuted for fields without realizations on a grid of a single row or column (C132_row_refuted), proved otherwise."
  },
  {
   "property": "C133",
   "status": "proved",
   "theorems": [
    "C133_returned",
    "C133_refused",
    "C133_total"
   ],
   "note": "Follows for the whole command from C45 and the selection by name."
  },
  {
   "property": "C134",
   "status": "proved",
   "theorems": [
    "C134_realizations",
    "C134_plain",
    "C134_height"
   ],
   "note": "The correction of one realization (C102) is an argument."
  },
  {
   "property": "C135",
   "status": "partial",
   "theorems": [
    "C135_range",
    "C135_step",
    "C135_longitude",
    "C135_value",
    "C135_brackets",
    "C135_refused",
    "C135_units",
    "C135_no_units",
    "C135_colon_refuted",
    "C135_blank_none_refuted",
    "C135_command",
    "C135_command_units"
   ],
   "note": "Proved for ranges, numbers, texts, units and refusals. Refuted: text values with a colon (C135_colon_refuted); None with blanks as no units (C135_blank_none_refuted). Tuples, booleans, quoted texts and the keywords of iris.Constraint are not modelled."
  },
  {
   "property": "C136",
   "status": "partial",
   "theorems": [
    "C136_values",
    "C136_refused",
    "C136_missing",
    "C136_missing_refuted",
    "C136_order_refuted",
    "C136_realizations_refuted",
    "C136_one_row_refuted"
   ],
   "note": "Proved when the grid comes last, in the order time, y, x (C136_values). Refuted: that missing points stay missing (C136_missing_refuted) and that other orders of dimensions are right or refused (C136_order_refuted, C136_realizations_refuted)."
  },
  {
   "property": "C137",
   "status": "partial",
   "theorems": [
    "C137_copied",
    "C137_no_cubes",
    "C137_missing",
    "C137_remove_refuted",
    "C137_braces_refuted",
    "C137_number"
   ],
   "note": "Proved for texts that stand for themselves (C137_copied) and for missing attributes (C137_missing). Refuted for the texts remove and {} and for numbers."
  },
  {
   "property": "C138",
   "status": "proved",
   "theorems": [
    "C138_command",
    "C138_accepted",
    "C138_refused"
   ],
   "note": "Exact arithmetic; the standard deviation is given by its square."
  },
  {
   "property": "C139",
   "status": "partial",
   "theorems": [
    "C139_interpolates_case",
    "C139_crossing",
    "C139_high",
    "C139_sea",
    "C139_fit",
    "C139_missing",
    "C139_order",
    "C139_filled",
    "C139_complete",
    "C139_accepted",
    "C139_known",
    "C139_levels",
    "C139_highest",
    "C139_fields",
    "C139_temperature_order_refuted",
    "C139_square_root_case"
   ],
   "note": "C139_temperature_order_refuted shows the altitude depends on the order in which the temperature levels are listed; columns that are not monotone and the largest orography nearby (given) are not covered, metadata other than the name are not modelled"
  },
  {
   "property": "C14",
   "status": "proved",
   "theorems": [
    "C14_monotone",
    "C14_within_bounds",
    "C14_inverts_cdf",
    "C14_rounding",
    "C14_rounding_exact",
    "C14_complement",
    "C14_masking"
   ],
   "note": "The CDF is that of the probabilities rounded to nine decimals, as np.around does."
  },
  {
   "property": "C140",
   "status": "partial",
   "theorems": [
    "C140_beyond",
    "C140_circle",
    "C140_accepted",
    "C140_masked",
    "C140_values",
    "C140_bounded",
    "C140_increasing",
    "C140_inside",
    "C140_units",
    "C140_transposed",
    "C140_mirrored",
    "C140_order_refuted"
   ],
   "note": "C140_order_refuted: percentiles not given in increasing order are labelled wrongly; missing values, the squeezing of dimensions of one point and the metadata other than the percentiles are not modelled"
  },
  {
   "property": "C141",
   "status": "proved",
   "theorems": [
    "C141_remade",
    "C141_accepted",
    "C141_argument",
    "C141_refused_yet_renamed",
    "C141_below_called_above_refuted",
    "C141_once",
    "C141_command"
   ],
   "note": "The relabelling of below-threshold probabilities and the renaming of refused cubes are findings."
  },
  {
   "property": "C15",
   "status": "proved",
   "theorems": [
    "C15_process",
    "C15_rank_order",
    "C15_permutation",
    "C15_total",
    "C15_masked_point",
    "C15_masks_accepted",
    "C15_partial_mask_refuted"
   ],
   "note": "Permutation of the calibrated values and rank order for all raw ensembles, tie-break draws and numbers of members. C15_partial_mask_refuted documents a mask leak when the calibrated mask varies with percentile and the raw forecast is unmasked."
  },
  {
   "property": "C16",
   "status": "proved",
   "theorems": [
    "C16_cyclic",
    "C16_equal_sizes",
    "C16_even_use",
    "C16_numbers"
   ],
   "note": "Cyclic recycling, renumbering and even use, for all sizes."
  },
  {
   "property": "C17",
   "status": "partial",
   "theorems": [
    "C17_one_time_partial",
    "C17_several_times_refuted"
   ],
   "note": "Holds for one validity time; refuted for two or more: the loop rebinds random_seed to a RandomState, so the second int(random_seed) raises TypeError for every seed."
  },
  {
   "property": "C18",
   "status": "proved",
   "theorems": [
    "C18_labels",
    "C18_labels_increasing",
    "C18_values_sorted",
    "C18_round_trip",
    "C18_accepts_only_equal",
    "C18_crps_optimal_rejected"
   ],
   "note": "CRPS-optimal labels rejected for 2..1e9 members (the isclose tolerance is absolute beyond)."
  },
  {
   "property": "C19",
   "status": "proved",
   "theorems": [
    "C19_terminates",
    "C19_result",
    "C19_totals",
    "C19_well_sampled_unchanged",
    "C19_pass"
   ],
   "note": "Termination, run-grouping, totals, minimum count and the choice made by each pass, for all tables."
  },
  {
   "property": "C20",
   "status": "proved",
   "theorems": [
    "C20_total",
    "C20_monotone",
    "C20_unchanged",
    "C20_totals",
    "C20_runs",
    "C20_min_count",
    "C20_valid",
    "C20_held_up",
    "C20_held_down",
    "C20_adjusted_frequencies"
   ],
   "note": "Monotone frequencies, conserved totals, validity and the exact adjusted frequencies, for all tables and minimum counts >= 1."
  },
  {
   "property": "C21",
   "status": "proved",
   "theorems": [
    "C21_in_unit_interval",
    "C21_linear_inter_extrapolation",
    "C21_monotone",
    "C21_knots",
    "C21_masked",
    "C21_too_few_bins",
    "C21_after_manipulation"
   ],
   "note": "Range, monotonicity, equality with the clipped linear inter/extrapolation, and the whole chain from a raw table."
  },
  {
   "property": "C22",
   "status": "proved",
   "theorems": [
    "C22_bin_contents",
    "C22_one_bin",
    "C22_every_forecast_counted",
    "C22_nan_ignored",
    "C22_masked_truth_ignored",
    "C22_observations_and_mean",
    "C22_default_bins"
   ],
   "note": "Contents of every bin for all histories (truth masks and NaN forecasts included); float32 is abstracted to any grid with rounding and neighbours."
  },
  {
   "property": "C23",
   "status": "partial",
   "theorems": [
    "C23_split_times",
    "C23_order_of_times",
    "C23_aggregate_sums",
    "C23_accepted_disjoint",
    "C23_no_mask",
    "C23_mask_every_time_partial",
    "C23_mask_order_refuted"
   ],
   "note": "Table data are additive and order independent; aggregation accepts only disjoint ordered ranges. The mask of the table is order independent only if all or no times have masked points (C23_mask_order_refuted, using numpy's union of masks in np.add(..., out=...))."
  },
  {
   "property": "C24",
   "status": "proved",
   "theorems": [
    "C24_total",
    "C24_error",
    "C24_sum_one",
    "C24_ratio",
    "C24_idempotent",
    "C24_scale_free",
    "C24_axis"
   ],
   "note": ""
  },
  {
   "property": "C25",
   "status": "proved",
   "theorems": [
    "C25_linear",
    "C25_linear_total",
    "C25_linear_increasing",
    "C25_nonlinear",
    "C25_nonlinear_total",
    "C25_inverse_ordering",
    "C25_forward_ordering",
    "C25_triangular",
    "C25_triangular_linear",
    "C25_triangular_total",
    "C25_configured",
    "C25_configured_interp",
    "C25_descending_config_refuted"
   ],
   "note": "finding: ChooseWeightsLinear swaps its fill values for descending configurations (C25_descending_config_refuted)"
  },
  {
   "property": "C26",
   "status": "proved",
   "theorems": [
    "C26_monotone",
    "C26_within_range",
    "C26_single",
    "C26_identical",
    "C26_identical_tied_refuted",
    "C26_order",
    "C26_zero_weight_refuted",
    "C26_zero_sum",
    "C26_renormalised"
   ],
   "note": "findings: zero-weight inputs still shape the top percentile; identical forecasts with tied values do not blend to themselves; all-zero weights give the maximum"
  },
  {
   "property": "C27",
   "status": "proved",
   "theorems": [
    "C27_value",
    "C27_bounds",
    "C27_constant",
    "C27_masked",
    "C27_order",
    "C27_ignored",
    "C27_units",
    "C27_weight_scale",
    "C27_default_weights",
    "C27_process",
    "C27_process_order",
    "C27_times",
    "C27_point_check_refuted"
   ],
   "note": "units of degrees (blending through complex numbers) not modelled; finding: points of the weights cube are not compared with the data cube"
  },
  {
   "property": "C28",
   "status": "proved",
   "theorems": [
    "C28_ordered",
    "C28_success_iff",
    "C28_single_threshold_refuted"
   ],
   "note": "With a single threshold the step always raises (proved separately)."
  },
  {
   "property": "C29",
   "status": "partial",
   "theorems": [
    "C29_recursive_filter_coefficients_refuted",
    "C29_threshold",
    "C29_aggregate_default",
    "C29_blend_dimension_coord",
    "C29_interpolation_interval",
    "C29_interpolation_same_inputs",
    "C29_accumulation_explicit",
    "C29_combine_named",
    "C29_broadcast_named",
    "C29_neighbourhood_radius",
    "C29_reliability_threshold_coord",
    "C29_other_distributions",
    "C29_threshold_percentile_refuted",
    "C29_truncnorm_refuted",
    "C29_aggregate_list_refuted",
    "C29_blend_refuted",
    "C29_interpolation_times_refuted",
    "C29_interpolation_times_extra_refuted",
    "C29_accumulation_default_refuted",
    "C29_combine_refuted",
    "C29_broadcast_refuted",
    "C29_daynight_refuted",
    "C29_daynight_regular",
    "C29_decision_tree",
    "C29_decision_tree_refuted"
   ],
   "note": "History independence proved for the configurations in which it holds and refuted, by witness histories, for percentile Threshold, truncnorm, caller-supplied coordinate lists, auxiliary blend coordinates, explicit interpolation times, default accumulation settings, unnamed Combine, threshold broadcast, DayNightMask on spot data and ApplyDecisionTree after a call with a missing optional diagnostic."
  },
  {
   "property": "C30",
   "status": "partial",
   "theorems": [
    "C30_rejects_unenclosed_threshold",
    "C30_rejects_bad_factor",
    "C30_rejects_bounds_and_factor",
    "C30_rejects_values_and_config",
    "C30_rejects_unknown_operator",
    "C30_accepted_encloses",
    "C30_accepted_applies_partial",
    "C30_accepted_applies_refuted",
    "C30_mixed_config_refuted"
   ],
   "note": "An accepted configuration whose bound equals the threshold on one side fails at process time (refuted), and mixed None configurations."
  },
  {
   "property": "C31",
   "status": "proved",
   "theorems": [
    "C31_range",
    "C31_masked_zero",
    "C31_sum_one",
    "C31_fuzzy_edge",
    "C31_sum_refuted"
   ],
   "note": "one grid point at a time; scipy distance transform is an arbitrary input"
  },
  {
   "property": "C32",
   "status": "proved",
   "theorems": [
    "C32_interval_times",
    "C32_interval_times_day_refuted",
    "C32_interval_times_any_gap",
    "C32_given_times",
    "C32_inputs",
    "C32_inputs_error",
    "C32_times",
    "C32_linear",
    "C32_period_max",
    "C32_period_min",
    "C32_accumulation",
    "C32_accumulation_dry_refuted",
    "C32_bounds",
    "C32_solar",
    "C32_solar_whole_days_refuted",
    "C32_daynight"
   ],
   "note": "Statement restricted to where it holds; violations outside proved as C32_*_refuted. Degrees, data types and the solar formula are not modelled."
  },
  {
   "property": "C33",
   "status": "proved",
   "theorems": [
    "C33_order_free",
    "C33_regular_iff",
    "C33_period_iff",
    "C33_value",
    "C33_time_bounds",
    "C33_constant_rate",
    "C33_nonneg",
    "C33_additive",
    "C33_covers",
    "C33_coverage_refuted",
    "C33_same_time_refuted"
   ],
   "note": "Statement restricted to where it holds; violations outside proved as C33_*_refuted. Units conversion not modelled."
  },
  {
   "property": "C34",
   "status": "proved",
   "theorems": [
    "C34_inversion",
    "C34_condition",
    "C34_classify",
    "C34_every_point_classified",
    "C34_order_irrelevant",
    "C34_process",
    "C34_required_missing",
    "C34_joined_branches_refuted",
    "C34_start_leaf_refuted",
    "C34_expression",
    "C34_expression_refuted",
    "C34_daynight",
    "C34_thresholds",
    "C34_tree_reuse_refuted"
   ],
   "note": "At one grid point, for trees as syntax; cube extraction by name/threshold, check_tree and metadata are not modelled."
  },
  {
   "property": "C35",
   "status": "proved",
   "theorems": [
    "C35_modal",
    "C35_order_independent",
    "C35_member",
    "C35_unanimous"
   ],
   "note": "At one grid point; masked codes, cube merging and metadata are not modelled."
  },
  {
   "property": "C36",
   "status": "partial",
   "theorems": [
    "C36_sum",
    "C36_mean_partial",
    "C36_missing_iff",
    "C36_range",
    "C36_local_range_partial",
    "C36_masked_irrelevant_partial",
    "C36_order_kept_partial",
    "C36_boxsum",
    "C36_circular_mean",
    "C36_no_ones_safe",
    "C36_square_edge_refuted"
   ],
   "note": "Sums, missing points, the global range, re-masking and the whole circular method are proved for every field. For the square mean the statement is refuted (C36_square_edge_refuted) and proved for every field whose values other than one stay clear of the edge or reach all four edges (in particular every field without ones)."
  },
  {
   "property": "C37",
   "status": "proved",
   "theorems": [
    "C37_value",
    "C37_masked_points_untouched",
    "C37_radius_monotone",
    "C37_zero_radius",
    "C37_occurrence",
    "C37_order_kept",
    "C37_vicinity_of_vicinity"
   ],
   "note": "all clauses"
  },
  {
   "property": "C38",
   "status": "partial",
   "theorems": [
    "C38_rejections",
    "C38_range",
    "C38_constant_kept",
    "C38_order_kept",
    "C38_negative_coefficients_refuted",
    "C38_mask_kept",
    "C38_first_mask_only_refuted",
    "C38_masked_values_isolated_partial",
    "C38_masked_values_leak_refuted"
   ],
   "note": "range, constants, order, mask and rejections proved; isolation of masked values proved for one iteration and refuted for two; negative coefficients, first-slice mask and coefficient mutation refuted"
  },
  {
   "property": "C39",
   "status": "proved",
   "theorems": [
    "C39_spacing",
    "C39_spacing_accepted",
    "C39_cells",
    "C39_cells_roundtrip",
    "C39_cells_monotone",
    "C39_halo_coordinate",
    "C39_halo_data",
    "C39_uneven_coordinate_refuted"
   ],
   "note": "all clauses; the exception in the statement is proved as a refutation"
  },
  {
   "property": "C40",
   "status": "partial",
   "theorems": [
    "C40_zone_mean_partial",
    "C40_zone_sum",
    "C40_zone_missing",
    "C40_zone_range",
    "C40_collapsed_mean",
    "C40_collapsed_range",
    "C40_reused_mask_refuted",
    "C40_reused_radius_refuted"
   ],
   "note": "zone means for edge-safe fields (C36), sums, missing points, range and collapsing for every field; reuse of a slice with another mask or radius refuted"
  },
  {
   "property": "C41",
   "status": "proved",
   "theorems": [
    "C41_arguments",
    "C41_arguments_fit",
    "C41_mismatch",
    "C41_listed_lead_time",
    "C41_outside",
    "C41_range",
    "C41_monotone",
    "C41_process",
    "C41_several_lead_times_refuted",
    "C41_list_without_lead_times_refuted"
   ],
   "note": "all clauses; the two exceptions are proved as refutations"
  },
  {
   "property": "C42",
   "status": "proved",
   "theorems": [
    "C42_value",
    "C42_probability",
    "C42_formula_monotone",
    "C42_formula_limits",
    "C42_neighbourhood_refuted",
    "C42_several_times_refuted"
   ],
   "note": "all clauses; that smoothing has no effect and that several times are refused is proved"
  },
  {
   "property": "C43",
   "status": "proved",
   "theorems": [
    "C43_points",
    "C43_accepted",
    "C43_range",
    "C43_weights",
    "C43_sum_to_one",
    "C43_local",
    "C43_no_step",
    "C43_outside",
    "C43_warnings",
    "C43_lowest_bound_refuted",
    "C43_band_masks",
    "C43_masks_partition",
    "C43_land_sea"
   ],
   "note": "The lowest bound itself is in no band: such points get zero weights although no warning is given (C43_lowest_bound_refuted)."
  },
  {
   "property": "C44",
   "status": "proved",
   "theorems": [
    "C44_consistent",
    "C44_accepted",
    "C44_idempotent",
    "C44_warning",
    "C44_probability",
    "C44_probability_pairs_refused",
    "C44_mixed_refused"
   ],
   "note": "Masks and broadcasting of a reference of another shape are not modelled."
  },
  {
   "property": "C45",
   "status": "partial",
   "theorems": [
    "C45_shares",
    "C45_total",
    "C45_nonnegative",
    "C45_refused",
    "C45_idempotent",
    "C45_transposed_refuted",
    "C45_split"
   ],
   "note": "Refuted for fields whose dimensions are the reference's in another order: coordinates are matched by name and data by position (C45_transposed_refuted)."
  },
  {
   "property": "C46",
   "status": "partial",
   "theorems": [
    "C46_combination",
    "C46_refused",
    "C46_order",
    "C46_broadcast",
    "C46_fewer_dimensions_refuted",
    "C46_realization_refuted",
    "C46_window",
    "C46_window_maximum",
    "C46_bounds"
   ],
   "note": "Refuted where the dimension check stops at the shorter list of coordinates (C46_fewer_dimensions_refuted) and for one realization against several when broadcasting to another coordinate (C46_realization_refuted). minimum_realizations (filter_realizations) and names/cell methods not modelled."
  },
  {
   "property": "C47",
   "status": "proved",
   "theorems": [
    "C47_value",
    "C47_accepted",
    "C47_two_cubes",
    "C47_order_free",
    "C47_near_label",
    "C47_monotone"
   ],
   "note": "masks and the reordering of the row cube's dimensions are not modelled"
  },
  {
   "property": "C48",
   "status": "partial",
   "theorems": [
    "C48_value",
    "C48_accepted",
    "C48_direction",
    "C48_monotone",
    "C48_zero_start_refuted",
    "C48_partial_layer_refuted"
   ],
   "note": "the value theorem excludes limits of exactly zero, for which C48_zero_start_refuted shows the property is false of the code; C48_partial_layer_refuted shows limits between levels drop whole layers"
  },
  {
   "property": "C49",
   "status": "proved",
   "theorems": [
    "C49_least_squares",
    "C49_exact_line",
    "C49_defined",
    "C49_line_exists"
   ],
   "note": "division by zero variance is None (numpy: NaN or masked)"
  },
  {
   "property": "C50",
   "status": "proved",
   "theorems": [
    "C50_mask_accepted",
    "C50_masks_partition",
    "C50_sleet",
    "C50_sleet_accepted",
    "C50_surface_phase",
    "C50_percentile_missing",
    "C50_one_phase",
    "C50_split_complete",
    "C50_split_range",
    "C50_split_grids",
    "C50_split_names"
   ],
   "note": "Point fields of one shape; numpy broadcasting between different shapes and attributes are not modelled."
  },
  {
   "property": "C51",
   "status": "proved",
   "theorems": [
    "C51_hail",
    "C51_updraught_ramp",
    "C51_hail_monotone",
    "C51_convective_ratio",
    "C51_showers",
    "C51_showers_accepted"
   ],
   "note": "Exact arithmetic; NaN inputs not modelled."
  },
  {
   "property": "C52",
   "status": "partial",
   "theorems": [
    "C52_mean",
    "C52_value",
    "C52_common_refuted",
    "C52_order_refuted",
    "C52_range",
    "C52_needs_realizations",
    "C52_temperature",
    "C52_temperature_accepted"
   ],
   "note": "Proved when every rain realization is shared and all inputs list realizations in increasing order (C52_mean); refuted otherwise: the divisor is the number of rain realizations before matching (C52_common_refuted), and members are paired by position (C52_order_refuted). Rain without but sleet with realizations is not modelled."
  },
  {
   "property": "C53",
   "status": "partial",
   "theorems": [
    "C53_known_kept",
    "C53_same_size",
    "C53_filled",
    "C53_difference_known",
    "C53_difference_range",
    "C53_constant_difference",
    "C53_difference_complete",
    "C53_nothing_known",
    "C53_unmasked",
    "C53_reference_complete",
    "C53_slices",
    "C53_short_reference_refuted",
    "C53_snow_fraction",
    "C53_snow_fraction_inputs"
   ],
   "note": "griddata is an argument (arbitrary for the linear method, required to return nearest known values for the nearest method). Infinite values are not modelled. A reference with fewer slices than the cube silently shortens the result (C53_short_reference_refuted)."
  },
  {
   "property": "C54",
   "status": "partial",
   "theorems": [
    "C54_cells",
    "C54_total",
    "C54_range_ends",
    "C54_range_only",
    "C54_range_negative_refuted",
    "C54_thinning",
    "C54_thinning_refused",
    "C54_nothing_to_thin",
    "C54_caller",
    "C54_caller_refuted",
    "C54_plugin"
   ],
   "note": "Refuted for negative range bounds (a negative end point is excluded by its own tolerance) and for the caller's cube with use_original_units=False. Longitude ranges (Cube.intersection), text parsing and negative steps are not modelled."
  },
  {
   "property": "C55",
   "status": "partial",
   "theorems": [
    "C55_fill",
    "C55_complete",
    "C55_increment",
    "C55_monotone_partial",
    "C55_gap_refuted"
   ],
   "note": "Strict monotonicity holds when only the ends are missing; refuted for gaps inside a column. The interpolation to the level (stratify) is not modelled."
  },
  {
   "property": "C56",
   "status": "proved",
   "theorems": [
    "C56_accepted",
    "C56_refused",
    "C56_range",
    "C56_default",
    "C56_least_squares",
    "C56_linear_profile",
    "C56_local"
   ],
   "note": "One realization at a time; np.isclose of a standard deviation is modelled as a bound on the variance. Dimension bookkeeping of process is not modelled."
  },
  {
   "property": "C57",
   "status": "partial",
   "theorems": [
    "C57_adjustment",
    "C57_zero",
    "C57_odd",
    "C57_no_jump",
    "C57_gridded_same_order",
    "C57_gridded_refused",
    "C57_gridded_order_refuted",
    "C57_gridded_extra_refuted"
   ],
   "note": "The gridded pairing is proved for equal dimensions in equal order and refuted otherwise (C57_gridded_order_refuted, C57_gridded_extra_refuted)."
  },
  {
   "property": "C58",
   "status": "proved",
   "theorems": [
    "C58_sites",
    "C58_nearest",
    "C58_land",
    "C58_minimum_dz",
    "C58_minimum_dz_all",
    "C58_reach",
    "C58_on_grid",
    "C58_displacement",
    "C58_no_altitude",
    "C58_wmo",
    "C58_ids",
    "C58_accepted",
    "C58_independent",
    "C58_node_limit_refuted",
    "C58_method_name"
   ],
   "note": "k-d tree, nearest_neighbour_index and coordinate transformation are parameters (the tree with its specification, which insertion sort meets). C58_node_limit_refuted: a node_limit below the number of points in the radius may miss the best height match."
  },
  {
   "property": "C59",
   "status": "proved",
   "theorems": [
    "C59_grid_match",
    "C59_bounds_refuted",
    "C59_value",
    "C59_refused",
    "C59_end_to_end",
    "C59_fixed",
    "C59_gridded",
    "C59_lapse_checked"
   ],
   "note": "Grids that differ only in their bounds match (C59_bounds_refuted: create_coordinate_hash tests isinstance(bounds, list), never true). Hash collisions excluded."
  },
  {
   "property": "C60",
   "status": "partial",
   "theorems": [
    "C60_values",
    "C60_between",
    "C60_outside",
    "C60_range",
    "C60_no_displacement",
    "C60_monotone",
    "C60_distribution",
    "C60_consistency_refuted",
    "C60_above_refuted",
    "C60_accepted",
    "C60_too_few",
    "C60_sites"
   ],
   "note": "Refuted: for probabilities of exceeding a threshold the maximum is used above the highest threshold instead of its probability (C60_above_refuted); values move up by dz while the probabilities describe an ensemble moved down by dz (C60_consistency_refuted, C60_distribution). Everything else proved."
  },
  {
   "property": "C61",
   "status": "partial",
   "theorems": [
    "C61_value",
    "C61_masked",
    "C61_range",
    "C61_edge_refuted",
    "C61_shift",
    "C61_mask_growth_refuted",
    "C61_no_step",
    "C61_linear",
    "C61_cube"
   ],
   "note": "Proved of the faithful model: value, mask, linearity, times, exact shift without masked values, range if 0 is in the range or the source lies between grid points. C61_edge_refuted: beyond the last row or column values fade towards zero (a missing neighbour counts as 0). C61_mask_growth_refuted: with a whole-number shift a masked value also masks its neighbours (0 weight times NaN)."
  },
  {
   "property": "C62",
   "status": "proved",
   "theorems": [
    "C62_subtract",
    "C62_add",
    "C62_masked",
    "C62_round_trip",
    "C62_nearest",
    "C62_lead_times",
    "C62_lead_times_ascending",
    "C62_forecast",
    "C62_analysis",
    "C62_nonnegative",
    "C62_refused",
    "C62_no_enhancement_time"
   ],
   "note": ""
  },
  {
   "property": "C63",
   "status": "partial",
   "theorems": [
    "C63_coverage",
    "C63_extension_refuted",
    "C63_filled",
    "C63_value",
    "C63_border",
    "C63_range"
   ],
   "note": "C63_extension_refuted: the old mask is replaced, not extended. C63_border is proved for the two outermost rows and columns; C63_case shows that the third row is filled although documented as not considered. The geometric mean is an arbitrary function."
  },
  {
   "property": "C64",
   "status": "partial",
   "theorems": [
    "C64_pairs",
    "C64_kept",
    "C64_truths_kept",
    "C64_refused",
    "C64_order",
    "C64_idempotent",
    "C64_mixed_bounds_refuted",
    "C64_bounds_on_forecast_only",
    "C64_containment"
   ],
   "note": "Holds when forecasts and truths both have, or both lack, time bounds; refuted for mixed bounds."
  },
  {
   "property": "C65",
   "status": "partial",
   "theorems": [
    "C65_accepted",
    "C65_value",
    "C65_labels",
    "C65_apply",
    "C65_correction_accepted",
    "C65_range",
    "C65_masked_bias",
    "C65_spin_up",
    "C65_unbiased",
    "C65_mean_of_singles",
    "C65_caller",
    "C65_caller_refuted"
   ],
   "note": "All parts proved except that the caller's cubes stay unchanged, which is refuted when a single bias cube is filled."
  },
  {
   "property": "C66",
   "status": "partial",
   "theorems": [
    "C66_pooled",
    "C66_sites",
    "C66_sufficiency_refuted",
    "C66_monotone",
    "C66_merge",
    "C66_merge_refuted",
    "C66_match",
    "C66_match_error",
    "C66_validity",
    "C66_unified",
    "C66_kinds",
    "C66_split",
    "C66_split_refused",
    "C66_split_refuted",
    "C66_split_three"
   ],
   "note": "Sufficiency refuted for pairs with one NaN (the code counts pairs with both); splitting refuted for two forecasts that are not probabilities; the rest proved."
  },
  {
   "property": "C67",
   "status": "partial",
   "theorems": [
    "C67_bilinear",
    "C67_range",
    "C67_node",
    "C67_node_refuted",
    "C67_linear",
    "C67_independent",
    "C67_close_refuted",
    "C67_accepted",
    "C67_none_covered",
    "C67_nearest"
   ],
   "note": "Exact arithmetic on regular ascending grids. Refuted parts: a target within numpy.isclose of the last row or column but not on it is extrapolated (C67_close_refuted); a missing corner of weight zero makes a target on a valid source point missing (C67_node_refuted); no covered target is an error (C67_none_covered)."
  },
  {
   "property": "C68",
   "status": "partial",
   "theorems": [
    "C68_weights",
    "C68_uniform",
    "C68_own_only",
    "C68_same_type",
    "C68_triangle",
    "C68_nearest",
    "C68_missing_refuted",
    "C68_corner_refuted"
   ],
   "note": "The nearest-neighbour search is an argument with the hypothesis that it is correct (a correct one is exhibited). Refuted parts: missing sources of weight zero make the result missing; a matching corner can be ignored on a grid coarser than the vicinity."
  },
  {
   "property": "C69",
   "status": "proved",
   "theorems": [
    "C69_modes",
    "C69_attributes",
    "C69_adjust",
    "C69_types",
    "C69_cutout",
    "C69_contains"
   ],
   "note": ""
  },
  {
   "property": "C70",
   "status": "partial",
   "theorems": [
    "C70_percentile",
    "C70_ordered",
    "C70_within_limits",
    "C70_degenerate",
    "C70_limits_refuted",
    "C70_mask",
    "C70_accepted",
    "C70_which",
    "C70_probability",
    "C70_probability_ordered",
    "C70_complement",
    "C70_probability_mask",
    "C70_consistent",
    "C70_units",
    "C70_units_refuted",
    "C70_zero_scale_refuted",
    "C70_distribution",
    "C70_zero_number",
    "C70_template"
   ],
   "note": "Proved for every distribution with the laws of a quantile/distribution function pair; refuted: limits at zero scale, units with an offset, zero scale probabilities are NaN. Percentiles 0 and 100 not modelled."
  },
  {
   "property": "C71",
   "status": "partial",
   "theorems": [
    "C71_mean",
    "C71_mean_defined",
    "C71_order",
    "C71_predictors",
    "C71_members",
    "C71_member_sites",
    "C71_cells_refuted",
    "C71_one_member_refuted",
    "C71_scale",
    "C71_scale_monotone",
    "C71_realization_order",
    "C71_domain",
    "C71_compatible",
    "C71_mask"
   ],
   "note": "Exact formulas proved; refuted: realizations predictor with per-cell coefficients, or one member at several sites, raises."
  },
  {
   "property": "C72",
   "status": "proved",
   "theorems": [
    "C72_attribute",
    "C72_sites",
    "C72_count",
    "C72_kind",
    "C72_type",
    "C72_rows",
    "C72_sea",
    "C72_land",
    "C72_percentiles",
    "C72_probabilities",
    "C72_realizations"
   ],
   "note": "Whole plugin with land-sea mask, all three output types; conversion to realizations is an argument."
  },
  {
   "property": "C73",
   "status": "partial",
   "theorems": [
    "C73_pairs",
    "C73_pairs_refuted",
    "C73_sea",
    "C73_mask_additional_refuted",
    "C73_default_mean",
    "C73_default_members",
    "C73_regression_mean",
    "C73_regression_members_refuted",
    "C73_scored_mean",
    "C73_scored_sites",
    "C73_scored_members",
    "C73_point",
    "C73_colocated_refuted",
    "C73_single_point",
    "C73_missing_truth",
    "C73_nan_forecast_refuted",
    "C73_accepted",
    "C73_realizations",
    "C73_score",
    "C73_guess",
    "C73_masking"
   ],
   "note": "Alignment, training/application agreement, per-point independence proved for every minimiser; refuted: pairing at sites with different masks, regression guess for realizations, mask with additional fields, co-located sites, NaN forecasts. The search itself and CRPS formulas are arguments."
  },
  {
   "property": "C74",
   "status": "partial",
   "theorems": [
    "C74_maximum",
    "C74_levels_needed",
    "C74_one_level",
    "C74_height",
    "C74_which",
    "C74_lowest_refuted",
    "C74_unmatched",
    "C74_composed",
    "C74_outside_refuted"
   ],
   "note": "All of the property is settled for unmasked data. The choice between tied levels is the opposite of what is documented: C74_which proves that find_lowest gives the highest level, C74_lowest_refuted refutes the documented choice; C74_outside_refuted: the height may be outside the bounds of the maximum. Masked data is not modelled."
  },
  {
   "property": "C75",
   "status": "proved",
   "theorems": [
    "C75_values",
    "C75_error",
    "C75_order",
    "C75_idempotent",
    "C75_anonymous",
    "C75_added",
    "C75_sorted"
   ],
   "note": "For cubes whose dimensions all have a coordinate; with an anonymous dimension C75_anonymous shows that nothing is ever reordered. Asking for one dimension twice is excluded in C75_order (C75_case shows the ValueError)."
  },
  {
   "property": "C76",
   "status": "partial",
   "theorems": [
    "C76_differences",
    "C76_single",
    "C76_equalised",
    "C76_cell_methods",
    "C76_periods",
    "C76_periods_refuted",
    "C76_bounds",
    "C76_bounds_refused",
    "C76_realizations",
    "C76_realizations_refused",
    "C76_clip"
   ],
   "note": "Attributes, cell methods, period check, expand_bounds and filter_realizations; iris' merge itself is modelled only for filter_realizations. C76_periods_refuted: periods longer than a day may differ by seconds."
  },
  {
   "property": "C77",
   "status": "partial",
   "theorems": [
    "C77_generated",
    "C77_generated_refused",
    "C77_generated_order",
    "C77_model_id",
    "C77_new_cube",
    "C77_new_cube_caller_refuted",
    "C77_new_cube_caller",
    "C77_amend",
    "C77_amend_failure",
    "C77_amend_order",
    "C77_amend_insert",
    "C77_amend_twice",
    "C77_amend_set",
    "C77_history"
   ],
   "note": "That create_new_diagnostic_cube leaves the caller's dictionary alone is refuted (it merges the optional attributes into it); values with {now:...} are an oracle, and format fields other than {} are taken as errors."
  },
  {
   "property": "C78",
   "status": "proved",
   "theorems": [
    "C78_words",
    "C78_refused",
    "C78_error",
    "C78_set",
    "C78_stages"
   ],
   "note": "For every list of cubes whose identifiers are strings."
  },
  {
   "property": "C79",
   "status": "partial",
   "theorems": [
    "C79_diagnostic",
    "C79_vicinity",
    "C79_refused",
    "C79_accepted",
    "C79_renamed",
    "C79_renamed_refuted",
    "C79_cell_methods",
    "C79_renamed_plain",
    "C79_probability_methods"
   ],
   "note": "Renaming is proved for diagnostics whose name occurs once in the cube's name and refuted otherwise; newlines in names are not considered."
  },
  {
   "property": "C80",
   "status": "partial",
   "theorems": [
    "C80_round",
    "C80_round_refuted",
    "C80_kept",
    "C80_calculated",
    "C80_refused",
    "C80_kind",
    "C80_bounds_refuted",
    "C80_range_refuted",
    "C80_references_refuted"
   ],
   "note": "Proved for one reference time, lengths of time that fit an int32; refuted for the bounds with several reference times, for longer periods, for reference times in different units; round_close's refusal of non-integers is refuted for large numbers."
  },
  {
   "property": "C81",
   "status": "proved",
   "theorems": [
    "C81_cycle",
    "C81_blend_time",
    "C81_latest",
    "C81_latest_refused",
    "C81_rebadged",
    "C81_single",
    "C81_again"
   ],
   "note": "For cubes whose other coordinates meet the standards and whose validity times fit an int32 from the cycle."
  },
  {
   "property": "C82",
   "status": "proved",
   "theorems": [
    "C82_standards",
    "C82_enforced"
   ],
   "note": "Types and units as listed in TIME_COORDS."
  },
  {
   "property": "C83",
   "status": "partial",
   "theorems": [
    "C83_direction",
    "C83_agreement_range",
    "C83_unanimous",
    "C83_member_order",
    "C83_rotation",
    "C83_within",
    "C83_backup_control",
    "C83_backup_neighbourhood",
    "C83_opposite",
    "C83_range",
    "C83_range_control_refuted",
    "C83_errors",
    "C83_cube",
    "C83_reuse",
    "C83_reuse_refuted"
   ],
   "note": "Complete for the slice and the circular mean in real arithmetic; the statement's reuse clause holds as refuted. Missing: float32 (numpy's mod may round up to 360), the neighbourhood smoothing itself is a parameter (it is C36), coordinates other than one leading time."
  },
  {
   "property": "C84",
   "status": "partial",
   "theorems": [
    "C84_components",
    "C84_back",
    "C84_from_to",
    "C84_twice_refuted"
   ],
   "note": "The trigonometry at a point, from and to, and the change in place. Missing: the computation of the grid's angle (iris rotate_winds and regridding) and metadata."
  },
  {
   "property": "C85",
   "status": "proved",
   "theorems": [
    "C85_read_written",
    "C85_written_read",
    "C85_one_reading",
    "C85_accepted",
    "C85_mismatch_position",
    "C85_commands",
    "C85_failure",
    "C85_dry_run",
    "C85_unmatched",
    "C85_object_reaches",
    "C85_wrapped_once",
    "C85_name_loaded",
    "C85_output",
    "C85_not_saved"
   ],
   "note": "Complete for brackets, nested execution, wrapped objects and output; clize's own parsing of options and the commands themselves are the dispatcher, a parameter."
  },
  {
   "property": "C86",
   "status": "partial",
   "theorems": [
    "C86_range",
    "C86_masked",
    "C86_entry",
    "C86_small",
    "C86_negative_refuted",
    "C86_monotone",
    "C86_reduced",
    "C86_height",
    "C86_high",
    "C86_reduction",
    "C86_low_unchanged",
    "C86_gap",
    "C86_unchanged_below_3350_refuted",
    "C86_height_everywhere_refuted"
   ],
   "note": "Complete for the tables at a point; two documented promises are refuted. Missing: the ascent and descent (psychrometric formulae) and the extraction of the 268.15 K level (C54), which are inputs; float32."
  },
  {
   "property": "C87",
   "status": "partial",
   "theorems": [
    "C87_gradient",
    "C87_slope",
    "C87_descending_refuted",
    "C87_sphere",
    "C87_limits",
    "C87_range",
    "C87_order",
    "C87_linear",
    "C87_even_refuted",
    "C87_mask",
    "C87_mask_grid",
    "C87_mask_refuted",
    "C87_filter"
   ],
   "note": "Exact unmasked data, power function and length of a degree as arguments; regridding of gradients, order of dimensions and metadata are not modelled. Several expectations are refuted."
  },
  {
   "property": "C88",
   "status": "partial",
   "theorems": [
    "C88_ratio",
    "C88_ratio_range",
    "C88_smooth",
    "C88_rough",
    "C88_texture",
    "C88_refused",
    "C88_edge_refuted"
   ],
   "note": "Unmasked data with the wanted threshold already extracted; conversion of the radius to cells and metadata are not modelled. One expectation about the edge of the domain is refuted."
  },
  {
   "property": "C89",
   "status": "proved",
   "theorems": [
    "C89_top",
    "C89_total",
    "C89_independent",
    "C89_depth",
    "C89_above",
    "C89_no_cloud",
    "C89_order_refuted"
   ],
   "note": "The temperature of the parcel at a pressure is an argument of each point (any function). Independence of the order of levels is refuted."
  },
  {
   "property": "C90",
   "status": "proved",
   "theorems": [
    "C90_threshold",
    "C90_threshold_shape",
    "C90_latitude",
    "C90_refused",
    "C90_lightning",
    "C90_inputs",
    "C90_order_refuted"
   ],
   "note": "Rows of data by latitude, exact arithmetic. Independence of the order of dimensions is refuted."
  },
  {
   "property": "C91",
   "status": "proved",
   "theorems": [
    "C91_value",
    "C91_range",
    "C91_dry",
    "C91_cape",
    "C91_inhibition",
    "C91_cape_refuted",
    "C91_convention_refuted",
    "C91_inputs"
   ],
   "note": "Real numbers (standard library axioms); float32 and metadata are not modelled. Monotonicity at CAPE = 0 and positive inhibition are refuted."
  },
  {
   "property": "C92",
   "status": "proved",
   "theorems": [
    "C92_value",
    "C92_share",
    "C92_probability",
    "C92_monotone",
    "C92_direction",
    "C92_refused",
    "C92_cloud_direction_refuted",
    "C92_initial_value_refuted"
   ],
   "note": "masked data and metadata other than name, direction and thresholds not modelled"
  },
  {
   "property": "C93",
   "status": "partial",
   "theorems": [
    "C93_value",
    "C93_wind",
    "C93_humidity",
    "C93_cold",
    "C93_colder",
    "C93_walking",
    "C93_warmer",
    "C93_gale_refuted",
    "C93_units"
   ],
   "note": "float32 arithmetic not modelled; saturation vapour pressure is an argument"
  },
  {
   "property": "C94",
   "status": "proved",
   "theorems": [
    "C94_standards",
    "C94_idempotent",
    "C94_data",
    "C94_flags",
    "C94_flags_realizations",
    "C94_methods",
    "C94_name",
    "C94_units",
    "C94_removed",
    "C94_times",
    "C94_periods",
    "C94_modified",
    "C94_kept",
    "C94_removal_of_scalars_only_refuted",
    "C94_modified_within_bounds_refuted",
    "C94_realization_stays_refuted",
    "C94_period_wraps_refuted"
   ],
   "note": "StandardiseMetadata in exact arithmetic (the rounding of float64 to float32 is not modelled). Refuted: removal of scalar coordinates also strips dimensions, a modified point may leave its bounds, a realization dimension of one is collapsed when there are status flags, int32 periods wrap."
  },
  {
   "property": "C95",
   "status": "proved",
   "theorems": [
    "C95_cubelist",
    "C95_ordered",
    "C95_exceptions_stay",
    "C95_auxiliary_exceptions_stay",
    "C95_order_possible",
    "C95_exceptions_order_refuted",
    "C95_missing_error_refuted",
    "C95_mismatch",
    "C95_times",
    "C95_mask",
    "C95_mask_refused",
    "C95_mask_size",
    "C95_mask_shape_refuted",
    "C95_mask_again_refuted"
   ],
   "note": "For masks of the same lengths along the shared dimensions. Refuted: exceptions not named in the order of their places move or fail (IndexError); a missing dimension can be a KeyError; masks of other lengths are reshaped or spread silently; an inverted mask is changed in place, so using it again inverts it back."
  },
  {
   "property": "C96",
   "status": "proved",
   "theorems": [
    "C96_lagged",
    "C96_single",
    "C96_period",
    "C96_period_units_refuted",
    "C96_integral",
    "C96_additive"
   ],
   "note": "Cubes valid at one time; iris' merge is modelled as ordering by the merged coordinate. Refuted: relabel_to_period does not look at the units."
  },
  {
   "property": "C97",
   "status": "partial",
   "theorems": [
    "C97_made_monotone",
    "C97_plugin",
    "C97_probabilities",
    "C97_value",
    "C97_binning",
    "C97_last_model",
    "C97_config_order",
    "C97_refused",
    "C97_forecast_values",
    "C97_binning_at_split_refuted",
    "C97_descending_refuted",
    "C97_small_thresholds_refuted",
    "C97_realizations_refuted"
   ],
   "note": "Distribution properties, exact values, lead time, feature order, configuration order and refusals proved; binning proved equal when no value equals a split, refuted otherwise; descending output thresholds, tiny units and same-named realizations refuted. Not modelled: reading the model files, missing data in the trees, float32 rounding."
  },
  {
   "property": "C98",
   "status": "partial",
   "theorems": [
    "C98_least_squares",
    "C98_exact_line",
    "C98_scaled",
    "C98_zero_factor_refuted",
    "C98_training",
    "C98_ignored",
    "C98_altitude_error_removed",
    "C98_site_order_refuted",
    "C98_applied",
    "C98_refused",
    "C98_filed"
   ],
   "note": "All claims proved for sites listed in the same order and a nonzero factor or two bounds; site order and zero factor without bounds refuted. Rank deficient fits, NaN data and float rounding are not modelled."
  },
  {
   "property": "C99",
   "status": "proved",
   "theorems": [
    "C99_weights",
    "C99_merged",
    "C99_mergeable",
    "C99_means",
    "C99_bounds",
    "C99_without_weight",
    "C99_single",
    "C99_one_left",
    "C99_order",
    "C99_order_of_models",
    "C99_order_of_models_refuted",
    "C99_again",
    "C99_refused",
    "C99_times",
    "C99_spatial",
    "C99_percentiles"
   ],
   "note": "Order of models with linear and non-linear weights refuted (they are weights by position). Metadata of the blend are in C78, C80 and C81."
  }
 ]
}