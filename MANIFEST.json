{
 "claims": [
  {
   "property": "C01",
   "status": "proved",
   "theorems": [
    "C01_calendar_days",
    "C01_calendar_days_sum",
    "C01_gregorian_refuted"
   ],
   "note": "agreement with the Gregorian calendar refuted at multiples of 4000 (C01_gregorian_refuted)"
  },
  {
   "property": "C02",
   "status": "proved",
   "theorems": [
    "C02_grace_month_bijection",
    "C02_grace_month_decimal"
   ],
   "note": ""
  },
  {
   "property": "C03",
   "status": "proved",
   "theorems": [
    "C03_adjust_length",
    "C03_adjust_unique_kept",
    "C03_adjust_nodup"
   ],
   "note": ""
  },
  {
   "property": "C04",
   "status": "proved",
   "theorems": [
    "C04_repair_slipped_back",
    "C04_repair_slipped_forward",
    "C04_repair_at_start",
    "C04_doublet_outcomes"
   ],
   "note": ""
  },
  {
   "property": "C05",
   "status": "proved",
   "theorems": [
    "C05_adjust_usable_refuted",
    "C05_many_copies_become_zero"
   ],
   "note": "the desirable property is refuted; the exact behaviour for >=3 copies is proved"
  },
  {
   "property": "C06",
   "status": "proved",
   "theorems": [
    "C06_decimal_exact",
    "C06_decimal_in_year",
    "C06_decimal_monotone",
    "C06_day_of_year_form"
   ],
   "note": ""
  },
  {
   "property": "C07",
   "status": "proved",
   "theorems": [
    "C07_julian_day_number_unique",
    "C07_calendar_dates_value",
    "C07_epoch_and_scale",
    "C07_no_gap_refuted"
   ],
   "note": "exact value with the century slip; the gap-free claim is refuted (1900-08-31/1900-09-01)"
  },
  {
   "property": "C08",
   "status": "proved",
   "theorems": [
    "C08_convert_julian_gregorian",
    "C08_convert_julian_julian",
    "C08_roundtrip",
    "C08_roundtrip_refuted"
   ],
   "note": "exact rational semantics; float rounding not modelled"
  },
  {
   "property": "C09",
   "status": "proved",
   "theorems": [
    "C09_delta_time"
   ],
   "note": ""
  },
  {
   "property": "C10",
   "status": "proved",
   "theorems": [
    "C10_reduce_by_date",
    "C10_reduce_total"
   ],
   "note": "the file name regular expressions are parameters; their string matching is not modelled"
  },
  {
   "property": "C11",
   "status": "proved",
   "theorems": [
    "C11_range",
    "C11_missing",
    "C11_early_months_refuted",
    "C11_single_month_refuted"
   ],
   "note": "grace_find_months for every list of months; refuted parts: months 1-3 present, single-row date file."
  },
  {
   "property": "C12",
   "status": "proved",
   "theorems": [
    "C12_middle",
    "C12_same_month",
    "C12_half_day_refuted",
    "C12_gfc_day",
    "C12_gfc_year_end_refuted",
    "C12_dictionary"
   ],
   "note": "exact rational dates for years outside multiples of 4000; file-name parsing not modelled. Refuted part: decimal date half a day late; GRAZ/Swarm end day across a leap year."
  },
  {
   "property": "C13",
   "status": "proved",
   "theorems": [
    "C13_months",
    "C13_coefficients",
    "C13_degree1_model",
    "C13_total",
    "C13_incomplete",
    "C13_corrections_order_refuted"
   ],
   "note": "grace_input_months with readers, tables and correction files given by their parsed rows; lstsq for identifying times. Refuted part: atmospheric corrections with MMAX different from LMAX fail."
  },
  {
   "property": "C14",
   "status": "proved",
   "theorems": [
    "C14_flatten_expand",
    "C14_flatten_content",
    "C14_flatten_order"
   ],
   "note": "orders 0..lmax+1 (mmax<=lmax+1, otherwise the closed length formula does not apply)"
  },
  {
   "property": "C15",
   "status": "proved",
   "theorems": [
    "C15_add_subtract_inverse",
    "C15_add_common_block",
    "C15_incompatible_raises"
   ],
   "note": ""
  },
  {
   "property": "C16",
   "status": "proved",
   "theorems": [
    "C16_multiply_divide",
    "C16_divide_values",
    "C16_divide_frame"
   ],
   "note": "coefficients of the divisor non-zero on the common triangle; the sine terms of order 0 are excluded as in the code"
  },
  {
   "property": "C17",
   "status": "proved",
   "theorems": [
    "C17_truncate",
    "C17_truncate_twice",
    "C17_truncate_id",
    "C17_truncate_defaults",
    "C17_truncate_zonal_refuted"
   ],
   "note": "mmax=0 refuted"
  },
  {
   "property": "C18",
   "status": "proved",
   "theorems": [
    "C18_subset",
    "C18_subset_missing_raises",
    "C18_repeated_request_refuted",
    "C18_repeated_month_raises"
   ],
   "note": "both corner cases (repeated request, repeated month) stated as theorems"
  },
  {
   "property": "C19",
   "status": "proved",
   "theorems": [
    "C19_mean"
   ],
   "note": ""
  },
  {
   "property": "C20",
   "status": "proved",
   "theorems": [
    "C20_scale_compose",
    "C20_scale_one",
    "C20_scale_values",
    "C20_scale_array",
    "C20_scale_series_refuted",
    "C20_power",
    "C20_drift"
   ],
   "note": "time-variable field with 1-d factor raises (C20_scale_series_refuted)"
  },
  {
   "property": "C21",
   "status": "proved",
   "theorems": [
    "C21_convolve",
    "C21_convolve_compose",
    "C21_convolve_unit",
    "C21_convolve_short_raises"
   ],
   "note": ""
  },
  {
   "property": "C22",
   "status": "proved",
   "theorems": [
    "C22_from_list",
    "C22_from_list_sorted",
    "C22_single_object_refuted"
   ],
   "note": "argsort is any sorting permutation; single-object list refuted"
  },
  {
   "property": "C23",
   "status": "proved",
   "theorems": [
    "C23_index",
    "C23_iterate",
    "C23_iterate_single_field",
    "C23_nested_iteration_refuted"
   ],
   "note": "nested loops over one object refuted"
  },
  {
   "property": "C24",
   "status": "proved",
   "theorems": [
    "C24_copy_independent",
    "C24_alias_interferes"
   ],
   "note": "attributes dictionary/list and filename not modelled"
  },
  {
   "property": "C25",
   "status": "proved",
   "theorems": [
    "C25_expand_squeeze",
    "C25_series_untouched"
   ],
   "note": ""
  },
  {
   "property": "C26",
   "status": "proved",
   "theorems": [
    "C26_first_read",
    "C26_stale_read_refuted",
    "C26_all_reads_frozen",
    "C26_copy_reads_fresh"
   ],
   "note": "the desirable property is refuted; exact behaviour for all histories proved"
  },
  {
   "property": "C27",
   "status": "proved",
   "theorems": [
    "C27_masked_array"
   ],
   "note": ""
  },
  {
   "property": "C28",
   "status": "proved",
   "theorems": [
    "C28_ascii_roundtrip",
    "C28_netcdf_roundtrip",
    "C28_ascii_month_refuted"
   ],
   "note": "text formatting abstracted to a rounding function; netCDF/HDF5 libraries trusted to return what was stored"
  },
  {
   "property": "C29",
   "status": "proved",
   "theorems": [
    "C29_cartesian_roundtrip",
    "C29_inverse_roundtrip",
    "C29_linear",
    "C29_inverse_linear",
    "C29_no_coordinates"
   ],
   "note": "exact real arithmetic"
  },
  {
   "property": "C30",
   "status": "proved",
   "theorems": [
    "C30_cmwe_roundtrip",
    "C30_mmwe_roundtrip",
    "C30_cmwe_values"
   ],
   "note": "exact real arithmetic"
  },
  {
   "property": "C31",
   "status": "proved",
   "theorems": [
    "C31_copy_keeps_fields",
    "C31_copy_converts_alike_default_radius",
    "C31_copy_radius_refuted",
    "C31_scale_radius_refuted",
    "C31_copy_sigma_refuted"
   ],
   "note": "refuted for the radius and the cartesian uncertainties; the rest of the copy is proved"
  },
  {
   "property": "C32",
   "status": "proved",
   "theorems": [
    "C32_matrix_roundtrip",
    "C32_matrix_lengths",
    "C32_from_harmonics",
    "C32_from_harmonics_no_degree1",
    "C32_add_subtract_inverse",
    "C32_multiply_divide_inverse",
    "C32_elementwise",
    "C32_mean"
   ],
   "note": "1-d series; the unselected empty mean (nan) is an error in the model"
  },
  {
   "property": "C33",
   "status": "proved",
   "theorems": [
    "C33_update_mask",
    "C33_replace_invalid",
    "C33_offset_scale",
    "C33_offset_ignored_refuted",
    "C33_offset_collision_refuted",
    "C33_power_refuted",
    "C33_power_valid"
   ],
   "note": "update_mask, replace_invalid, offset, scale: all grids; refuted for power (masked cells hold fill^p), for offset with a 3-d argument on a 2-d grid (ignored) and when a result equals the fill value"
  },
  {
   "property": "C34",
   "status": "proved",
   "theorems": [
    "C34_extend",
    "C34_last_longitude_refuted"
   ],
   "note": "wrap proved; last longitude refuted exactly when the two spacings differ"
  },
  {
   "property": "C35",
   "status": "proved",
   "theorems": [
    "C35_flip_twice",
    "C35_flip_attached",
    "C35_flip_time_month_refuted"
   ],
   "note": "involution and coordinate attachment for the three axes; month numbers refuted for the time axis"
  },
  {
   "property": "C36",
   "status": "proved",
   "theorems": [
    "C36_ascii_roundtrip",
    "C36_missing_cells_refuted",
    "C36_date_refuted",
    "C36_date_keyerror",
    "C36_negative_longitude_refuted"
   ],
   "note": "round trip without dates on global grids; dates, missing cells and negative longitudes refuted"
  },
  {
   "property": "C37",
   "status": "proved",
   "theorems": [
    "C37_netcdf_orientation",
    "C37_not_square",
    "C37_square_refuted"
   ],
   "note": "non-square grids restored, square ones transposed (refuted)"
  },
  {
   "property": "C38",
   "status": "proved",
   "theorems": [
    "C38_mean",
    "C38_statistics",
    "C38_apply_masked_refuted",
    "C38_apply_gap_refuted"
   ],
   "note": "statistics and residuals; mean(apply=True) on cells with missing epochs refuted"
  },
  {
   "property": "C39",
   "status": "proved",
   "theorems": [
    "C39_harmonic_values",
    "C39_get_values",
    "C39_unit_ratios",
    "C39_roundtrip",
    "C39_roundtrip_ellipsoidal",
    "C39_geoid_roundtrip_refuted",
    "C39_spatial_keeps_stale_factors",
    "C39_earth_parameters",
    "C39_no_degree",
    "C39_short_love_numbers",
    "C39_init_unset"
   ],
   "note": "Round trip spatial/harmonic = 1/(4 pi) for cmwe, mmwe, microGal; refuted for mmGH (factor 10) and for stale attributes; Earth parameters consistent."
  },
  {
   "property": "C40",
   "status": "proved",
   "theorems": [
    "C40_documented_codes",
    "C40_nonnegative_codes",
    "C40_all_codes",
    "C40_negative_codes_refuted",
    "C40_codes_have_factors",
    "C40_codes_have_attributes",
    "C40_Pa_attributes_refuted",
    "C40_unknown_attributes"
   ],
   "note": "Exact acceptance set -7..6 of bycode; negative codes refute the documented table; Pa has no attributes."
  },
  {
   "property": "C41",
   "status": "proved",
   "theorems": [
    "C41_values",
    "C41_degree_zero",
    "C41_no_smoothing",
    "C41_bounds",
    "C41_monotone",
    "C41_monotone_large_cutoff_refuted",
    "C41_prefix",
    "C41_lmax_zero_refuted"
   ],
   "note": "Weights equal Jekeli's Legendre coefficients of the Gaussian kernel (as integrals), floored at the cut-off; positivity, bound, monotonicity, prefix; LMAX=0 raises (refuted)."
  },
  {
   "property": "C42",
   "status": "proved",
   "theorems": [
    "C42_untouched",
    "C42_least_squares",
    "C42_quadratic_removed",
    "C42_linear",
    "C42_narrow",
    "C42_window",
    "C42_window_monotone",
    "C42_errors"
   ],
   "note": "Filter = subtraction of the least squares quadratic in the closest admissible window; linear; annihilates quadratics; low orders untouched; NARROW flag acts opposite to its documentation."
  },
  {
   "property": "C43",
   "status": "proved",
   "theorems": [
    "C43_values",
    "C43_derivative",
    "C43_poles",
    "C43_prefix",
    "C43_lmax0_refuted"
   ],
   "note": "exact real arithmetic; lmax=0 refuted"
  },
  {
   "property": "C44",
   "status": "proved",
   "theorems": [
    "C44_values",
    "C44_derivative",
    "C44_agree",
    "C44_small_degree_refuted",
    "C44_documented_name_refuted",
    "C44_derivative_shape_refuted",
    "C44_pole_zonal",
    "C44_pole_order_refuted",
    "C44_orthonormal"
   ],
   "note": "exact real arithmetic, elementwise in x; degrees below 2 refuted for the default method, documented name 'columbo' refuted, pole values of order>=1 refuted"
  },
  {
   "property": "C45",
   "status": "proved",
   "theorems": [
    "C45_factors",
    "C45_smoothing",
    "C45_values",
    "C45_scale_free",
    "C45_degree0_refuted",
    "C45_equals_direct"
   ],
   "note": "LMAX=0 (the default) refuted; UNITS given as a list must have LMAX+1 entries"
  },
  {
   "property": "C46",
   "status": "proved",
   "theorems": [
    "C46_values",
    "C46_linear",
    "C46_stokes",
    "C46_transform",
    "C46_transform_mmax_refuted",
    "C46_single_point_refuted"
   ],
   "note": "latitudes strictly between the poles for the table computed by default; numpy's ifft is its defining sum; broadcasting of a one-row user PLM not modelled"
  },
  {
   "property": "C47",
   "status": "proved",
   "theorems": [
    "C47_custom",
    "C47_water",
    "C47_gigatonnes",
    "C47_harmonics",
    "C47_linear",
    "C47_same_integral",
    "C47_longitude_periodic",
    "C47_errors",
    "C47_square_refuted"
   ],
   "note": "Exact value formula as a finite sum over the grid, for custom factors and codes 1,2,3; linearity; periodicity in longitude; errors. Refuted: a square grid given as [lon,lat] is transposed. gen_harmonics METHOD='fourier' is not modelled."
  },
  {
   "property": "C48",
   "status": "proved",
   "theorems": [
    "C48_isolated",
    "C48_one_row",
    "C48_values",
    "C48_complementary",
    "C48_missing_file"
   ],
   "note": "Values and complementarity for every mask and SIMPLIFY; isolated-point rule."
  },
  {
   "property": "C49",
   "status": "proved",
   "theorems": [
    "C49_custom",
    "C49_mass",
    "C49_degree0",
    "C49_superposition",
    "C49_single_point_refuted"
   ],
   "note": "Value formula, superposition for every split into two sets, total mass at degree 0. Refuted for a single point: IndexError."
  },
  {
   "property": "C50",
   "status": "proved",
   "theorems": [
    "C50_result",
    "C50_mass",
    "C50_land",
    "C50_fill",
    "C50_no_iterations",
    "C50_homogeneous",
    "C50_zero_load"
   ],
   "note": "Complete characterisation: the returned grid is the n-th iterate of an explicitly specified map, n the first converged round or ITERATIONS; mass conservation, zero/fill on land, homogeneity, zero load; ITERATIONS=0 raises. Grids with as many longitudes as latitudes are excluded (gen_harmonics transposes them)."
  },
  {
   "property": "C51",
   "status": "proved",
   "theorems": [
    "C51_file_values",
    "C51_interpolated",
    "C51_before_first",
    "C51_last_degree_refuted",
    "C51_last_degree_lost"
   ],
   "note": "File values, interpolation and constant extension below the first degree for every file, column order, LMAX; refuted at the degree of the last line (overwritten by extrapolation). Tokenising the text is not modelled."
  },
  {
   "property": "C52",
   "status": "proved",
   "theorems": [
    "C52_read_is_transform",
    "C52_transform",
    "C52_unknown_frame",
    "C52_absolute",
    "C52_cm_twice_refuted"
   ],
   "note": "All frames; reading = transform after reading; CF/CL/CH absolute and idempotent; refuted for CM twice."
  },
  {
   "property": "C53",
   "status": "proved",
   "theorems": [
    "C53_least_squares",
    "C53_orthogonal",
    "C53_exact",
    "C53_returns",
    "C53_relative",
    "C53_relative_identifiable",
    "C53_polynomial_identifiable",
    "C53_dof",
    "C53_R2",
    "C53_errors",
    "C53_likelihood",
    "C53_wsse_refuted",
    "C53_data_err_modified",
    "C53_linear"
   ],
   "note": "regress: least squares, exact recovery, orthogonality, dof/R2/errors/likelihood formulas, relative epochs, linearity, DATA_ERR mutation; for every number of epochs, order, cycles and terms. Rank deficient designs (numpy minimum norm answer) are outside."
  },
  {
   "property": "C54",
   "status": "proved",
   "theorems": [
    "C54_average",
    "C54_reproduces",
    "C54_removes_cycle",
    "C54_edges"
   ],
   "note": "MOVING=True: window average with half end weights, constants/lines/periodic signals, edge errors."
  },
  {
   "property": "C55",
   "status": "proved",
   "theorems": [
    "C55_amplitude",
    "C55_unique"
   ],
   "note": "reconstruction and uniqueness."
  },
  {
   "property": "C56",
   "status": "proved",
   "theorems": [
    "C56_omega_period",
    "C56_frequency_refuted",
    "C56_errors",
    "C56_invariance",
    "C56_nyquist"
   ],
   "note": "refuted for FREQUENCY; OMEGA/PERIOD correct; shift/scale invariance; scipy lombscargle is an arbitrary function."
  },
  {
   "property": "C57",
   "status": "proved",
   "theorems": [
    "C57_least_squares",
    "C57_errors",
    "C57_error_scaling_refuted",
    "C57_break_slope_error_refuted",
    "C57_break_slope_error_witness",
    "C57_break_time",
    "C57_break_time_refuted",
    "C57_no_break"
   ],
   "note": "refuted: error scaling, break slope error, break time; least squares and error formulas proved."
  },
  {
   "property": "C58",
   "status": "proved",
   "theorems": [
    "C58_shift",
    "C58_columns",
    "C58_increasing",
    "C58_first_longitude_refuted"
   ],
   "note": "shift_grid for every grid and every base longitude other than the first: C58_shift/C58_columns/C58_increasing; C58_first_longitude_refuted shows the IndexError/failure case."
  },
  {
   "property": "C59",
   "status": "proved",
   "theorems": [
    "C59_components",
    "C59_join",
    "C59_two_slashes_refuted"
   ],
   "note": "url_split: C59_components (for every url not starting with two slashes the components rejoined with slash runs give the url back), C59_join (the converse), C59_two_slashes_refuted (infinite recursion)."
  },
  {
   "property": "C60",
   "status": "proved",
   "theorems": [
    "C60_fresh",
    "C60_terminates",
    "C60_distinct",
    "C60_unwritable_refuted"
   ],
   "note": "Directory state may change between attempts. C60_fresh, C60_terminates (at most |E|+1 attempts), C60_distinct; C60_unwritable_refuted: an unwritable directory makes the loop run for ever because every OSError is caught."
  },
  {
   "property": "C61",
   "status": "proved",
   "theorems": [
    "C61_even",
    "C61_ceil"
   ],
   "note": "For all reals."
  },
  {
   "property": "C62",
   "status": "proved",
   "theorems": [
    "C62_lists",
    "C62_misaligned_refuted",
    "C62_missing_feed_refuted",
    "C62_unknown_endpoint",
    "C62_metadata"
   ],
   "note": "C62_lists gives the alignment claim under the condition that every entry has a link of the relation, and that this condition is necessary; C62_misaligned_refuted and C62_missing_feed_refuted are the counterexamples; unknown endpoints and cmr_metadata_json also covered."
  },
  {
   "property": "C63",
   "status": "proved",
   "theorems": [
    "C63_from_gsfc",
    "C63_from_jpl",
    "C63_to_gsfc",
    "C63_centers_modified_refuted",
    "C63_gsfc_roundtrip",
    "C63_to_jpl_scaled_refuted",
    "C63_to_jpl_mask",
    "C63_jpl_roundtrip_refuted",
    "C63_wide_refuted",
    "C63_to_gsfc_0_360_refuted"
   ],
   "note": "mascons.py, all four functions in exact reals; refuted parts: extra division in to_jpl, in-place centers, spans around the globe, [0,360) grids."
  },
  {
   "property": "C64",
   "status": "proved",
   "theorems": [
    "C64_calendar_to_julian_one_day_early",
    "C64_consistent_refuted"
   ],
   "note": "consistency refuted; exact one-day offset proved"
  },
  {
   "property": "C65",
   "status": "proved",
   "theorems": [
    "C65_kfactor",
    "C65_kfactor_error_refuted"
   ],
   "note": "gain, mask, magnitude and error; the error is refuted when an epoch has x=0 or an exact fit"
  },
  {
   "property": "C66",
   "status": "proved",
   "theorems": [
    "C66_index",
    "C66_index_thin_refuted",
    "C66_iterate",
    "C66_subset",
    "C66_subset_missing_month",
    "C66_from_list"
   ],
   "note": "single-row/column grids refuted; nested iteration as in C23"
  },
  {
   "property": "C67",
   "status": "proved",
   "theorems": [
    "C67_views_share_memory_refuted",
    "C67_replace_invalid_leaks_refuted",
    "C67_copy_independent"
   ],
   "note": "memory model with views; copy independent, flip and transpose share memory"
  },
  {
   "property": "C68",
   "status": "proved",
   "theorems": [
    "C68_normalized",
    "C68_unnormalized",
    "C68_agrees_with_holmes"
   ],
   "note": "Formula against Nlm (m-th derivative of the Legendre polynomial) for every degree; points where the code switches to its approximation (0 < (1-x^2)^(l/2) <= 2^-511) are excluded by hypothesis."
  },
  {
   "property": "C70",
   "status": "proved",
   "theorems": [
    "C70_aliasing"
   ],
   "note": "all epochs and periods."
  },
  {
   "property": "C69",
   "status": "proved",
   "theorems": [
    "C69_returns",
    "C69_best_fit",
    "C69_exact",
    "C69_weights_errors"
   ],
   "note": "all series, windows, orders, derivatives (distinct times)."
  },
  {
   "property": "C71",
   "status": "proved",
   "theorems": [
    "C71_returns",
    "C71_best_fit",
    "C71_exact",
    "C71_data_error",
    "C71_weighted_fit",
    "C71_weighted_exact",
    "C71_weighted_short",
    "C71_quarterly_refuted"
   ],
   "note": "default and weighted modes; exact real arithmetic (in floating point an exactly singular window is only nearly singular)."
  },
  {
   "property": "C72",
   "status": "proved",
   "theorems": [
    "C72_wrap",
    "C72_idempotent"
   ],
   "note": "arctan2 of sine and cosine over exact reals."
  },
  {
   "property": "C73",
   "status": "proved",
   "theorems": [
    "C73_nearest",
    "C73_node"
   ],
   "note": "order=0 branch (argmin of distances); spline orders not modelled."
  },
  {
   "property": "C74",
   "status": "proved",
   "theorems": [
    "C74_arguments",
    "C74_clean"
   ],
   "note": "White space is an arbitrary predicate; one line without line breaks."
  },
  {
   "property": "C75",
   "status": "proved",
   "theorems": [
    "C75_granules",
    "C75_available",
    "C75_grace_level2"
   ],
   "note": "Glob semantics specified separately (inductive glob)."
  },
  {
   "property": "C76",
   "status": "proved",
   "theorems": [
    "C76_coefficients",
    "C76_rate_lines_refuted",
    "C76_total",
    "C76_times",
    "C76_pole_tide_2010"
   ],
   "note": "read_GRACE_harmonics on parsed lines; refuted part: drift lines outside RL04 GSM or above the truncation raise."
  },
  {
   "property": "C77",
   "status": "proved",
   "theorems": [
    "C77_values",
    "C77_zero",
    "C77_scale",
    "C77_triangle",
    "C77_harmonics",
    "C77_out_of_range"
   ],
   "note": "exact real arithmetic"
  },
  {
   "property": "C78",
   "status": "proved",
   "theorems": [
    "C78_disc",
    "C78_custom",
    "C78_mass",
    "C78_whole_earth",
    "C78_zonal_refuted"
   ],
   "note": "exact real arithmetic; MMAX=0 refuted"
  },
  {
   "property": "C79",
   "status": "proved",
   "theorems": [
    "C79_cap",
    "C79_no_size",
    "C79_same_as_disc",
    "C79_area_refuted",
    "C79_mass_refuted"
   ],
   "note": "AREA keyword and Gt mass refuted"
  },
  {
   "property": "C80",
   "status": "proved",
   "theorems": [
    "C80_values",
    "C80_no_noise",
    "C80_shrinks",
    "C80_scale_invariant",
    "C80_more_noise",
    "C80_other_units"
   ],
   "note": "exact real arithmetic; Gaussian coefficients stated as integrals"
  },
  {
   "property": "C81",
   "status": "proved",
   "theorems": [
    "C81_months",
    "C81_first_day_refuted",
    "C81_read",
    "C81_errors",
    "C81_csr",
    "C81_monthly",
    "C81_ambiguous",
    "C81_three_refuted"
   ],
   "note": "Lines are modelled as the list of their numbers; float32 columns of the CSR file are exact rationals."
  },
  {
   "property": "C82",
   "status": "proved",
   "theorems": [
    "C82_columns",
    "C82_empty",
    "C82_c50_refuted",
    "C82_lares",
    "C82_lares_single_refuted",
    "C82_weekly",
    "C82_weekly_bounds",
    "C82_week_center_refuted",
    "C82_two_series",
    "C82_csr"
   ],
   "note": "np.argsort is any sorting permutation; rationals instead of floats."
  },
  {
   "property": "C83",
   "status": "proved",
   "theorems": [
    "C83_weekly",
    "C83_monthly",
    "C83_no_mean",
    "C83_month",
    "C83_zonal_weekly",
    "C83_adjusted_twice_refuted"
   ],
   "note": "Lines as lists of numbers; month numbers outside 1..12 are errors."
  },
  {
   "property": "C84",
   "status": "proved",
   "theorems": [
    "C84_tables",
    "C84_two_sections",
    "C84_ice6g",
    "C84_wu10",
    "C84_wu10_short",
    "C84_caron",
    "C84_errors",
    "C84_degree",
    "C84_mmax",
    "C84_from_gia",
    "C84_lmax0_refuted",
    "C84_unknown_refuted",
    "C84_mmax_keyword_refuted"
   ],
   "note": "Lines as lists of numbers; titles/citations and the reformatted ascii/netCDF4/HDF5 inputs are not modelled here."
  },
  {
   "property": "C85",
   "status": "proved",
   "theorems": [
    "C85_slr",
    "C85_first_day_refuted",
    "C85_directory_refuted",
    "C85_errors",
    "C85_dealiased",
    "C85_dealiasing_dates",
    "C85_radius_refuted",
    "C85_swenson",
    "C85_no_header",
    "C85_uci",
    "C85_tellus",
    "C85_tellus_order_refuted",
    "C85_tellus_bad_order"
   ],
   "note": "Lines as lists of numbers; YAML header as the numbers of its comments; new objects."
  },
  {
   "property": "C86",
   "status": "proved",
   "theorems": [
    "C86_month",
    "C86_month_of_date",
    "C86_one_day_late_refuted",
    "C86_swarm",
    "C86_as_grace_date",
    "C86_errors",
    "C86_swarm_models_refuted",
    "C86_month_zero_refuted"
   ],
   "note": "coefficients come from geoid_toolkit and are abstract; dateutil parsing of Swarm names not modelled"
  },
  {
   "property": "C87",
   "status": "proved",
   "theorems": [
    "C87_series",
    "C87_errors",
    "C87_truncated_refuted"
   ],
   "note": "exact real arithmetic; the array is a function; a division by the zero norm is kept symbolic"
  },
  {
   "property": "C88",
   "status": "proved",
   "theorems": [
    "C88_recovers",
    "C88_truncated",
    "C88_round_trip",
    "C88_one_pole",
    "C88_order_errors",
    "C88_poles_refuted"
   ],
   "note": "exact real arithmetic; a PLM argument is assumed to have the shape of the table; at most 49000 latitudes (tolerance of np.isclose)"
  },
  {
   "property": "C89",
   "status": "proved",
   "theorems": [
    "C89_table",
    "C89_meridional",
    "C89_zonal_refuted",
    "C89_sectoral_refuted",
    "C89_errors"
   ],
   "note": "exact real arithmetic; the zonal component is characterized only on sectoral harmonics, where the claim is refuted"
  },
  {
   "property": "C90",
   "status": "proved",
   "theorems": [
    "C90_zonal_exact",
    "C90_zonal",
    "C90_meridional",
    "C90_degree_one_refuted",
    "C90_top_refuted",
    "C90_errors"
   ],
   "note": "exact real arithmetic; with smoothing only the second component is characterized; DENSITY=0 and grids with a latitude of zero or a pole (division by zero) are excluded"
  },
  {
   "property": "C91",
   "status": "proved",
   "theorems": [
    "C91_point",
    "C91_disc",
    "C91_cap",
    "C91_isotropic",
    "C91_mapped"
   ],
   "note": "exact real arithmetic; all orders kept (MMAX=LMAX); the field is the series of C45/C46"
  },
  {
   "property": "C92",
   "status": "proved",
   "theorems": [
    "C92_kernel",
    "C92_average",
    "C92_bounds"
   ],
   "note": "exact real arithmetic; the sphere integral is the iterated integral over colatitude and longitude"
  },
  {
   "property": "C93",
   "status": "proved",
   "theorems": [
    "C93_least_squares",
    "C93_recovers",
    "C93_linear",
    "C93_error",
    "C93_inv",
    "C93_geoid_refuted",
    "C93_few_orders_refuted",
    "C93_unknown",
    "C93_conserves",
    "C93_area"
   ],
   "note": "exact real arithmetic (numpy.linalg.lstsq and scipy.linalg.lstsq as exact minimum norm least squares); reading the files, the corrections and the text output are not part of this model"
  },
  {
   "property": "C94",
   "status": "proved",
   "theorems": [
    "C94_integral",
    "C94_no_leakage",
    "C94_support"
   ],
   "note": "exact real arithmetic; the sphere integral is the iterated integral over colatitude and longitude"
  },
  {
   "property": "C95",
   "status": "proved",
   "theorems": [
    "C95_power",
    "C95_degree",
    "C95_uncorrelated"
   ],
   "note": "exact real arithmetic; sine coefficients of order 0 and coefficients with order above degree are zero, as in every harmonics object filled by the library"
  },
  {
   "property": "C96",
   "status": "proved",
   "theorems": [
    "C96_balance",
    "C96_stop",
    "C96_unique",
    "C96_fixed_point",
    "C96_singular",
    "C96_unknown_solver_refuted",
    "C96_models_refuted",
    "C96_dealiasing",
    "C96_aod_group_refuted",
    "C96_ignores",
    "C96_gia_only",
    "C96_mask"
   ],
   "note": "exact real arithmetic; reading of files, temporal means, destriping, plots and text output are not part of this model; the land-sea grid has different numbers of longitudes and latitudes; FINGERPRINT with k_0 = 0"
  },
  {
   "property": "C97",
   "status": "proved",
   "theorems": [
    "C97_maps",
    "C97_recover",
    "C97_average",
    "C97_smooth",
    "C97_one_file_refuted",
    "C97_single_month_refuted",
    "C97_interval"
   ],
   "note": "C97_one_file_refuted: Ylms.name does not exist (line 373); C97_single_month_refuted: the months of a one month drift have no axis. Values at the poles, where plm_holmes replaces sin by eps, are left out."
  },
  {
   "property": "C98",
   "status": "proved",
   "theorems": [
    "C98_maps",
    "C98_total",
    "C98_smooth",
    "C98_order_refuted",
    "C98_undated_refuted",
    "C98_index_mean_refuted",
    "C98_interval"
   ],
   "note": "C98_order_refuted: harmonic_summation is called without MMAX (line 283); C98_undated_refuted: the time of undated files is array([None]) and has one entry; C98_index_mean_refuted: the format of the index is used for the mean file (line 184)."
  },
  {
   "property": "C99",
   "status": "proved",
   "theorems": [
    "C99_name",
    "C99_fields",
    "C99_shared_name_refuted",
    "C99_one_month_refuted",
    "C99_leakage_file",
    "C99_best_fit",
    "C99_removed",
    "C99_conserves"
   ],
   "note": "C99_shared_name_refuted: mascons whose file names differ only in case, degree or order overwrite each other silently; C99_one_month_refuted: np.loadtxt of one line is one-dimensional."
  },
  {
   "property": "C100",
   "status": "proved",
   "theorems": [
    "C100_map",
    "C100_propagation",
    "C100_invariant",
    "C100_exact",
    "C100_second_run",
    "C100_rerun",
    "C100_ascii_refuted",
    "C100_stale_refuted"
   ],
   "note": "the output file of the map, the log and the text of file names are not modelled (the name is the tuple of its parts)"
  },
  {
   "property": "C101",
   "status": "proved",
   "theorems": [
    "C101_maps",
    "C101_shared",
    "C101_removed_refuted",
    "C101_lmin_refuted",
    "C101_zero_magnitude_refuted",
    "C101_negative_refuted"
   ],
   "note": "ScaleModel.v / PropScale.v; counterexample theorems for removed files, LMIN, negative factors and zero magnitudes."
  },
  {
   "property": "C102",
   "status": "proved",
   "theorems": [
    "C102_sync",
    "C102_interrupted_elsewhere",
    "C102_idempotent",
    "C102_repair",
    "C102_history",
    "C102_crash_refuted",
    "C102_second_refuted",
    "C102_no_time_refuted",
    "C102_list",
    "C102_from_http",
    "C102_from_ftp",
    "C102_from_ftp_cases",
    "C102_listing"
   ],
   "note": "SyncModel.v / PropSync.v; md5 is an arbitrary function (collision-freeness a hypothesis where needed); network protocol not modelled."
  },
  {
   "property": "C103",
   "status": "proved",
   "theorems": [
    "C103_pages",
    "C103_short_pages_refuted",
    "C103_index_refuted",
    "C103_log_refuted",
    "C103_archive",
    "C103_gzip",
    "C103_gzip_crash_refuted",
    "C103_month_refuted",
    "C103_month"
   ],
   "note": "SyncModel.v / PropSync.v; the packing of a month is abstract (the pieces written are an input)."
  },
  {
   "property": "C104",
   "status": "proved",
   "theorems": [
    "C104_fit",
    "C104_exact",
    "C104_statistics",
    "C104_amplitude",
    "C104_names",
    "C104_returns",
    "C104_order3_refuted",
    "C104_mask_refuted",
    "C104_order_refuted",
    "C104_unknown_refuted",
    "C104_example",
    "C104_nan"
   ],
   "note": "TrendMapModel.v / PropTrendMap.v, PropTrendMap2.v; monthly maps are a function of the month; np.argsort is an input constrained to sort; log files and attributes are not modelled; erf and the Student quantile are arbitrary functions."
  },
  {
   "property": "C105",
   "status": "proved",
   "theorems": [
    "C105_fit",
    "C105_exact",
    "C105_statistics",
    "C105_amplitude",
    "C105_returns",
    "C105_inner",
    "C105_nan",
    "C105_names",
    "C105_mask_refuted",
    "C105_example"
   ],
   "note": "TrendMapModel.v / PropTrendMap3.v, PropTrendMap4.v; same simplifications as C104."
  },
  {
   "property": "C106",
   "status": "proved",
   "theorems": [
    "C106_days",
    "C106_run",
    "C106_second_run",
    "C106_time",
    "C106_read_back",
    "C106_counting_refuted",
    "C106_extra_member_refuted",
    "C106_endless_refuted",
    "C106_single_month_refuted",
    "C106_century_refuted",
    "C106_precision_refuted"
   ],
   "note": "Names are given by what they are made of, lines by what the regular expressions find. The reader of C76 is used for the round trip."
  },
  {
   "property": "C107",
   "status": "proved",
   "theorems": [
    "C107_geocenter",
    "C107_oblateness",
    "C107_half_days_refuted",
    "C107_second_run",
    "C107_read_back",
    "C107_name_refuted",
    "C107_interrupted_refuted",
    "C107_versions_refuted"
   ],
   "note": "Proved; refuted parts: C20 of the second half of each day of release 6, the file name of the reader, the partial file after an interrupted run, two archives of one month."
  },
  {
   "property": "C108",
   "status": "proved",
   "theorems": [
    "C108_maps",
    "C108_complete",
    "C108_missing_refuted",
    "C108_order_refuted",
    "C108_interrupted",
    "C108_second_run"
   ],
   "note": "Proved; refuted parts: missing days, other orders of the coefficients. Values at the poles are left out as in C97."
  },
  {
   "property": "C109",
   "status": "proved",
   "theorems": [
    "C109_mean",
    "C109_gfc",
    "C109_months",
    "C109_centred",
    "C109_errors_refuted",
    "C109_name_refuted"
   ],
   "note": "gfc files are read by another package: only their lines are described. Without any month (nan) the model raises."
  },
  {
   "property": "C110",
   "status": "proved",
   "theorems": [
    "C110_levels",
    "C110_mass",
    "C110_dates",
    "C110_mask_refuted"
   ],
   "note": "File reading is that of C08/C11; masks of one row or one column (squeezed by the reader) are outside the model."
  },
  {
   "property": "C111",
   "status": "proved",
   "theorems": [
    "C111_dates",
    "C111_undated",
    "C111_units",
    "C111_square_refuted",
    "C111_ascii_refuted",
    "C111_fields_refuted"
   ],
   "note": "Without a fill value nan cells are not replaced (all coefficients nan): outside the theorems. Grids of one row or column are squeezed by the readers: outside the model."
  },
  {
   "property": "C112",
   "status": "proved",
   "theorems": [
    "C112_fit",
    "C112_piecewise",
    "C112_waves",
    "C112_returns",
    "C112_breakpoint_returns",
    "C112_breakpoint_wins",
    "C112_failed",
    "C112_files",
    "C112_stream",
    "C112_stops",
    "C112_stem_refuted",
    "C112_unknown_refuted",
    "C112_unknown_file_refuted",
    "C112_order_refuted",
    "C112_example"
   ],
   "note": "Widths, digits, units and headings of the printed lines and text reading are not modelled."
  },
  {
   "property": "C113",
   "status": "proved",
   "theorems": [
    "C113_table",
    "C113_complete_iff",
    "C113_empty_date_file_refuted",
    "C113_no_date_file",
    "C113_run",
    "C113_one_bad_product_refuted",
    "C113_unknown_centre",
    "C113_unknown_centre_alone",
    "C113_other_release_refuted",
    "C113_single_file_refuted",
    "C113_file_in_table"
   ],
   "note": "widths of the printed fields and the rounding of the mid-date are not modelled; file permissions are not modelled"
  },
  {
   "property": "C114",
   "status": "proved",
   "theorems": [
    "C114_balance",
    "C114_gia_refuted",
    "C114_text",
    "C114_errors_of_data",
    "C114_errors_scale",
    "C114_no_noise",
    "C114_noise",
    "C114_seasonal",
    "C114_unknown_solver",
    "C114_singular"
   ],
   "note": "Random draws, monthly fields and the field of standard deviations are inputs. C114_gia_refuted shows that the degree one coefficients of GIA and atmosphere are added in the wrong unit. The theorems on errors (data, scaling, no noise) are for the uniform ocean layer; C114_balance covers fingerprints too."
  },
  {
   "property": "C115",
   "status": "proved",
   "theorems": [
    "C115_numbers_found",
    "C115_every_line",
    "C115_values",
    "C115_no_failure",
    "C115_fortran_time_refuted",
    "C115_pointed_numbers",
    "C115_full_stop_refuted",
    "C115_printed",
    "C115_harmonics_file",
    "C115_rewritten",
    "C115_nan_refuted",
    "C115_series_not_written"
   ],
   "note": "Characters are ASCII. Reals stand for floats: the rounding of the conversion to binary is not modelled. C115_nan_refuted, C115_full_stop_refuted and C115_fortran_time_refuted are negative results."
  },
  {
   "property": "C116",
   "status": "proved",
   "theorems": [
    "C116_values",
    "C116_before_first",
    "C116_last_degree_refuted",
    "C116_formats",
    "C116_frames",
    "C116_unknown",
    "C116_missing_file",
    "C116_zero_degree_refuted",
    "C116_column_order_refuted"
   ],
   "note": "Reals stand for floats. C116_last_degree_refuted, C116_zero_degree_refuted and C116_column_order_refuted are negative results."
  },
  {
   "property": "C117",
   "status": "proved",
   "theorems": [
    "C117_roundtrip",
    "C117_object_after",
    "C117_units_refuted",
    "C117_title_sticks_refuted",
    "C117_months_name_refuted",
    "C117_undated",
    "C117_undated_series_refuted",
    "C117_failed_write_refuted",
    "C117_no_clobber",
    "C117_append_refuted",
    "C117_dict",
    "C117_dict_refuted",
    "C117_user_names",
    "C117_user_stops",
    "C117_user_root"
   ],
   "note": "The netCDF4 and HDF5 libraries are trusted. The theorems ending in _refuted are negative results."
  },
  {
   "property": "C118",
   "status": "proved",
   "theorems": [
    "C118_index",
    "C118_too_many_names",
    "C118_unknown_format_refuted",
    "C118_existing",
    "C118_not_found",
    "C118_other_case",
    "C118_other_file_refuted",
    "C118_lines",
    "C118_no_files",
    "C118_letters",
    "C118_pattern",
    "C118_last_fits",
    "C118_stopped",
    "C118_not_overwritten"
   ],
   "note": "netCDF4 and HDF5 formats; other special characters of regular expressions in names are not modelled; refuted variants are proved for unknown formats and longer names"
  },
  {
   "property": "C119",
   "status": "proved",
   "theorems": [
    "C119_accepted",
    "C119_sound",
    "C119_rejected",
    "C119_dates",
    "C119_fields",
    "C119_period",
    "C119_string_order",
    "C119_version",
    "C119_no_version",
    "C119_reduce",
    "C119_directory",
    "C119_short_release_refuted",
    "C119_release_refuted"
   ],
   "note": "ASCII names; refuted variants for short release numbers and for releases"
  },
  {
   "property": "C120",
   "status": "proved",
   "theorems": [
    "C120_itsg",
    "C120_swarm_models",
    "C120_swarm",
    "C120_month",
    "C120_no_month",
    "C120_month_zero_refuted",
    "C120_other_center",
    "C120_no_date"
   ],
   "note": "dateutil is an arbitrary function; month 00 is a refuted variant"
  },
  {
   "property": "C121",
   "status": "proved",
   "theorems": [
    "C121_release6",
    "C121_default_version",
    "C121_no_mission_refuted",
    "C121_old_releases",
    "C121_cnes",
    "C121_other_products",
    "C121_refused",
    "C121_laser",
    "C121_index",
    "C121_old_index",
    "C121_gfz5_refuted",
    "C121_dealiasing_refuted",
    "C121_versions",
    "C121_run",
    "C121_stopped"
   ],
   "note": "versions given as int are not modelled; texts inserted in the patterns hold no special characters of regular expressions; names are ASCII"
  },
  {
   "property": "C122",
   "status": "proved",
   "theorems": [
    "C122_written",
    "C122_roundtrip",
    "C122_from_list",
    "C122_only_this_file",
    "C122_exists_h5",
    "C122_exists_nc",
    "C122_no_time",
    "C122_series_without_dates",
    "C122_partial_attributes",
    "C122_title_kept",
    "C122_months",
    "C122_no_file",
    "C122_no_variable",
    "C122_formats",
    "C122_error_unlabelled",
    "C122_error_square",
    "C122_error_longitude_first",
    "C122_example"
   ],
   "note": "the libraries are trusted to store arrays, numbers and texts; compressed files, attributes scale_factor and add_offset, values whose shape does not fit the dimensions are not modelled"
  },
  {
   "property": "C123",
   "status": "proved",
   "theorems": [
    "C123_units",
    "C123_date",
    "C123_elapsed",
    "C123_epochs",
    "C123_moments",
    "C123_fields",
    "C123_bad_epochs",
    "C123_failures",
    "C123_fraction_refuted",
    "C123_word_refuted",
    "C123_months_refuted"
   ],
   "note": "dateutil.parser.parse is a parameter (any function from texts to dates or exceptions); texts are ASCII; rational arithmetic"
  },
  {
   "property": "C124",
   "status": "proved",
   "theorems": [
    "C124_index",
    "C124_same",
    "C124_square_refuted",
    "C124_too_many_names",
    "C124_unknown_format_refuted",
    "C124_lines_of_a_run",
    "C124_axes_of_the_files"
   ],
   "note": "files as in C122; ascii files are C38; axes read as scalars or with missing values are not modelled"
  },
  {
   "property": "C125",
   "status": "proved",
   "theorems": [
    "C125_all_pages",
    "C125_page_size",
    "C125_last_page_refuted",
    "C125_unlinked_page_refuted",
    "C125_failures",
    "C125_unknown_endpoint",
    "C125_unavailable",
    "C125_steps",
    "C125_endless_refuted",
    "C125_query",
    "C125_dates",
    "C125_granules",
    "C125_metadata",
    "C125_header"
   ],
   "note": "connections, certificates, cookies and logging are left out; dateutil.parser.parse is a parameter; entries have title, updated and links"
  },
  {
   "property": "C126",
   "status": "proved",
   "theorems": [
    "C126_rasters",
    "C126_same_as_maps",
    "C126_grid",
    "C126_rows_refuted",
    "C126_recover",
    "C126_order_refuted",
    "C126_bounds",
    "C126_one_file_refuted"
   ],
   "note": "pyproj and the geocentric latitude of geoid-toolkit are one arbitrary function; attributes and the output file are left out"
  },
  {
   "property": "C127",
   "status": "proved",
   "theorems": [
    "C127_mask",
    "C127_data",
    "C127_ocean_refuted",
    "C127_west_refuted",
    "C127_errors"
   ],
   "note": "order 0 only; reading of the mask file is a parameter; the two coordinate arrays have one shape"
  },
  {
   "property": "C128",
   "status": "proved",
   "theorems": [
    "C128_half_wavelength",
    "C128_cap",
    "C128_decreasing",
    "C128_errors"
   ],
   "note": "exact reals"
  },
  {
   "property": "C129",
   "status": "proved",
   "theorems": [
    "C129_table",
    "C129_comments",
    "C129_errors",
    "C129_positions",
    "C129_channels",
    "C129_wheel",
    "C129_between",
    "C129_lower_case_model"
   ],
   "note": "the numbers that a regular expression finds in a line are a parameter; matplotlib is not modelled beyond the table given to it; HSV colors are interpolated in RGB by it"
  },
  {
   "property": "C130",
   "status": "proved",
   "theorems": [
    "C130_joughin",
    "C130_rignot",
    "C130_seroussi",
    "C130_errors"
   ],
   "note": "exact reals (floor of 0.7 N too); matplotlib is not modelled"
  },
  {
   "property": "C131",
   "status": "proved",
   "theorems": [
    "C131_length",
    "C131_loop",
    "C131_text",
    "C131_extent",
    "C131_even_grid",
    "C131_spacing_latitudes",
    "C131_spacing_longitudes",
    "C131_spatial_text"
   ],
   "note": "decimal text of numbers is not modelled"
  },
  {
   "property": "C132",
   "status": "proved",
   "theorems": [
    "C132_field",
    "C132_rotation",
    "C132_amplitude",
    "C132_reads_frozen",
    "C132_copy_fresh",
    "C132_stale_refuted"
   ],
   "note": "exact reals"
  },
  {
   "property": "C133",
   "status": "proved",
   "theorems": [
    "C133_name",
    "C133_undated",
    "C133_forgets",
    "C133_twice",
    "C133_dated_never",
    "C133_level2",
    "C133_no_degree",
    "C133_failed_reader",
    "C133_no_header",
    "C133_from_file",
    "C133_from_file_never",
    "C133_whole_month",
    "C133_same_month"
   ],
   "note": "what the readers return is arbitrary (the readers themselves: C86 and the GRACE claims)"
  },
  {
   "property": "C134",
   "status": "proved",
   "theorems": [
    "C134_columns",
    "C134_default_columns",
    "C134_new_object",
    "C134_new_object_type",
    "C134_empty",
    "C134_write_new",
    "C134_line",
    "C134_reread"
   ],
   "note": "numbers on the lines and rounding of the printed format as in C36 and C115; the axes set up before reading are given"
  },
  {
   "property": "C135",
   "status": "proved",
   "theorems": [
    "C135_transform",
    "C135_unknown_frame",
    "C135_dictionary",
    "C135_no_hl",
    "C135_new",
    "C135_shared",
    "C135_last_frame",
    "C135_label_refuted",
    "C135_separate"
   ],
   "note": "exact reals; text of the object not modelled"
  },
  {
   "property": "C136",
   "status": "proved",
   "theorems": [
    "C136_loop",
    "C136_single",
    "C136_new",
    "C136_nested",
    "C136_dictionary",
    "C136_fields",
    "C136_new_object",
    "C136_new_from_dictionary",
    "C136_stale"
   ],
   "note": "numbers are numpy numbers (python numbers have no copy method)"
  },
  {
   "property": "C137",
   "status": "proved",
   "theorems": [
    "C137_csr",
    "C137_csr_interrupted",
    "C137_csr_default_refuted",
    "C137_csr_unknown",
    "C137_csr_missing",
    "C137_csr_years_refuted",
    "C137_gfz",
    "C137_gfz_time_refuted",
    "C137_gsfc",
    "C137_gsfc_missing"
   ],
   "note": "Proved for every local state and interruption; md5 is a parameter whose collisions are a hypothesis; directories, permissions, the regular expression of the dates and the date format are parameters."
  },
  {
   "property": "C138",
   "status": "proved",
   "theorems": [
    "C138_verified",
    "C138_figshare",
    "C138_mismatch_refuted",
    "C138_s3",
    "C138_s3_no_key",
    "C138_s3_case_refuted"
   ],
   "note": "Proved. The regular expression of the names and the hash function are parameters."
  },
  {
   "property": "C139",
   "status": "proved",
   "theorems": [
    "C139_release",
    "C139_product",
    "C139_default",
    "C139_stale_release_refuted",
    "C139_max_degree_refuted",
    "C139_corrections",
    "C139_max_order",
    "C139_unit_index",
    "C139_files",
    "C139_choices",
    "C139_comma_refuted"
   ],
   "note": "Proved. Callbacks are functions of the values of the widgets; the dispatch of events by ipywidgets is not modelled."
  },
  {
   "property": "C140",
   "status": "proved",
   "theorems": [
    "C140_typed",
    "C140_name_stored",
    "C140_stored",
    "C140_precedence",
    "C140_bounded",
    "C140_stale_password_refuted",
    "C140_last_answer_refuted",
    "C140_environment_refuted",
    "C140_environment",
    "C140_drive",
    "C140_drive_half_refuted"
   ],
   "note": "Proved. The handlers of the opener, ssl and the text of the prompts are not modelled."
  },
  {
   "property": "C141",
   "status": "proved",
   "theorems": [
    "C141_sorted",
    "C141_no_log",
    "C141_terminal",
    "C141_sync",
    "C141_log_empty_refuted",
    "C141_binary_refuted",
    "C141_error_log_refuted",
    "C141_iterations_refuted",
    "C141_verbosity"
   ],
   "note": "Proved. Of Python logging only basicConfig, the level of the root logger and one handler are modelled; blank lines and the names of the log files are not represented (C60 for the names)."
  },
  {
   "property": "C142",
   "status": "proved",
   "theorems": [
    "C142_title",
    "C142_files",
    "C142_files_unique",
    "C142_title_tells",
    "C142_attributes",
    "C142_lares_refuted",
    "C142_failure",
    "C142_success",
    "C142_release_refuted",
    "C142_text_refuted",
    "C142_slr_file",
    "C142_unsupported"
   ],
   "note": "Proved. Readers are given by the exception they raise on a file; folders and names have no separators; the values are in C13 and C81-C85."
  },
  {
   "property": "C143",
   "status": "proved",
   "theorems": [
    "C143_words",
    "C143_relative",
    "C143_text",
    "C143_absolute",
    "C143_path_refuted",
    "C143_outside_refuted",
    "C143_optional",
    "C143_demand",
    "C143_broken"
   ],
   "note": "Proved. A leading // of a text is not told from /; of a module only its names are represented."
  },
  {
   "property": "C144",
   "status": "proved",
   "theorems": [
    "C144_upload",
    "C144_failure",
    "C144_default_refuted",
    "C144_absolute_refuted",
    "C144_connection"
   ],
   "note": "Proved. The server is given by its folders, files and two arbitrary rules; chunks, context and verbose are not represented."
  },
  {
   "property": "C145",
   "status": "proved",
   "theorems": [
    "C145_models",
    "C145_no_page",
    "C145_double_refuted",
    "C145_bare_refuted"
   ],
   "note": "Proved. References have no line ends; the parts of a reference (url_split) are in C59."
  },
  {
   "property": "C146",
   "status": "proved",
   "theorems": [
    "C146_copy",
    "C146_set",
    "C146_seen",
    "C146_set_possible",
    "C146_nested_refuted",
    "C146_list_refuted"
   ],
   "note": "Proved. Values are texts or references; the other fields of the objects are in C24 and C67."
  }
 ]
}