{
 "claims": [
  {
   "property": "C01",
   "status": "proved",
   "theorems": [
    "C01_spatial_correlation",
    "C01_spatial_correlation_formula",
    "C01_zero_scale"
   ],
   "note": "Real arithmetic; the formula theorem pins which scale divides which difference."
  },
  {
   "property": "C02",
   "status": "proved",
   "theorems": [
    "C02_sorter_counts"
   ],
   "note": "Theorem for real-valued arrays; the underlying lemma holds for every strict weak order."
  },
  {
   "property": "C03",
   "status": "proved",
   "theorems": [
    "C03_sorter_unsorted",
    "C03_sorter_sorted_copy",
    "C03_pointwise_refuted"
   ],
   "note": "C03_pointwise_refuted records that the k-th entry is not the interval of sites[k]."
  },
  {
   "property": "C04",
   "status": "proved",
   "theorems": [
    "C04_wrap_meridian"
   ],
   "note": "Real arithmetic."
  },
  {
   "property": "C05",
   "status": "proved",
   "theorems": [
    "C05_wrap_idempotent_no_split"
   ],
   "note": "Real arithmetic."
  },
  {
   "property": "C06",
   "status": "proved",
   "theorems": [
    "C06_wrap_subset",
    "C06_wrap_cast"
   ],
   "note": "Exact condition under which a sub-selection is wrapped as in the whole array."
  },
  {
   "property": "C07",
   "status": "proved",
   "theorems": [
    "C07_potential_vorticity",
    "C07_zero_depth"
   ],
   "note": "Real arithmetic and exact pi."
  },
  {
   "property": "C08",
   "status": "proved",
   "theorems": [
    "C08_cal2dec_errors"
   ],
   "note": "Integer fields."
  },
  {
   "property": "C09",
   "status": "proved",
   "theorems": [
    "C09_cal2dec_order"
   ],
   "note": "Integer fields of a non-leap year."
  },
  {
   "property": "C10",
   "status": "proved",
   "theorems": [
    "C10_change_dates_pointwise"
   ],
   "note": "Text restricted to ASCII."
  },
  {
   "property": "C11",
   "status": "proved",
   "theorems": [
    "C11_change_dates_order",
    "C11_feb29_collides",
    "C11_str_of_timestamp"
   ],
   "note": "Years 1000..9999; seconds are ignored by the code."
  },
  {
   "property": "C12",
   "status": "proved",
   "theorems": [
    "C12_float_dates"
   ],
   "note": "Text form of floats is the integer text followed by .0."
  },
  {
   "property": "C13",
   "status": "proved",
   "theorems": [
    "C13_find_ellipse",
    "C13_larger_sizes"
   ],
   "note": "Real arithmetic."
  },
  {
   "property": "C14",
   "status": "proved",
   "theorems": [
    "C14_besthist_valid"
   ],
   "note": "Any generator producing numbers in [0,1) and any (unstable) argsort; real arithmetic. Holds for every max_casts."
  },
  {
   "property": "C15",
   "status": "proved",
   "theorems": [
    "C15_besthist_count"
   ],
   "note": "As C14."
  },
  {
   "property": "C16",
   "status": "proved",
   "theorems": [
    "C16_besthist_small_quota",
    "C16_besthist_no_casts"
   ],
   "note": "As C14; C16_besthist_no_casts adds the empty grid."
  },
  {
   "property": "C17",
   "status": "proved",
   "theorems": [
    "C17_besthist_closest"
   ],
   "note": "PV option off; as C14."
  },
  {
   "property": "C18",
   "status": "proved",
   "theorems": [
    "C18_besthist_state"
   ],
   "note": "Every numeric carrier, every generator."
  },
  {
   "property": "C19",
   "status": "proved",
   "theorems": [
    "C19_besthist_ranks",
    "C19_pv_separation_refuted",
    "C19_without_pv"
   ],
   "note": "C19_besthist_ranks is the exact (wrong) ranking, C19_pv_separation_refuted the finding."
  },
  {
   "property": "C20",
   "status": "proved",
   "theorems": [
    "C20_nearest_neighbour"
   ],
   "note": "Real arithmetic."
  },
  {
   "property": "C21",
   "status": "proved",
   "theorems": [
    "C21_boxes_neighbourhood"
   ],
   "note": "Real arithmetic; the claim covers latitudes -70.01..69.99."
  },
  {
   "property": "C22",
   "status": "proved",
   "theorems": [
    "C22_boxes_distinct"
   ],
   "note": "Real arithmetic; table with pairwise distinct rows."
  },
  {
   "property": "C23",
   "status": "proved",
   "theorems": [
    "C23_boxes_missing"
   ],
   "note": "Every numeric carrier."
  },
  {
   "property": "C24",
   "status": "proved",
   "theorems": [
    "C24_minimum_variance"
   ],
   "note": "interp1d arbitrary; levels, variances and selection in extended reals."
  },
  {
   "property": "C25",
   "status": "proved",
   "theorems": [
    "C25_nearest_rows"
   ],
   "note": "interp1d arbitrary."
  },
  {
   "property": "C26",
   "status": "proved",
   "theorems": [
    "C26_windows"
   ],
   "note": "interp1d arbitrary."
  },
  {
   "property": "C27",
   "status": "proved",
   "theorems": [
    "C27_narrow_range",
    "C27_success_is_wide"
   ],
   "note": "interp1d arbitrary; C27_success_is_wide is the converse for returned results."
  },
  {
   "property": "C28",
   "status": "proved",
   "theorems": [
    "C28_signal_variance",
    "C28_nonneg",
    "C28_zero",
    "C28_shift",
    "C28_scale",
    "C28_order"
   ],
   "note": "Real arithmetic with missing values."
  },
  {
   "property": "C29",
   "status": "proved",
   "theorems": [
    "C29_noise_variance",
    "C29_nearest_unique",
    "C29_never_raises",
    "C29_bounds",
    "C29_shift"
   ],
   "note": "Real arithmetic with missing salinities; the formula theorem pins the neighbour and the first-of-ties rule."
  },
  {
   "property": "C30",
   "status": "proved",
   "theorems": [
    "C30_covariance_formula",
    "C30_correlation"
   ],
   "note": "Real arithmetic; depths nonzero if potential vorticity is used."
  },
  {
   "property": "C31",
   "status": "proved",
   "theorems": [
    "C31_covariance_psd"
   ],
   "note": "As C30; for every number of points."
  },
  {
   "property": "C32",
   "status": "proved",
   "theorems": [
    "C32_parameter_names",
    "C32_mapping_scales",
    "C32_calibration_scales",
    "C32_calibration_refuted"
   ],
   "note": "Real arithmetic. C32_mapping_scales is the theorem of C86, whose vocabulary divides latitude by the latitude scale. C32_calibration_refuted: the exchange matters. Finding."
  },
  {
   "property": "C33",
   "status": "proved",
   "theorems": [
    "C33_build_cov_blocks",
    "C33_build_cov_unit"
   ],
   "note": "Real arithmetic with missing temperatures; scipy interp1d modelled as linear interpolation with range check."
  },
  {
   "property": "C34",
   "status": "proved",
   "theorems": [
    "C34_symmetric_isothermal",
    "C34_one_profile_refuted",
    "C34_zero_vorticity_refuted",
    "C34_two_profiles_refuted"
   ],
   "note": "C34_symmetric_isothermal is the positive part; the three _refuted theorems are the findings."
  },
  {
   "property": "C35",
   "status": "proved",
   "theorems": [
    "C35_build_cov_range"
   ],
   "note": "Extended reals; any coordinates."
  },
  {
   "property": "C36",
   "status": "proved",
   "theorems": [
    "C36_least_squares"
   ],
   "note": "Real arithmetic; np.linalg.det and solve assumed exact (det zero iff singular, solve solves)."
  },
  {
   "property": "C37",
   "status": "proved",
   "theorems": [
    "C37_piecewise_linear",
    "C37_continuous",
    "C37_start",
    "C37_every_curve",
    "C37_exact_data"
   ],
   "note": "As C36."
  },
  {
   "property": "C38",
   "status": "proved",
   "theorems": [
    "C38_mismatch",
    "C38_singular"
   ],
   "note": "As C36; the length mismatch for every carrier of extended reals."
  },
  {
   "property": "C39",
   "status": "proved",
   "theorems": [
    "C39_ordered",
    "C39_onto",
    "C39_round_trip"
   ],
   "note": "Real arithmetic."
  },
  {
   "property": "C40",
   "status": "proved",
   "theorems": [
    "C40_range",
    "C40_independent",
    "C40_correlated",
    "C40_reported"
   ],
   "note": "Real arithmetic; C40_reported for every numeric carrier ties the value to the call."
  },
  {
   "property": "C41",
   "status": "proved",
   "theorems": [
    "C41_missing_value",
    "C41_unknown_option",
    "C41_no_maximum"
   ],
   "note": "Every numeric carrier, every oracle."
  },
  {
   "property": "C42",
   "status": "proved",
   "theorems": [
    "C42_candidates",
    "C42_denominators",
    "C42_least"
   ],
   "note": "Candidate list and choice in extended reals; the constant alone may have a non-positive denominator (C42_denominators excludes K = -1)."
  },
  {
   "property": "C43",
   "status": "proved",
   "theorems": [
    "C43_station_means",
    "C43_one_sample",
    "C43_own_mean_refuted"
   ],
   "note": "C43_station_means is the exact (window) rule, C43_own_mean_refuted the finding."
  },
  {
   "property": "C44",
   "status": "proved",
   "theorems": [
    "C44_positions_sorted",
    "C44_order_refuted"
   ],
   "note": "C44_positions_sorted is the exact behaviour, C44_order_refuted the finding."
  },
  {
   "property": "C45",
   "status": "proved",
   "theorems": [
    "C45_constant_field"
   ],
   "note": "Real arithmetic, exact np.linalg.inv."
  },
  {
   "property": "C46",
   "status": "proved",
   "theorems": [
    "C46_affine"
   ],
   "note": "As C45."
  },
  {
   "property": "C47",
   "status": "proved",
   "theorems": [
    "C47_solvable",
    "C47_regular"
   ],
   "note": "As C45."
  },
  {
   "property": "C48",
   "status": "proved",
   "theorems": [
    "C48_exact_without_noise"
   ],
   "note": "As C45; invertibility assumed (casts may be too many or repeated)."
  },
  {
   "property": "C49",
   "status": "proved",
   "theorems": [
    "C49_cast_order"
   ],
   "note": "As C45."
  },
  {
   "property": "C50",
   "status": "proved",
   "theorems": [
    "C50_interpolation",
    "C50_range"
   ],
   "note": "Extended reals; float arrays of one length."
  },
  {
   "property": "C51",
   "status": "proved",
   "theorems": [
    "C51_missing",
    "C51_mismatch",
    "C51_no_climatology"
   ],
   "note": "As C50."
  },
  {
   "property": "C52",
   "status": "proved",
   "theorems": [
    "C52_raises",
    "C52_always_returns_refuted"
   ],
   "note": "As C50; C52_always_returns_refuted is the finding."
  },
  {
   "property": "C53",
   "status": "proved",
   "theorems": [
    "C53_independent"
   ],
   "note": "As C50; stations with the same complete samples get the same column, in whatever arrays they occur."
  },
  {
   "property": "C54",
   "status": "proved",
   "theorems": [
    "C54_addressed_cells",
    "C54_wide_window_refuted",
    "C54_wide_window_north"
   ],
   "note": "Real arithmetic; windows that do not reach from west of 0 to 360 or further east. C54_wide_window_refuted is the finding for those that do (window wider than 360 degrees)."
  },
  {
   "property": "C55",
   "status": "proved",
   "theorems": [
    "C55_boxes_in_order"
   ],
   "note": "Files are well formed (one entry and one column per cast); read_mat is assumed to drop dimensions of length one (squeeze_me=True)."
  },
  {
   "property": "C56",
   "status": "proved",
   "theorems": [
    "C56_selected_casts",
    "C56_nothing_selected"
   ],
   "note": "As C55; the first selected cast has a level no deeper than the limit, the other case is C57."
  },
  {
   "property": "C57",
   "status": "proved",
   "theorems": [
    "C57_empty_first_cast"
   ],
   "note": "Finding: everything is lost, the result is empty."
  },
  {
   "property": "C58",
   "status": "proved",
   "theorems": [
    "C58_float_excluded",
    "C58_small_file"
   ],
   "note": "Exclusion is by substring of the source name, so another float whose name contains the name is removed as well."
  },
  {
   "property": "C59",
   "status": "proved",
   "theorems": [
    "C59_subselection",
    "C59_north_unchanged",
    "C59_same_side",
    "C59_cast_side",
    "C59_float_side"
   ],
   "note": "np.interp and the gsw conversions are unspecified functions; truth value of an empty array as before NumPy 2.2."
  },
  {
   "property": "C60",
   "status": "proved",
   "theorems": [
    "C60_records",
    "C60_any_two",
    "C60_nothing_recorded"
   ],
   "note": "Real coordinates; every call of a history has at least one point (calibration.py calls it only with more than 5). C60_any_two restates separation by positions."
  },
  {
   "property": "C61",
   "status": "proved",
   "theorems": [
    "C61_outliers"
   ],
   "note": "Finite salinities. The standard deviation is the population one. In the strict inequality the removed casts are fewer than one ninth."
  },
  {
   "property": "C62",
   "status": "proved",
   "theorems": [
    "C62_window"
   ],
   "note": "Every numeric carrier; the depths may be longer than the other arrays, as in the pipeline."
  },
  {
   "property": "C63",
   "status": "proved",
   "theorems": [
    "C63_fresh_run",
    "C63_every_profile_once",
    "C63_second_run",
    "C63_named_directory",
    "C63_second_run_refuted"
   ],
   "note": "The calculation of a level is an arbitrary function (calc), so also the real one. The claim holds for float directories that contribute nothing to the path; C63_named_directory and C63_second_run_refuted are the finding for others (the file is loaded with and saved without the directory)."
  },
  {
   "property": "C64",
   "status": "proved",
   "theorems": [
    "C64_incremental"
   ],
   "note": "Every numeric carrier; the mapped file has as many columns as profile numbers. Finding."
  },
  {
   "property": "C65",
   "status": "proved",
   "theorems": [
    "C65_settings",
    "C65_columns",
    "C65_ascending",
    "C65_columns_refuted"
   ],
   "note": "Real profile numbers, distinct; for matrices whose columns differ, labelled right iff the numbers ascend. C65_columns_refuted is the finding."
  },
  {
   "property": "C66",
   "status": "proved",
   "theorems": [
    "C66_range",
    "C66_kept"
   ],
   "note": "Extended reals, any existing file."
  },
  {
   "property": "C67",
   "status": "proved",
   "theorems": [
    "C67_padding"
   ],
   "note": "Every numeric carrier. Files with a single column, which numpy would broadcast, are not treated differently."
  },
  {
   "property": "C68",
   "status": "proved",
   "theorems": [
    "C68_default_series",
    "C68_right_profiles",
    "C68_unsorted_refuted"
   ],
   "note": "Real, distinct profile numbers; np.argsort is any sorting permutation. C68_right_profiles is the exact condition for unsorted sources, C68_unsorted_refuted the finding."
  },
  {
   "property": "C69",
   "status": "proved",
   "theorems": [
    "C69_existing_file",
    "C69_flags_kept",
    "C69_other_profiles_refuted",
    "C69_missing_profile",
    "C69_missing_percentage",
    "C69_repeated_calls"
   ],
   "note": "As C68. The flags are right when the file has exactly the profiles of the source and these ascend; C69_other_profiles_refuted is the finding for a file with further profiles. C69_missing_percentage: the default meant for old files is never used (NameError is caught, KeyError raised). Several bounds stored in one row pass the check, which counts rows."
  },
  {
   "property": "C70",
   "status": "proved",
   "theorems": [
    "C70_one_factor",
    "C70_unit_factor",
    "C70_series_independent",
    "C70_any_numbers"
   ],
   "note": "Extended reals; C70_any_numbers for every numeric carrier. gsw conversions are arbitrary functions; C70_unit_factor assumes SP_from_C inverts C_from_SP at the sample. Settings without break points (see C96). C70_series_independent excludes the Monte Carlo error of the factor, which depends on the generator."
  },
  {
   "property": "C71",
   "status": "proved",
   "theorems": [
    "C71_load_pure",
    "C71_keys_ascending"
   ],
   "note": "Python heap of lists and dictionaries; any history of calls and assignments."
  },
  {
   "property": "C72",
   "status": "proved",
   "theorems": [
    "C72_level_variance"
   ],
   "note": "interp1d assumed linear between two points inside their range."
  },
  {
   "property": "C73",
   "status": "proved",
   "theorems": [
    "C73_tie_never_returns",
    "C73_success"
   ],
   "note": "C73_success assumes an interp1d that does not raise."
  },
  {
   "property": "C74",
   "status": "proved",
   "theorems": [
    "C74_candidate_levels",
    "C74_shallow"
   ],
   "note": "interp1d arbitrary."
  },
  {
   "property": "C75",
   "status": "proved",
   "theorems": [
    "C75_no_break_fit"
   ],
   "note": "Every numeric carrier, arbitrary optimiser and generator."
  },
  {
   "property": "C76",
   "status": "proved",
   "theorems": [
    "C76_initial_breaks_unused"
   ],
   "note": "Every numeric carrier, arbitrary optimiser and generator."
  },
  {
   "property": "C77",
   "status": "proved",
   "theorems": [
    "C77_constant_fit"
   ],
   "note": "Real arithmetic, exact inverse."
  },
  {
   "property": "C78",
   "status": "proved",
   "theorems": [
    "C78_line_or_constant",
    "C78_one_position"
   ],
   "note": "Real arithmetic, exact det, solve, inverse; arbitrary finite noise."
  },
  {
   "property": "C79",
   "status": "proved",
   "theorems": [
    "C79_shifted_line_refuted"
   ],
   "note": "Finding."
  },
  {
   "property": "C80",
   "status": "proved",
   "theorems": [
    "C80_no_data"
   ],
   "note": "Every numeric carrier."
  },
  {
   "property": "C81",
   "status": "proved",
   "theorems": [
    "C81_best_unbiased",
    "C81_best_unbiased_casts"
   ],
   "note": "As C45."
  },
  {
   "property": "C82",
   "status": "proved",
   "theorems": [
    "C82_more_casts"
   ],
   "note": "As C45; the additional casts are appended, C49 gives any other place."
  },
  {
   "property": "C83",
   "status": "proved",
   "theorems": [
    "C83_cache_transparent"
   ],
   "note": "Key equality is decided by eqb; the values returned are not modified by the callers (get_region_data would modify arrays of length one, lines 335-341, which the reader never returns)."
  },
  {
   "property": "C84",
   "status": "proved",
   "theorems": [
    "C84_cache_stale"
   ],
   "note": "Finding. As C83."
  },
  {
   "property": "C85",
   "status": "proved",
   "theorems": [
    "C85_repeated_pressure"
   ],
   "note": "Finding. As C59."
  },
  {
   "property": "C86",
   "status": "proved",
   "theorems": [
    "C86_two_stages",
    "C86_determined",
    "C86_few_points"
   ],
   "note": "Real arithmetic, exact np.linalg.inv."
  },
  {
   "property": "C87",
   "status": "proved",
   "theorems": [
    "C87_shift"
   ],
   "note": "As C86."
  },
  {
   "property": "C88",
   "status": "proved",
   "theorems": [
    "C88_equal_salinities",
    "C88_one_failure"
   ],
   "note": "np.linalg.inv raises on the zero matrix. Finding."
  },
  {
   "property": "C89",
   "status": "proved",
   "theorems": [
    "C89_nothing_mapped",
    "C89_older_file"
   ],
   "note": "Every numeric carrier. Finding."
  },
  {
   "property": "C90",
   "status": "proved",
   "theorems": [
    "C90_skipped_profile",
    "C90_skipped_level"
   ],
   "note": "Every numeric carrier."
  },
  {
   "property": "C91",
   "status": "proved",
   "theorems": [
    "C91_depths",
    "C91_aligned",
    "C91_depths_refuted"
   ],
   "note": "Every numeric carrier with a NaN, without the SAF constraint; C91_depths_refuted is an evaluation over the integers. Finding."
  },
  {
   "property": "C92",
   "status": "proved",
   "theorems": [
    "C92_failure",
    "C92_one_file",
    "C92_other_floats"
   ],
   "note": "Files are identified by normalised path; no symbolic links."
  },
  {
   "property": "C93",
   "status": "proved",
   "theorems": [
    "C93_print"
   ],
   "note": "Strings of 8-bit characters; the conversion of values to text is arbitrary."
  },
  {
   "property": "C94",
   "status": "proved",
   "theorems": [
    "C94_order",
    "C94_everything",
    "C94_ascending",
    "C94_not_ascending"
   ],
   "note": "Extended reals, finite profile numbers. C94_not_ascending is the finding. Success of a run is exhibited over the integers (C94_witness)."
  },
  {
   "property": "C95",
   "status": "proved",
   "theorems": [
    "C95_repeated_number",
    "C95_single_profile"
   ],
   "note": "Extended reals; C_from_SP of NaN is NaN. Finding."
  },
  {
   "property": "C96",
   "status": "proved",
   "theorems": [
    "C96_given_breaks"
   ],
   "note": "Extended reals; C_from_SP of NaN is NaN. Finding."
  },
  {
   "property": "C97",
   "status": "proved",
   "theorems": [
    "C97_files",
    "C97_missing_file",
    "C97_settings_found",
    "C97_settings_refuted"
   ],
   "note": "Files are identified by their path strings; C97_settings_refuted is the finding."
  },
  {
   "property": "C98",
   "status": "proved",
   "theorems": [
    "C98_no_history",
    "C98_blank",
    "C98_no_percentage"
   ],
   "note": "C98_no_percentage for every numeric carrier. Finding."
  },
  {
   "property": "C99",
   "status": "proved",
   "theorems": [
    "C99_no_break_saved"
   ],
   "note": "Extended reals. Finding (follows from C75)."
  },
  {
   "property": "C100",
   "status": "proved",
   "theorems": [
    "C100_theta_sal_legend",
    "C100_short_legend_refuted",
    "C100_empty_legend_refuted"
   ],
   "note": "Extended reals, integer profile numbers. C100_short_legend_refuted and C100_empty_legend_refuted are the finding."
  },
  {
   "property": "C101",
   "status": "proved",
   "theorems": [
    "C101_theta_sal_profiles"
   ],
   "note": "Every numeric carrier. Colours and styles are not modelled."
  },
  {
   "property": "C102",
   "status": "proved",
   "theorems": [
    "C102_trajectory_limits",
    "C102_trajectory_places",
    "C102_trajectory_notes",
    "C102_longitudes",
    "C102_inside_limits_refuted",
    "C102_neighbours_refuted"
   ],
   "note": "Real positions, at least one historical profile. The refuted theorems are the finding. Coastline, bathymetry and reef shapes are not modelled."
  },
  {
   "property": "C103",
   "status": "proved",
   "theorems": [
    "C103_no_such_row",
    "C103_kept_samples_shown_refuted",
    "C103_kept_samples_plotted_refuted"
   ],
   "note": "Finding. shown in Spec_Plots describes exactly what remains visible; C104 uses it."
  },
  {
   "property": "C104",
   "status": "proved",
   "theorems": [
    "C104_sal_var_values"
   ],
   "note": "Extended reals. interp1d is any function that is linear between two points."
  },
  {
   "property": "C105",
   "status": "proved",
   "theorems": [
    "C105_anomaly_outcome",
    "C105_anomaly_balanced",
    "C105_anomaly_offset",
    "C105_anomaly_drift",
    "C105_majority",
    "C105_few_samples"
   ],
   "note": "Extended reals. np.argsort is an arbitrary function; interp1d with bounds_error=False is any function that gives a number or NaN and follows a common offset."
  },
  {
   "property": "C106",
   "status": "proved",
   "theorems": [
    "C106_single_anomaly",
    "C106_single_dashboard"
   ],
   "note": "Every numeric carrier. Finding."
  },
  {
   "property": "C107",
   "status": "proved",
   "theorems": [
    "C107_salinity_curve",
    "C107_nothing_calibrated"
   ],
   "note": "Real values with gaps, arrays of matching lengths."
  },
  {
   "property": "C108",
   "status": "proved",
   "theorems": [
    "C108_dashboard_files"
   ],
   "note": "Every numeric carrier. plt.show is assumed to close all figures (interactive backends). The witness is a run over the integers."
  },
  {
   "property": "C109",
   "status": "proved",
   "theorems": [
    "C109_open_figures",
    "C109_same_files_refuted"
   ],
   "note": "Every numeric carrier. plt.show is assumed to leave figures open (non-interactive backends). Finding."
  },
  {
   "property": "C110",
   "status": "proved",
   "theorems": [
    "C110_sal_var_outcome",
    "C110_too_many_levels",
    "C110_single_profile_refuted"
   ],
   "note": "Extended reals, as C104; no_ties excludes the ValueError of two neighbours at the same distance."
  },
  {
   "property": "C111",
   "status": "proved",
   "theorems": [
    "C111_mapped_file",
    "C111_settings_calibration",
    "C111_settings_dashboard",
    "C111_calibration_dashboard",
    "C111_dashboard_after_calibration"
   ],
   "note": "Files are identified by normalised path (first four theorems) or by path string (last one). Finding; the default configuration has equal postfixes."
  },
  {
   "property": "C112",
   "status": "proved",
   "theorems": [
    "C112_kept_casts",
    "C112_last_row_unused",
    "C112_all_levels_refuted"
   ],
   "note": "Every numeric carrier; np.interp and the gsw conversions are arbitrary functions. C112_all_levels_refuted is the finding: the criterion does not use all levels of a cast."
  },
  {
   "property": "C113",
   "status": "proved",
   "theorems": [
    "C113_envelope",
    "C113_shallow_float",
    "C113_spanning"
   ],
   "note": "Every numeric carrier; np.interp is an arbitrary function. A temperature of 300 dbar that is missing counts as not deciding."
  },
  {
   "property": "C114",
   "status": "proved",
   "theorems": [
    "C114_error_of_constant",
    "C114_constant_is_weighted_mean",
    "C114_standard_error_if_independent",
    "C114_standard_error_if_equal",
    "C114_never_smaller",
    "C114_standard_error_refuted"
   ],
   "note": "Extended reals. np.linalg.inv is assumed to return an inverse of every invertible real matrix (inv_ok). C114_standard_error_refuted is the finding: P of the code multiplies lvcov by w, E and the error of one sample only."
  },
  {
   "property": "C115",
   "status": "proved",
   "theorems": [
    "C115_derivative_error_of_line",
    "C115_slope_of_best_line",
    "C115_variance_if_independent",
    "C115_scatter_positive",
    "C115_standard_error_refuted"
   ],
   "note": "Extended reals, inv_ok as in C114. C115_standard_error_refuted is the finding: time_deriv_err is a variance, multiplied once by y_scale/x_scale where a variance needs the square."
  },
  {
   "property": "C116",
   "status": "proved",
   "theorems": [
    "C116_single_cast",
    "C116_few_levels",
    "C116_refuted"
   ],
   "note": "Every numeric carrier with a NaN. read_mat drops dimensions of length one (squeeze_me=True of pymatreader): a number has no length, a 1-d array no columns; both exceptions are swallowed. C116_refuted is an evaluation. Finding."
  },
  {
   "property": "C117",
   "status": "proved",
   "theorems": [
    "C117_separate",
    "C117_parallel",
    "C117_each_float",
    "C117_succeeds",
    "C117_terminates",
    "C117_executes"
   ],
   "note": "Every numeric carrier. A process reads the source file, then the mapped file, then writes the mapped file, each in one step; chunks are contiguous parts of the list. separate: no file written for one float is read or written for another. The calculation of a profile is an arbitrary function of the float and its source (it reads reference data that nothing writes, and seeds its random numbers)."
  },
  {
   "property": "C118",
   "status": "proved",
   "theorems": [
    "C118_one_processor",
    "C118_not_mapped",
    "C118_not_calibrated"
   ],
   "note": "Every numeric carrier, calculation, fit and plot functions. Hypothesis of the third theorem: equal postfixes of mapped and calibration files (as in the default configuration; C111) and a float directory without name (\"/\")."
  },
  {
   "property": "C119",
   "status": "proved",
   "theorems": [
    "C119_products",
    "C119_independent",
    "C119_calibrations"
   ],
   "note": "Every numeric carrier for the first two theorems; the third for the extended reals with the modelled fit, rectangular sources and settings without given breaks."
  },
  {
   "property": "C120",
   "status": "proved",
   "theorems": [
    "C120_first_run"
   ],
   "note": "Extended reals; np.argsort sorts. Composition of C63, C65, C68 and C70. The second part of the witness is an evaluation over integers."
  },
  {
   "property": "C121",
   "status": "proved",
   "theorems": [
    "C121_second_run"
   ],
   "note": "As C120. The second run may use another configuration and calculation."
  },
  {
   "property": "C122",
   "status": "proved",
   "theorems": [
    "C122_one_depth",
    "C122_longitude",
    "C122_float",
    "C122_positions",
    "C122_casts",
    "C122_calibration",
    "C122_pole"
   ],
   "note": "Real positions, interp2d bilinear within the cells of the grid (an assumption on scipy; C122_witness has an instance). Success of a mapping in C122_float and C122_casts is exhibited over integers (C91_witness); C122_positions and C122_calibration state success. C122_casts without the SAF constraint; which casts are given which of the depths is C91."
  },
  {
   "property": "C123",
   "status": "proved",
   "theorems": [
    "C123_offset",
    "C123_drift",
    "C123_salinity",
    "C123_drift_refuted"
   ],
   "note": "Extended reals, the interpolations and the equation of state arbitrary; det, solve and inv of numpy exact, randn finite. The hypothesis that the run completes is C124 for at most a line. C123_salinity assumes that the equation of state inverts at the sample. Exact recovery of a drift is refuted for series whose first profile has no sample (C123_drift_refuted)."
  },
  {
   "property": "C124",
   "status": "proved",
   "theorems": [
    "C124_completes"
   ],
   "note": "As C123, interp1d total. With more than a line allowed the run depends on scipy least_squares and is not covered. That the levels chosen have samples is a hypothesis on the result of find_10thetas (characterised in C24-C26 and C72-C74)."
  },
  {
   "property": "C125",
   "status": "proved",
   "theorems": [
    "C125_sorter_counts",
    "C125_sorter_general"
   ],
   "note": "Binary64 (Flocq), round to nearest even."
  },
  {
   "property": "C126",
   "status": "proved",
   "theorems": [
    "C126_wrap_range",
    "C126_wrap_near",
    "C126_wrap_seam",
    "C126_wrap_idempotent",
    "C126_wrap_exact_refuted"
   ],
   "note": "Binary64. C126_wrap_exact_refuted is an evaluation at -0.1."
  },
  {
   "property": "C127",
   "status": "proved",
   "theorems": [
    "C127_cal2dec_order",
    "C127_change_dates_order",
    "C127_feb29_collides"
   ],
   "note": "Binary64."
  },
  {
   "property": "C128",
   "status": "proved",
   "theorems": [
    "C128_boxes",
    "C128_boxes_refuted"
   ],
   "note": "Binary64. C128_boxes_refuted is the finding, an evaluation at 39.99; the same happens at other edges."
  },
  {
   "property": "C129",
   "status": "proved",
   "theorems": [
    "C129_covariance_transposed",
    "C129_covariance_bounds"
   ],
   "note": "Binary64 with arbitrary exp and sin; x**2 is x*x rounded (numpy squares arrays so)."
  },
  {
   "property": "C130",
   "status": "proved",
   "theorems": [
    "C130_spatial_symmetric",
    "C130_ellipse_symmetric"
   ],
   "note": "Binary64; x**2 is x*x rounded, and infinite where Python raises OverflowError for floats."
  },
  {
   "property": "C131",
   "status": "proved",
   "theorems": [
    "C131_signal_variance",
    "C131_noise_variance",
    "C131_constant_refuted"
   ],
   "note": "Binary64; sums from left to right (numpy sums eight and more numbers in another order: neither the signs nor the zeros depend on it)."
  },
  {
   "property": "C132",
   "status": "proved",
   "theorems": [
    "C132_nearest"
   ],
   "note": "Binary64."
  },
  {
   "property": "C133",
   "status": "proved",
   "theorems": [
    "C133_search_valid",
    "C133_search_shares",
    "C133_search_completes"
   ],
   "note": "Binary64 with arbitrary exp and sin; x**2 is x*x rounded, and infinite where Python raises OverflowError for floats (the bounds of C133_search_completes exclude it). Random numbers are finite doubles in [0,1); the sort is any argsort with NaN last."
  },
  {
   "property": "C134",
   "status": "proved",
   "theorems": [
    "C134_profile",
    "C134_file"
   ],
   "note": "Real arithmetic, exact inverse. Positions, dates and depths are numbers (hypotheses positions_known, float_known, soundings); salinities, temperatures and pressures may be NaN or missing. Levels with noise 0 are excluded: there the code raises LinAlgError (C88). The range 30 to 40 is the one applied when the file is written. C134_witness is a complete run over the reals (six casts, one profile)."
  },
  {
   "property": "C135",
   "status": "proved",
   "theorems": [
    "C135_own_salinity",
    "C135_frontal_criterion_refuted"
   ],
   "note": "Every numeric carrier. The refuted theorem is the finding: frontal_constraint_saf decides by the salinity that is to be calibrated when the temperature at 300 dbar is between 3 and 5 degrees. The witness is the run over the reals of C134."
  },
  {
   "property": "C136",
   "status": "proved",
   "theorems": [
    "C136_level",
    "C136_file",
    "C136_marked"
   ],
   "note": "Every numeric carrier. In C136_file, own gives the profile whose values are in a column; it is not always the one the column is labelled with (C65)."
  },
  {
   "property": "C137",
   "status": "proved",
   "theorems": [
    "C137_differences",
    "C137_selection",
    "C137_levels",
    "C137_lost",
    "C137_same_side_refuted"
   ],
   "note": "Over the reals. pos gives the place of each cast seen from the float, without jump at 360; located ties it to the recorded longitude. C137_levels also needs the condition for the selected casts, since their longitudes are wrapped again without the others. C137_same_side_refuted is the finding in its smallest form: float at 5 E, casts at 350 and 355."
  },
  {
   "property": "C138",
   "status": "proved",
   "theorems": [
    "C138_level",
    "C138_file"
   ],
   "note": "Over the reals. points_from (Spec_Whole) says which points the chosen casts give, in terms of their own samples; the depth with which a cast enters is the one the code gives it, which is that of another cast if the selection is not in ascending order (C91). The search is characterised by C14 to C17; the first selected cast has to have levels above the limit, otherwise get_region_data starts with an empty array. Where the noise is not positive see C88. The witness has a level mapped from six casts and the run of C134."
  },
  {
   "property": "C139",
   "status": "proved",
   "theorems": [
    "C139_profile",
    "C139_run"
   ],
   "note": "Over the reals, with the assumed behaviour of the oracles recorded in rand_ok, argsort_ok, inv_ok, sorting and answers (interp2d gives a number wherever it is asked). The set of conditions is the predicate ready of Spec_Completes. The selected casts themselves are characterised by C14 to C17, the values of the levels by C138. Witness: the float between six casts meets every hypothesis, and its run ends by C139_run itself."
  },
  {
   "property": "C140",
   "status": "proved",
   "theorems": [
    "C140_settings"
   ],
   "note": "Found missing by a seeded edit that exchanged two settings. run_settings (Spec_Settings) lists key and setting independently of the model. The witness is the run over six casts (C134)."
  },
  {
   "property": "C141",
   "status": "proved",
   "theorems": [
    "C141_random",
    "C141_state",
    "C141_exclude"
   ],
   "note": "For every carrier. C141_state also justifies that the model starts each profile from one state of the generator. at_most (Spec_Quota) counts casts in the ellipse with find_ellipse itself, whose meaning is C13."
  },
  {
   "property": "C142",
   "status": "proved",
   "theorems": [
    "C142_near",
    "C142_raises",
    "C142_pressure_range_refuted"
   ],
   "note": "Flocq binary64 with round to nearest even. Inputs are read as the reals they stand for (reals, real3 in Spec_FloatInterp) and compared with the exact interpolation of C50; C142_pressure_range_refuted is the finding (one unit in the last place outside)."
  },
  {
   "property": "C143",
   "status": "proved",
   "theorems": [
    "C143_completes",
    "C143_panels"
   ],
   "note": "For every carrier. Written after a seeded edit (lines at the wrong sign of the pressure) that only an inner lemma noticed. The levels passed in are those of find_10thetas by C108."
  },
  {
   "property": "C144",
   "status": "proved",
   "theorems": [
    "C144_order",
    "C144_order_refuted",
    "C144_unit",
    "C144_origin",
    "C144_hemisphere"
   ],
   "note": "About map_level (the part of update_salinity_mapping between the interpolation and the storage), whose inputs are pinned to the database by C138. The condition untied is needed: see C144_order_refuted. a = 0 would make all salinities equal, for which the covariance is singular (C88)."
  },
  {
   "property": "C145",
   "status": "proved",
   "theorems": [
    "C145_error_of_line",
    "C145_line_is_combination",
    "C145_spread_of_lines_if_independent",
    "C145_factor_is_ratio_of_variances_refuted"
   ],
   "note": "Written after two seeded edits of the Monte-Carlo loop (draws not scaled by the error, absolute instead of squared deviations) that no theorem noticed. That the returned coefficients are the best line is C78, used here as a hypothesis. Where the factor is negative the code takes the root of a negative number; this is not covered."
  },
  {
   "property": "C146",
   "status": "proved",
   "theorems": [
    "C146_level",
    "C146_elsewhere"
   ],
   "note": "Both runs are assumed to find the levels of the profile (C139 says when they do). With the vorticity the depths decide which casts are in the ellipse, and these are interpolated in a piece of the sea floor grid whose extent depends on all casts, so the claim is made without it."
  },
  {
   "property": "C147",
   "status": "proved",
   "theorems": [
    "C147_mapping",
    "C147_level",
    "C147_two_stages"
   ],
   "note": "Over the reals with an exact inverse. C147_two_stages carries the bounds over to the value and error that C138 finds in the file. The range check of the salinities (C66) comes after."
  },
  {
   "property": "C148",
   "status": "proved",
   "theorems": [
    "C148_breaks"
   ],
   "note": "Sharpens C96. Written after two seeded edits of the checks of the break points (infinite breaks counted, number of rows not compared) that no theorem noticed. Limits of several or no numbers in a row are not covered."
  },
  {
   "property": "C149",
   "status": "proved",
   "theorems": [
    "C149_fit_input",
    "C149_levels"
   ],
   "note": "Written after a seeded edit (levels of the first profile used for all) that no theorem noticed, because the specification of C123 shared the helper valid_levels (it now has its own levels_of). Errors at empty places are not stated: such samples are ignored by the fit as their value is missing."
  }
 ]
}