# Formal model of pyowc (argodmqc_owc)

The sources in `/repo` were read as text; nothing there was executed or changed.  All Coq files are in
`rocq/theories` (logical name `Verif`), built with the flags of `rocq/_CoqProject`.

* `properties.jsonl` - the claims in English, stated about the API.
* `MANIFEST.json` - the theorems of each claim and their status.
* `seeded/LOG.jsonl` - wrong programs against which the theorems were tried.

## How the model is built

**Numbers.**  `Num T` (`Num.v`) is a type class with the operations the Python code uses on floats
(arithmetic, comparisons, NaN tests, exp, sqrt, floor, ...).  It has *no laws*; every model function is
polymorphic in it.

* Structural theorems (indices, order, lengths, exceptions, files) are proved for every instance of `Num`,
  so they hold for IEEE binary64 with rounding as well.
* Numeric theorems are proved for `XR`: exact reals with +inf, -inf and NaN, IEEE propagation, no rounding,
  no overflow, no signed zero.  They say what the formulas compute.
* `f64` (`Float.v`) is Flocq's IEEE 754 binary64 with rounding to nearest even, signed zeros, infinities, overflow and
  one NaN.  C125 onwards prove what remains true with rounding, with explicit error bounds, for the functions
  whose result does not depend on the order of a summation: np.sum adds eight and more numbers pairwise, the model from
  left to right.  `x ** 2` is `x * x` rounded; where Python raises OverflowError for a power of a float the model has
  an infinity.
* `ZN = option Z` (`DemoNum.v`) is a computable instance (None is NaN).  It is used only for
  examples and witnesses that are evaluated, never for a general claim.

**Exceptions.**  `res A := Ok a | Raise e` with the Python exception as a value; `let* x := e in f` is the
sequencing.  A theorem that says "raises" names the exception.

**Arrays.**  One-dimensional arrays are lists, matrices lists of columns or rows (said in each file) or functions
of two indices together with their sizes where linear algebra is done.  `Np.v` has the numpy functions used
(unique, argsort, argmin, set_nth ...).

**External functions** are Section variables, hence universally quantified in every theorem.  A hypothesis about one
of them appears in the theorem that needs it and nowhere else.

**Files.**  `loadmat`/`savemat` are a store of values addressed by path.  Where two paths can name one
file, `Mapping.v` normalises them; symbolic links are not considered.

**Per module**: `X.v` is the model with the lines of the source in comments, `Spec_X.v` the vocabulary of the claims
(independent of the helpers of the model), `Proofs_X*.v` the proofs, `Properties_X.v` only theorems closed
by `exact`, each followed by `Print Assumptions`, and examples satisfying the hypotheses.

## Trusted base

* The kernel of Coq 8.16.1.
* The axioms listed per theorem in the table below.  They come from the standard library only:
  `FunctionalExtensionality.functional_extensionality_dep`, `ClassicalDedekindReals.sig_not_dec`,
  `ClassicalDedekindReals.sig_forall_dec`, `Classical_Prop.classic`.  The development declares no axiom, parameter
  or module type, and switches off no check.
* That the model says what the Python does: the semantics of Python, numpy and matplotlib as written in the
  comments of the definitions, with the simplifications listed below.
* That the statements in the `Properties_*.v` files mean what the English says.

Libraries imported: the standard library (Reals, Lists, Permutation, Sorting, ...) and Flocq (`Core.Raux`, for floor and the
decision of real comparisons; `IEEE754.BinarySingleNaN` for binary64).

## External functions and what is assumed of them

| function | model | assumed, only in the theorems that say so |
|---|---|---|
| `np.random.seed`, `np.random.rand` | `seed`, `rand` on an arbitrary state | numbers in [0,1), as many as asked for |
| `np.random.randn` | `randn` on an arbitrary state | finite numbers, as many as asked for |
| `np.argsort` (unstable) | arbitrary function | a permutation that sorts by key |
| `np.argsort(kind='stable')`, `np.sort`, `np.unique` | computed (`Np.v`) | - |
| `np.linalg.inv` | arbitrary partial function | returns the two-sided inverse if there is one; raises on the zero matrix (C88) |
| `np.linalg.det`, `scipy.linalg.solve` | arbitrary functions | det is zero iff singular, solve solves |
| `scipy.optimize.least_squares` | arbitrary function of the objective and the start | nothing |
| `scipy.interpolate.interp1d` | arbitrary function (`Finders`, `Calib`, `Plots`); linear interpolation with range check in `Stats` | linear between two points; does not raise in range |
| `interp1d(..., bounds_error=False)` | arbitrary function | a number or NaN; follows a common offset (C105) |
| `np.interp` | arbitrary function | nothing |
| `scipy.interpolate.interp2d` | arbitrary partial function | nothing; for C122 that it is bilinear within the cells of the grid (`linear_interp2d`, satisfied by `demo_interp2d`) |
| gsw `SA_from_SP`, `CT_from_pt`, `t_from_CT`, `C_from_SP`, `SP_from_C` | arbitrary functions | `SP_from_C` inverts `C_from_SP` at the sample (C70_unit_factor); `C_from_SP` of NaN is NaN (C95, C96) |
| `loadmat` of the reference database | `read_mat`, arbitrary partial function of the file name | well-formed files, dimensions of length one dropped (C55-C58, C91, C116) |
| text form of a date or value | `date_str`, `show_bounds` | nothing |
| `tbase.int` | a byte for each position | the length of the file (C54) |
| `functools.lru_cache` | list of keys and values, 128 entries at most, the least recently used dropped (`Fetchers.v`) | - |
| `multiprocessing.Pool.map` | chunks of the list, an exception ends its chunk, steps of the processes in any order, reading and writing a file are single steps, returns when all chunks have ended (`Pipeline.v`) | - |
| `matplotlib.pyplot` | numbered figures, current figure and axes, files (`Pyplot.v`) | `plt.show` closes the figures (C108) or does not (C109) |

## What is modelled

| source | function, lines | file | not modelled, simplified |
|---|---|---|---|
| `utilities.py` | spatial_correlation 8-49, sorter 52-77, wrap_longitude 80-109, potential_vorticity 112-136, cal2dec 139-165, change_dates 168-216 | `Utilities.v` | digits other than ASCII |
| `core/finders.py` | find_ellipse 20-56, find_besthist 67-304, nearest_neighbour 307-324, find_25boxes 327-435, find_10thetas 442-709 | `Finders.v` | - |
| `core/stats.py` | signal_variance 660-684, noise_variance 687-729, covar_xyt_pv 733-784, build_cov 788-905, covarxy_pv 909-957, brk_pt_fit 961-1051 | `Stats.v` | - |
| `core/stats.py` | fit_cond 26-657 with nlbpfun 68-110 | `FitCond.v` | printed text; the option number_breaks only as an int |
| `data/wrangling.py` | map_data_grid 17-82, interp_climatology and its helpers 89-239 | `Wrangling.v` | - |
| `data/fetchers.py` | get_topo_grid 63-159 | `Topo.v` | - |
| `data/fetchers.py` | read_mat_* and the cache 22-60, get_data 162-208, get_region_hist_locations 212-267, get_region_data 276-458, _sync_nans 461-474 | `Fetchers.v` | the unwrapping of arrays of length one (335-341, never reached: the reader returns none) |
| `data/fetchers.py` | frontal_constraint_saf 477-667 | `Saf.v` | - |
| `helper.py` | get_float_data 121-143, process_profiles_grid_variables 182-222 | `MapProfile.v` | - |
| `helper.py` | process_profile_hist_variables 226-259, remove_statical_outliers 262-282, selected_historical_points 334-371 | `Helper.v` | - |
| `helper.py` | load_varibales_from_file 15-118, process_profiles_la_variables 146-179, check_and_make_numpy_arry 285-301, sort_numpy_array 304-331 | `Mapping.v` | broadcasting of files with one column |
| `calibration.py` | update_salinity_mapping 31-370 | `Mapping.v`, one profile in `MapProfile.v` | printed text, the clock |
| `calibration.py` | calc_piecewisefit 378-743 | `Calib.v` | several bounds in one row; arrays of source and mapped file of different size; numbers drawn before one of the exceptions |
| `configuration.py` | print_cfg 10-15, load 18-122, set_calseries 131-268 | `Config.v` | - |
| `plot/plots.py` | trajectory_plot 93-141, theta_sal_plot 147-203, t_s_profile_plot 207-275, sal_var_plot 283-558, cal_sal_curve_plot 564-660, sal_anom_plot 663-752 | `Plots.v` | colours, styles, titles, map shapes (16-26, 32-92), pixels |
| `plot/dashboard.py`, `plot/utils.py` | plot_diagnostics 15-136, create_dataframe 6-35 | `Plots.v`, `Dashboard.v` | - |
| `start_with_pycharm.py` | 13-35 | `Pipeline.v` | printed text, the clock; a file of the wrong kind counts as missing |

Not modelled at all: `tests`, `setup.py`, `docs`, `binder`, `utils/profile_update_salinity_mapping.py` (a
script that profiles update_salinity_mapping), the `__init__` files, the encoding of .mat
files, rendering, and the convergence of `least_squares` (no result of it is ever returned: C75).

## Findings

Where the code does not do what its documentation or its callers expect, the claim states exactly what it does,
proved for all inputs, and a theorem with suffix `_refuted` gives an input on which the expectation fails.

* **C03** sorter answers for the sorted sites, not the given order (`C03_pointwise_refuted`)
* **C19** find_besthist ranks by the wrong PV term (`C19_pv_separation_refuted`)
* **C32** covariance scale arguments are crossed over, pipeline compensates (`C32_calibration_refuted`)
* **C34** build_cov is not symmetric in general (`C34_one_profile_refuted`, `C34_zero_vorticity_refuted`, `C34_two_profiles_refuted`)
* **C43** fit_cond per-profile means (`C43_own_mean_refuted`)
* **C44** fit_cond unsorted input (`C44_order_refuted`)
* **C52** interp_climatology crashes on isothermal matches (`C52_always_returns_refuted`)
* **C54** get_topo_grid reads the addressed cells (`C54_wide_window_refuted`)
* **C57** get_region_data loses data after an empty first cast
* **C63** a fresh mapping run covers every profile once (`C63_second_run_refuted`)
* **C64** incremental mapping update crashes
* **C65** mapped matrices are sorted twice (`C65_columns_refuted`)
* **C68** set_calseries default series (`C68_unsorted_refuted`)
* **C69** set_calseries existing file (`C69_other_profiles_refuted`)
* **C79** fit_cond evaluates the line from the first profile, not the first valid one (`C79_shifted_line_refuted`)
* **C84** cached database readers serve stale data after the file changes
* **C85** SAF constraint fails on a repeated pressure
* **C88** one level that cannot be mapped loses the whole float
* **C89** runs that cannot produce a mapped file
* **C91** depths of the historical casts are not those of the casts (`C91_depths_refuted`)
* **C94** a calibration factor belongs to the profile at the same place in the order of the numbers
* **C95** series that can never be calibrated
* **C96** prescribed break points never lead to a calibration
* **C97** a calibration run writes one file or none (`C97_settings_refuted`)
* **C98** settings that do not lead to a calibration
* **C99** no break point is ever saved
* **C100** legend of the theta-salinity plot (`C100_short_legend_refuted`, `C100_empty_legend_refuted`)
* **C102** trajectory plot (`C102_inside_limits_refuted`, `C102_neighbours_refuted`)
* **C103** what the windows hide in the salinity variance plot (`C103_kept_samples_shown_refuted`, `C103_kept_samples_plotted_refuted`)
* **C106** floats with a single profile have no dashboard
* **C109** dashboard files are mixed up if figures stay open (`C109_same_files_refuted`)
* **C110** files of the salinity variance plot (`C110_single_profile_refuted`)
* **C111** files are handed from one stage to the next only with equal postfixes
* **C112** SAF constraint keeps the casts on the float's side, read without their last row (`C112_all_levels_refuted`)
* **C114** error returned with a constant offset (`C114_standard_error_refuted`)
* **C115** error of the slope returned with a line (`C115_standard_error_refuted`)
* **C116** small reference files are lost (`C116_refuted`)
* **C123** the calibration recovers a constant offset and a linear drift (`C123_drift_refuted`)
* **C126** wrap_longitude in double precision (`C126_wrap_exact_refuted`)
* **C128** the 25 boxes in double precision (`C128_boxes_refuted`)
* **C131** variances in double precision (`C131_constant_refuted`)
* **C135** The mapping does not use the salinities to be calibrated (`C135_frontal_criterion_refuted`)
* **C137** Around Greenwich the float and its reference casts are compared on the same side, unless all casts are on the other side (`C137_same_side_refuted`)
* **C142** Interpolation of the climatology in double precision (`C142_pressure_range_refuted`)
* **C144** Mapping a level under changes of order, unit, origin and hemisphere (`C144_order_refuted`)
* **C145** The error of a fitted line (`C145_factor_is_ratio_of_variances_refuted`)

## Properties, theorems, and what Print Assumptions lists

E = `functional_extensionality_dep`, S = `ClassicalDedekindReals.sig_not_dec`,
F = `ClassicalDedekindReals.sig_forall_dec`, C = `Classical_Prop.classic`; "-" = closed under the global context.

| id | claim | theorems (axioms) | scope |
|---|---|---|---|
| C01 | spatial_correlation is a squared scaled distance | `C01_spatial_correlation` (ESF), `C01_spatial_correlation_formula` (ESF), `C01_zero_scale` (ESF) | Real arithmetic; the formula theorem pins which scale divides which difference. |
| C02 | sorter counts the boundaries at or below each site | `C02_sorter_counts` (ESF) | Theorem for real-valued arrays; the underlying lemma holds for every strict weak order. |
| C03 | sorter answers for the sorted sites, not the given order | `C03_sorter_unsorted` (ESF), `C03_sorter_sorted_copy` (ESF), `C03_pointwise_refuted` (ESF) | C03_pointwise_refuted records that the k-th entry is not the interval of sites[k]. |
| C04 | wrap_longitude keeps every position on the globe | `C04_wrap_meridian` (ESF) | Real arithmetic. |
| C05 | wrap_longitude is idempotent and never splits the seam | `C05_wrap_idempotent_no_split` (ESF) | Real arithmetic. |
| C06 | wrap_longitude of one cast depends on the other casts | `C06_wrap_subset` (ESF), `C06_wrap_cast` (ESF) | Exact condition under which a sub-selection is wrapped as in the whole array. |
| C07 | potential_vorticity is never zero and has the sign of latitude | `C07_potential_vorticity` (ESFC), `C07_zero_depth` (ESFC) | Real arithmetic and exact pi. |
| C08 | cal2dec error discipline | `C08_cal2dec_errors` (ESF) | Integer fields. |
| C09 | cal2dec is strictly increasing in calendar order | `C09_cal2dec_order` (ESF) | Integer fields of a non-leap year. |
| C10 | change_dates is pointwise and total | `C10_change_dates_pointwise` (ESF) | Text restricted to ASCII. |
| C11 | change_dates orders dates chronologically across years | `C11_change_dates_order` (ESF), `C11_feb29_collides` (ESF), `C11_str_of_timestamp` (-) | Years 1000..9999; seconds are ignored by the code. |
| C12 | change_dates rejects short float-typed dates | `C12_float_dates` (ESF) | Text form of floats is the integer text followed by .0. |
| C13 | find_ellipse measures a scaled distance | `C13_find_ellipse` (ESF), `C13_larger_sizes` (ESF) | Real arithmetic. |
| C14 | find_besthist returns valid, distinct, in-ellipse casts | `C14_besthist_valid` (ESFC) | Any generator producing numbers in [0,1) and any (unstable) argsort; real arithmetic. Holds for every max_casts. |
| C15 | find_besthist returns min(available, max_casts) casts | `C15_besthist_count` (ESFC) | As C14. |
| C16 | find_besthist small-quota behaviour | `C16_besthist_small_quota` (ESFC), `C16_besthist_no_casts` (ESFC) | As C14; C16_besthist_no_casts adds the empty grid. |
| C17 | find_besthist picks the closest casts for its non-random share | `C17_besthist_closest` (ESFC) | PV option off; as C14. |
| C18 | find_besthist is reproducible | `C18_besthist_state` (-) | Every numeric carrier, every generator. |
| C19 | find_besthist ranks by the wrong PV term | `C19_besthist_ranks` (ESFC), `C19_pv_separation_refuted` (ESFC), `C19_without_pv` (ESF) | C19_besthist_ranks is the exact (wrong) ranking, C19_pv_separation_refuted the finding. |
| C20 | nearest_neighbour returns the closest table cell | `C20_nearest_neighbour` (ESF) | Real arithmetic. |
| C21 | find_25boxes returns the 5x5 neighbourhood | `C21_boxes_neighbourhood` (ESF) | Real arithmetic; the claim covers latitudes -70.01..69.99. |
| C22 | find_25boxes duplicates boxes near the poles and only there | `C22_boxes_distinct` (ESF) | Real arithmetic; table with pairwise distinct rows. |
| C23 | find_25boxes propagates missing positions | `C23_boxes_missing` (-) | Every numeric carrier. |
| C24 | find_10thetas picks the minimum-variance levels | `C24_minimum_variance` (ESF) | interp1d arbitrary; levels, variances and selection in extended reals. |
| C25 | find_10thetas excluded samples are never used | `C25_nearest_rows` (ESF) | interp1d arbitrary. |
| C26 | find_10thetas window semantics | `C26_windows` (ESF) | interp1d arbitrary. |
| C27 | find_10thetas fails on a narrow temperature range | `C27_narrow_range` (ESF), `C27_success_is_wide` (ESF) | interp1d arbitrary; C27_success_is_wide is the converse for returned results. |
| C28 | signal_variance is the population variance of the valid values | `C28_signal_variance` (ESF), `C28_nonneg` (EF), `C28_zero` (EF), `C28_shift` (ESF), `C28_scale` (ESF), `C28_order` (ESF) | Real arithmetic with missing values. |
| C29 | noise_variance is half the mean squared nearest-neighbour difference | `C29_noise_variance` (ESF), `C29_nearest_unique` (EF), `C29_never_raises` (ESF), `C29_bounds` (ESF), `C29_shift` (ESF) | Real arithmetic with missing salinities; the formula theorem pins the neighbour and the first-of-ties rule. |
| C30 | covar_xyt_pv is a correlation | `C30_covariance_formula` (ESFC), `C30_correlation` (ESFC) | Real arithmetic; depths nonzero if potential vorticity is used. |
| C31 | covar_xyt_pv of a point set is positive semidefinite | `C31_covariance_psd` (ESFC) | As C30; for every number of points. |
| C32 | covariance scale arguments are crossed over, pipeline compensates | `C32_parameter_names` (ESFC), `C32_mapping_scales` (ESFC), `C32_calibration_scales` (ESFC), `C32_calibration_refuted` (ESFC) | Real arithmetic. C32_mapping_scales is the theorem of C86, whose vocabulary divides latitude by the latitude scale. C32_calibration_refuted: the exchange matters. Finding. |
| C33 | build_cov block structure | `C33_build_cov_blocks` (ESFC), `C33_build_cov_unit` (ESFC) | Real arithmetic with missing temperatures; scipy interp1d modelled as linear interpolation with range check. |
| C34 | build_cov is not symmetric in general | `C34_symmetric_isothermal` (ESFC), `C34_one_profile_refuted` (ESFC), `C34_zero_vorticity_refuted` (ESFC), `C34_two_profiles_refuted` (ESFC) | C34_symmetric_isothermal is the positive part; the three _refuted theorems are the findings. |
| C35 | build_cov rejects out-of-range temperatures | `C35_build_cov_range` (ESFC) | Extended reals; any coordinates. |
| C36 | brk_pt_fit is the weighted least-squares optimum | `C36_least_squares` (ESF) | Real arithmetic; np.linalg.det and solve assumed exact (det zero iff singular, solve solves). |
| C37 | brk_pt_fit fits a continuous piecewise-linear curve exactly | `C37_piecewise_linear` (EF), `C37_continuous` (EF), `C37_start` (EF), `C37_every_curve` (EF), `C37_exact_data` (ESF) | As C36. |
| C38 | brk_pt_fit refuses mismatched or singular problems | `C38_mismatch` (ESF), `C38_singular` (ESF) | As C36; the length mismatch for every carrier of extended reals. |
| C39 | fit_cond break parameterisation is ordered and onto | `C39_ordered` (ESFC), `C39_onto` (ESFC), `C39_round_trip` (ESFC) | Real arithmetic. |
| C40 | fit_cond effective sample size | `C40_range` (ESF), `C40_independent` (ESF), `C40_correlated` (ESF), `C40_reported` (-) | Real arithmetic; C40_reported for every numeric carrier ties the value to the call. |
| C41 | fit_cond argument handling | `C41_missing_value` (-), `C41_unknown_option` (-), `C41_no_maximum` (-) | Every numeric carrier, every oracle. |
| C42 | fit_cond considers only models with positive residual degrees of freedom | `C42_candidates` (ESF), `C42_denominators` (EF), `C42_least` (ESF) | Candidate list and choice in extended reals; the constant alone may have a non-positive denominator (C42_denominators excludes K = -1). |
| C43 | fit_cond per-profile means | `C43_station_means` (ESFC), `C43_one_sample` (EF), `C43_own_mean_refuted` (ESFC) | C43_station_means is the exact (window) rule, C43_own_mean_refuted the finding. |
| C44 | fit_cond unsorted input | `C44_positions_sorted` (ESFC), `C44_order_refuted` (ESFC) | C44_positions_sorted is the exact behaviour, C44_order_refuted the finding. |
| C45 | map_data_grid reproduces a constant field | `C45_constant_field` (ESFC) | Real arithmetic, exact np.linalg.inv. |
| C46 | map_data_grid is affine in the salinities | `C46_affine` (ESFC) | As C45. |
| C47 | map_data_grid is always solvable with noise | `C47_solvable` (ESFC), `C47_regular` (ESFC) | As C45. |
| C48 | map_data_grid interpolates exactly without noise | `C48_exact_without_noise` (ESFC) | As C45; invertibility assumed (casts may be too many or repeated). |
| C49 | map_data_grid does not depend on cast order | `C49_cast_order` (ESFC) | As C45. |
| C50 | interp_climatology interpolates on the float temperature | `C50_interpolation` (ESFC), `C50_range` (EF) | Extended reals; float arrays of one length. |
| C51 | interp_climatology outputs missing exactly when there is nothing to interpolate | `C51_missing` (ESFC), `C51_mismatch` (ESF), `C51_no_climatology` (ESF) | As C50. |
| C52 | interp_climatology crashes on isothermal matches | `C52_raises` (ESFC), `C52_always_returns_refuted` (ESFC) | As C50; C52_always_returns_refuted is the finding. |
| C53 | interp_climatology treats stations independently | `C53_independent` (ESFC) | As C50; stations with the same complete samples get the same column, in whatever arrays they occur. |
| C54 | get_topo_grid reads the addressed cells | `C54_addressed_cells` (ESF), `C54_wide_window_refuted` (ESF), `C54_wide_window_north` (ESF) | Real arithmetic; windows that do not reach from west of 0 to 360 or further east. C54_wide_window_refuted is the finding for those that do (window wider than 360 degrees). |
| C55 | get_region_hist_locations concatenates boxes in order | `C55_boxes_in_order` (-) | Files are well formed (one entry and one column per cast); read_mat is assumed to drop dimensions of length one (squeeze_me=True). |
| C56 | get_region_data returns the selected casts in ascending order | `C56_selected_casts` (-), `C56_nothing_selected` (-) | As C55; the first selected cast has a level no deeper than the limit, the other case is C57. |
| C57 | get_region_data loses data after an empty first cast | `C57_empty_first_cast` (-) | Finding: everything is lost, the result is empty. |
| C58 | the reference database never contains the float under study | `C58_float_excluded` (-), `C58_small_file` (-) | Exclusion is by substring of the source name, so another float whose name contains the name is removed as well. |
| C59 | SAF constraint only removes casts and only in the Southern Ocean | `C59_subselection` (-), `C59_north_unchanged` (-), `C59_same_side` (-), `C59_cast_side` (-), `C59_float_side` (-) | np.interp and the gsw conversions are unspecified functions; truth value of an empty array as before NumPy 2.2. |
| C60 | selected historical points are separated and cover | `C60_records` (ESF), `C60_any_two` (EF), `C60_nothing_recorded` (-) | Real coordinates; every call of a history has at least one point (calibration.py calls it only with more than 5). C60_any_two restates separation by positions. |
| C61 | outlier removal keeps most casts and alignment | `C61_outliers` (ESF) | Finite salinities. The standard deviation is the population one. In the strict inequality the removed casts are fewer than one ninth. |
| C62 | history used at a level is within the pressure window | `C62_window` (-) | Every numeric carrier; the depths may be longer than the other arrays, as in the pipeline. |
| C63 | a fresh mapping run covers every profile once | `C63_fresh_run` (-), `C63_every_profile_once` (ESF), `C63_second_run` (ESF), `C63_named_directory` (ESF), `C63_second_run_refuted` (ESF) | The calculation of a level is an arbitrary function (calc), so also the real one. The claim holds for float directories that contribute nothing to the path; C63_named_directory and C63_second_run_refuted are the finding for others (the file is loaded with and saved without the directory). |
| C64 | incremental mapping update crashes | `C64_incremental` (-) | Every numeric carrier; the mapped file has as many columns as profile numbers. Finding. |
| C65 | mapped matrices are sorted twice | `C65_settings` (ESF), `C65_columns` (ESF), `C65_ascending` (ESF), `C65_columns_refuted` (ESF) | Real profile numbers, distinct; for matrices whose columns differ, labelled right iff the numbers ascend. C65_columns_refuted is the finding. |
| C66 | mapped salinities saved are in range | `C66_range` (ESF), `C66_kept` (ESF) | Extended reals, any existing file. |
| C67 | existing mapped matrices are padded, never altered | `C67_padding` (-) | Every numeric carrier. Files with a single column, which numpy would broadcast, are not treated differently. |
| C68 | set_calseries default series | `C68_default_series` (ESF), `C68_right_profiles` (ESF), `C68_unsorted_refuted` (ESF) | Real, distinct profile numbers; np.argsort is any sorting permutation. C68_right_profiles is the exact condition for unsorted sources, C68_unsorted_refuted the finding. |
| C69 | set_calseries existing file | `C69_existing_file` (ESF), `C69_flags_kept` (ESF), `C69_other_profiles_refuted` (ESF), `C69_missing_profile` (-), `C69_missing_percentage` (-), `C69_repeated_calls` (ESF) | As C68. The flags are right when the file has exactly the profiles of the source and these ascend; C69_other_profiles_refuted is the finding for a file with further profiles. C69_missing_percentage: the default meant for old files is never used (NameError is caught, KeyError raised). Several bounds stored in one row pass the check, which counts rows. |
| C70 | calibrated salinity applies one multiplicative conductivity factor per profile | `C70_one_factor` (ESFC), `C70_unit_factor` (ESF), `C70_series_independent` (ESFC), `C70_any_numbers` (-) | Extended reals; C70_any_numbers for every numeric carrier. gsw conversions are arbitrary functions; C70_unit_factor assumes SP_from_C inverts C_from_SP at the sample. Settings without break points (see C96). C70_series_independent excludes the Monte Carlo error of the factor, which depends on the generator. |
| C71 | configuration load is pure | `C71_load_pure` (-), `C71_keys_ascending` (-) | Python heap of lists and dictionaries; any history of calls and assignments. |
| C72 | find_10thetas discards rarely sampled levels, and level 0 with them | `C72_level_variance` (ESF) | interp1d assumed linear between two points inside their range. |
| C73 | find_10thetas level salinities interpolate between bracketing samples | `C73_tie_never_returns` (ESF), `C73_success` (ESF) | C73_success assumes an interp1d that does not raise. |
| C74 | find_10thetas candidate levels | `C74_candidate_levels` (ESF), `C74_shallow` (ESF) | interp1d arbitrary. |
| C75 | fit_cond never returns a fit with estimated break points | `C75_no_break_fit` (-) | Every numeric carrier, arbitrary optimiser and generator. |
| C76 | fit_cond ignores the initial_breaks option | `C76_initial_breaks_unused` (-) | Every numeric carrier, arbitrary optimiser and generator. |
| C77 | fit_cond without room for a line returns the weighted mean | `C77_constant_fit` (ESFC) | Real arithmetic, exact inverse. |
| C78 | fit_cond chooses between the weighted mean and the weighted least-squares line | `C78_line_or_constant` (ESFC), `C78_one_position` (ESFC) | Real arithmetic, exact det, solve, inverse; arbitrary finite noise. |
| C79 | fit_cond evaluates the line from the first profile, not the first valid one | `C79_shifted_line_refuted` (ESFC) | Finding. |
| C80 | fit_cond without valid data | `C80_no_data` (-) | Every numeric carrier. |
| C81 | map_data_grid is the best linear unbiased estimate | `C81_best_unbiased` (ESFC), `C81_best_unbiased_casts` (ESFC) | As C45. |
| C82 | map_data_grid: more casts never increase the error estimate | `C82_more_casts` (ESFC) | As C45; the additional casts are appended, C49 gives any other place. |
| C83 | cached database readers are transparent on an unchanging disk | `C83_cache_transparent` (-) | Key equality is decided by eqb; the values returned are not modified by the callers (get_region_data would modify arrays of length one, lines 335-341, which the reader never returns). |
| C84 | cached database readers serve stale data after the file changes | `C84_cache_stale` (-) | Finding. As C83. |
| C85 | SAF constraint fails on a repeated pressure | `C85_repeated_pressure` (-) | Finding. As C59. |
| C86 | a level is mapped in two stages of best unbiased estimates | `C86_two_stages` (ESFC), `C86_determined` (ESF), `C86_few_points` (ESFC) | Real arithmetic, exact np.linalg.inv. |
| C87 | mapping a level follows a change of salinity offset | `C87_shift` (ESFC) | As C86. |
| C88 | one level that cannot be mapped loses the whole float | `C88_equal_salinities` (ESFC), `C88_one_failure` (-) | np.linalg.inv raises on the zero matrix. Finding. |
| C89 | runs that cannot produce a mapped file | `C89_nothing_mapped` (-), `C89_older_file` (-) | Every numeric carrier. Finding. |
| C90 | which profiles and levels are skipped | `C90_skipped_profile` (-), `C90_skipped_level` (-) | Every numeric carrier. |
| C91 | depths of the historical casts are not those of the casts | `C91_depths` (-), `C91_aligned` (-), `C91_depths_refuted` (-) | Every numeric carrier with a NaN, without the SAF constraint; C91_depths_refuted is an evaluation over the integers. Finding. |
| C92 | a mapping run writes one file or none | `C92_failure` (-), `C92_one_file` (-), `C92_other_floats` (-) | Files are identified by normalised path; no symbolic links. |
| C93 | print_cfg lists every entry on its own aligned line | `C93_print` (-) | Strings of 8-bit characters; the conversion of values to text is arbitrary. |
| C94 | a calibration factor belongs to the profile at the same place in the order of the numbers | `C94_order` (ESFC), `C94_everything` (ESFC), `C94_ascending` (ESFC), `C94_not_ascending` (ESFC) | Extended reals, finite profile numbers. C94_not_ascending is the finding. Success of a run is exhibited over the integers (C94_witness). |
| C95 | series that can never be calibrated | `C95_repeated_number` (ESFC), `C95_single_profile` (ESFC) | Extended reals; C_from_SP of NaN is NaN. Finding. |
| C96 | prescribed break points never lead to a calibration | `C96_given_breaks` (ESFC) | Extended reals; C_from_SP of NaN is NaN. Finding. |
| C97 | a calibration run writes one file or none | `C97_files` (-), `C97_missing_file` (-), `C97_settings_found` (-), `C97_settings_refuted` (-) | Files are identified by their path strings; C97_settings_refuted is the finding. |
| C98 | settings that do not lead to a calibration | `C98_no_history` (ESFC), `C98_blank` (ESFC), `C98_no_percentage` (-) | C98_no_percentage for every numeric carrier. Finding. |
| C99 | no break point is ever saved | `C99_no_break_saved` (ESFC) | Extended reals. Finding (follows from C75). |
| C100 | legend of the theta-salinity plot | `C100_theta_sal_legend` (ESF), `C100_short_legend_refuted` (ESF), `C100_empty_legend_refuted` (ESF) | Extended reals, integer profile numbers. C100_short_legend_refuted and C100_empty_legend_refuted are the finding. |
| C101 | curves and error bars of the theta-salinity plot | `C101_theta_sal_profiles` (-) | Every numeric carrier. Colours and styles are not modelled. |
| C102 | trajectory plot | `C102_trajectory_limits` (ESF), `C102_trajectory_places` (ESF), `C102_trajectory_notes` (ESF), `C102_longitudes` (ESF), `C102_inside_limits_refuted` (ESF), `C102_neighbours_refuted` (ESF) | Real positions, at least one historical profile. The refuted theorems are the finding. Coastline, bathymetry and reef shapes are not modelled. |
| C103 | what the windows hide in the salinity variance plot | `C103_no_such_row` (ESF), `C103_kept_samples_shown_refuted` (EF), `C103_kept_samples_plotted_refuted` (ESF) | Finding. shown in Spec_Plots describes exactly what remains visible; C104 uses it. |
| C104 | values of the salinity variance plot | `C104_sal_var_values` (ESF) | Extended reals. interp1d is any function that is linear between two points. |
| C105 | anomaly plot is relative to the median | `C105_anomaly_outcome` (ESF), `C105_anomaly_balanced` (ESF), `C105_anomaly_offset` (ESF), `C105_anomaly_drift` (ESF), `C105_majority` (EF), `C105_few_samples` (ESF) | Extended reals. np.argsort is an arbitrary function; interp1d with bounds_error=False is any function that gives a number or NaN and follows a common offset. |
| C106 | floats with a single profile have no dashboard | `C106_single_anomaly` (-), `C106_single_dashboard` (-) | Every numeric carrier. Finding. |
| C107 | salinity curve plot | `C107_salinity_curve` (ESF), `C107_nothing_calibrated` (-) | Real values with gaps, arrays of matching lengths. |
| C108 | dashboard files are separate if show closes the figures | `C108_dashboard_files` (-) | Every numeric carrier. plt.show is assumed to close all figures (interactive backends). The witness is a run over the integers. |
| C109 | dashboard files are mixed up if figures stay open | `C109_open_figures` (-), `C109_same_files_refuted` (-) | Every numeric carrier. plt.show is assumed to leave figures open (non-interactive backends). Finding. |
| C110 | files of the salinity variance plot | `C110_sal_var_outcome` (ESF), `C110_too_many_levels` (ESF), `C110_single_profile_refuted` (ESF) | Extended reals, as C104; no_ties excludes the ValueError of two neighbours at the same distance. |
| C111 | files are handed from one stage to the next only with equal postfixes | `C111_mapped_file` (-), `C111_settings_calibration` (-), `C111_settings_dashboard` (-), `C111_calibration_dashboard` (-), `C111_dashboard_after_calibration` (-) | Files are identified by normalised path (first four theorems) or by path string (last one). Finding; the default configuration has equal postfixes. |
| C112 | SAF constraint keeps the casts on the float's side, read without their last row | `C112_kept_casts` (-), `C112_last_row_unused` (-), `C112_all_levels_refuted` (-) | Every numeric carrier; np.interp and the gsw conversions are arbitrary functions. C112_all_levels_refuted is the finding: the criterion does not use all levels of a cast. |
| C113 | SAF constraint decides by the envelopes between 3 and 5 degrees | `C113_envelope` (-), `C113_shallow_float` (-), `C113_spanning` (ESF) | Every numeric carrier; np.interp is an arbitrary function. A temperature of 300 dbar that is missing counts as not deciding. |
| C114 | error returned with a constant offset | `C114_error_of_constant` (ESFC), `C114_constant_is_weighted_mean` (EF), `C114_standard_error_if_independent` (ESF), `C114_standard_error_if_equal` (ESF), `C114_never_smaller` (ESF), `C114_standard_error_refuted` (ESFC) | Extended reals. np.linalg.inv is assumed to return an inverse of every invertible real matrix (inv_ok). C114_standard_error_refuted is the finding: P of the code multiplies lvcov by w, E and the error of one sample only. |
| C115 | error of the slope returned with a line | `C115_derivative_error_of_line` (ESFC), `C115_slope_of_best_line` (EF), `C115_variance_if_independent` (EF), `C115_scatter_positive` (EF), `C115_standard_error_refuted` (ESFC) | Extended reals, inv_ok as in C114. C115_standard_error_refuted is the finding: time_deriv_err is a variance, multiplied once by y_scale/x_scale where a variance needs the square. |
| C116 | small reference files are lost | `C116_single_cast` (-), `C116_few_levels` (-), `C116_refuted` (-) | Every numeric carrier with a NaN. read_mat drops dimensions of length one (squeeze_me=True of pymatreader): a number has no length, a 1-d array no columns; both exceptions are swallowed. C116_refuted is an evaluation. Finding. |
| C117 | mapping by a pool of processes equals mapping one by one | `C117_separate` (-), `C117_parallel` (-), `C117_each_float` (-), `C117_succeeds` (-), `C117_terminates` (-), `C117_executes` (-) | Every numeric carrier. A process reads the source file, then the mapped file, then writes the mapped file, each in one step; chunks are contiguous parts of the list. separate: no file written for one float is read or written for another. The calculation of a profile is an arbitrary function of the float and its source (it reads reference data that nothing writes, and seeds its random numbers). |
| C118 | what a failing run of the script leaves | `C118_one_processor` (-), `C118_not_mapped` (-), `C118_not_calibrated` (-) | Every numeric carrier, calculation, fit and plot functions. Hypothesis of the third theorem: equal postfixes of mapped and calibration files (as in the default configuration; C111) and a float directory without name ("/"). |
| C119 | the floats of a run do not influence each other | `C119_products` (-), `C119_independent` (-), `C119_calibrations` (ESFC) | Every numeric carrier for the first two theorems; the third for the extended reals with the modelled fit, rectangular sources and settings without given breaks. |
| C120 | a complete first run | `C120_first_run` (ESFC) | Extended reals; np.argsort sorts. Composition of C63, C65, C68 and C70. The second part of the witness is an evaluation over integers. |
| C121 | a second run changes nothing | `C121_second_run` (ESFC) | As C120. The second run may use another configuration and calculation. |
| C122 | one depth of the sea floor for every position | `C122_one_depth` (EF), `C122_longitude` (EF), `C122_float` (ESFC), `C122_positions` (ESF), `C122_casts` (ESFC), `C122_calibration` (ESF), `C122_pole` (ESF) | Real positions, interp2d bilinear within the cells of the grid (an assumption on scipy; C122_witness has an instance). Success of a mapping in C122_float and C122_casts is exhibited over integers (C91_witness); C122_positions and C122_calibration state success. C122_casts without the SAF constraint; which casts are given which of the depths is C91. |
| C123 | the calibration recovers a constant offset and a linear drift | `C123_offset` (ESFC), `C123_drift` (ESFC), `C123_salinity` (ESFC), `C123_drift_refuted` (ESFC) | Extended reals, the interpolations and the equation of state arbitrary; det, solve and inv of numpy exact, randn finite. The hypothesis that the run completes is C124 for at most a line. C123_salinity assumes that the equation of state inverts at the sample. Exact recovery of a drift is refuted for series whose first profile has no sample (C123_drift_refuted). |
| C124 | the calibration completes | `C124_completes` (ESFC) | As C123, interp1d total. With more than a line allowed the run depends on scipy least_squares and is not covered. That the levels chosen have samples is a hypothesis on the result of find_10thetas (characterised in C24-C26 and C72-C74). |
| C125 | sorter in double precision | `C125_sorter_counts` (ESFC), `C125_sorter_general` (ESFC) | Binary64 (Flocq), round to nearest even. |
| C126 | wrap_longitude in double precision | `C126_wrap_range` (ESFC), `C126_wrap_near` (ESFC), `C126_wrap_seam` (ESFC), `C126_wrap_idempotent` (ESFC), `C126_wrap_exact_refuted` (ESFC) | Binary64. C126_wrap_exact_refuted is an evaluation at -0.1. |
| C127 | dates in double precision | `C127_cal2dec_order` (ESFC), `C127_change_dates_order` (ESFC), `C127_feb29_collides` (ESFC) | Binary64. |
| C128 | the 25 boxes in double precision | `C128_boxes` (ESFC), `C128_boxes_refuted` (ESFC) | Binary64. C128_boxes_refuted is the finding, an evaluation at 39.99; the same happens at other edges. |
| C129 | covariances in double precision | `C129_covariance_transposed` (ESFC), `C129_covariance_bounds` (ESFC) | Binary64 with arbitrary exp and sin; x**2 is x*x rounded (numpy squares arrays so). |
| C130 | distances in double precision are symmetric | `C130_spatial_symmetric` (ESFC), `C130_ellipse_symmetric` (ESFC) | Binary64; x**2 is x*x rounded, and infinite where Python raises OverflowError for floats. |
| C131 | variances in double precision | `C131_signal_variance` (ESFC), `C131_noise_variance` (ESFC), `C131_constant_refuted` (ESFC) | Binary64; sums from left to right (numpy sums eight and more numbers in another order: neither the signs nor the zeros depend on it). |
| C132 | nearest_neighbour in double precision | `C132_nearest` (ESFC) | Binary64. |
| C133 | find_besthist in double precision | `C133_search_valid` (ESFC), `C133_search_shares` (ESFC), `C133_search_completes` (ESFC) | Binary64 with arbitrary exp and sin; x**2 is x*x rounded, and infinite where Python raises OverflowError for floats (the bounds of C133_search_completes exclude it). Random numbers are finite doubles in [0,1); the sort is any argsort with NaN last. |
| C134 | A bias of the reference salinities goes unchanged into the mapped salinities | `C134_profile` (ESFC), `C134_file` (ESFC) | Real arithmetic, exact inverse. Positions, dates and depths are numbers (hypotheses positions_known, float_known, soundings); salinities, temperatures and pressures may be NaN or missing. Levels with noise 0 are excluded: there the code raises LinAlgError (C88). The range 30 to 40 is the one applied when the file is written. C134_witness is a complete run over the reals (six casts, one profile). |
| C135 | The mapping does not use the salinities to be calibrated | `C135_own_salinity` (E), `C135_frontal_criterion_refuted` (-) | Every numeric carrier. The refuted theorem is the finding: frontal_constraint_saf decides by the salinity that is to be calibrated when the temperature at 300 dbar is between 3 and 5 degrees. The witness is the run over the reals of C134. |
| C136 | A level is mapped from its own temperature and the position, date and pressures of its profile | `C136_level` (-), `C136_file` (-), `C136_marked` (-) | Every numeric carrier. In C136_file, own gives the profile whose values are in a column; it is not always the one the column is labelled with (C65). |
| C137 | Around Greenwich the float and its reference casts are compared on the same side, unless all casts are on the other side | `C137_differences` (ESF), `C137_selection` (ESFC), `C137_levels` (ESFC), `C137_lost` (ESFC), `C137_same_side_refuted` (ESF) | Over the reals. pos gives the place of each cast seen from the float, without jump at 360; located ties it to the recorded longitude. C137_levels also needs the condition for the selected casts, since their longitudes are wrapped again without the others. C137_same_side_refuted is the finding in its smallest form: float at 5 E, casts at 350 and 355. |
| C138 | A mapped level, from the casts of the database to the entries of the file | `C138_level` (ESFC), `C138_file` (ESF) | Over the reals. points_from (Spec_Whole) says which points the chosen casts give, in terms of their own samples; the depth with which a cast enters is the one the code gives it, which is that of another cast if the selection is not in ascending order (C91). The search is characterised by C14 to C17; the first selected cast has to have levels above the limit, otherwise get_region_data starts with an empty array. Where the noise is not positive see C88. The witness has a level mapped from six casts and the run of C134. |
| C139 | The mapping of a float completes | `C139_profile` (ESFC), `C139_run` (ESFC) | Over the reals, with the assumed behaviour of the oracles recorded in rand_ok, argsort_ok, inv_ok, sorting and answers (interp2d gives a number wherever it is asked). The set of conditions is the predicate ready of Spec_Completes. The selected casts themselves are characterised by C14 to C17, the values of the levels by C138. Witness: the float between six casts meets every hypothesis, and its run ends by C139_run itself. |
| C140 | The mapped file names the settings with which each profile was mapped | `C140_settings` (ESF) | Found missing by a seeded edit that exchanged two settings. run_settings (Spec_Settings) lists key and setting independently of the model. The witness is the run over six casts (C134). |
| C141 | What the mapping does not depend on: the random generator, MAX_CASTS while it is not reached, MAP_P_EXCLUDE for the levels below | `C141_random` (E), `C141_state` (E), `C141_exclude` (-) | For every carrier. C141_state also justifies that the model starts each profile from one state of the generator. at_most (Spec_Quota) counts casts in the ellipse with find_ellipse itself, whose meaning is C13. |
| C142 | Interpolation of the climatology in double precision | `C142_near` (ESFC), `C142_raises` (ESFC), `C142_pressure_range_refuted` (ESFC) | Flocq binary64 with round to nearest even. Inputs are read as the reals they stand for (reals, real3 in Spec_FloatInterp) and compared with the exact interpolation of C50; C142_pressure_range_refuted is the finding (one unit in the last place outside). |
| C143 | The plot of the chosen levels | `C143_completes` (-), `C143_panels` (-) | For every carrier. Written after a seeded edit (lines at the wrong sign of the pressure) that only an inner lemma noticed. The levels passed in are those of find_10thetas by C108. |
| C144 | Mapping a level under changes of order, unit, origin and hemisphere | `C144_order` (ESFC), `C144_order_refuted` (ESFC), `C144_unit` (ESFC), `C144_origin` (ESFC), `C144_hemisphere` (ESFC) | About map_level (the part of update_salinity_mapping between the interpolation and the storage), whose inputs are pinned to the database by C138. The condition untied is needed: see C144_order_refuted. a = 0 would make all salinities equal, for which the covariance is singular (C88). |
| C145 | The error of a fitted line | `C145_error_of_line` (ESFC), `C145_line_is_combination` (EF), `C145_spread_of_lines_if_independent` (ESF), `C145_factor_is_ratio_of_variances_refuted` (EF) | Written after two seeded edits of the Monte-Carlo loop (draws not scaled by the error, absolute instead of squared deviations) that no theorem noticed. That the returned coefficients are the best line is C78, used here as a hypothesis. Where the factor is negative the code takes the root of a negative number; this is not covered. |
| C146 | Only the reference casts in the large ellipse matter | `C146_level` (ESFC), `C146_elsewhere` (ESFC) | Both runs are assumed to find the levels of the profile (C139 says when they do). With the vorticity the depths decide which casts are in the ellipse, and these are interpolated in a piece of the sea floor grid whose extent depends on all casts, so the claim is made without it. |
| C147 | How large and how small the error of a mapped level is | `C147_mapping` (ESFC), `C147_level` (ESFC), `C147_two_stages` (ESFC) | Over the reals with an exact inverse. C147_two_stages carries the bounds over to the value and error that C138 finds in the file. The range check of the salinities (C66) comes after. |
| C148 | Which prescribed break points are accepted | `C148_breaks` (ESFC) | Sharpens C96. Written after two seeded edits of the checks of the break points (infinite breaks counted, number of rows not compared) that no theorem noticed. Limits of several or no numbers in a row are not covered. |
| C149 | What the fit of a calibration series is given | `C149_fit_input` (ESFC), `C149_levels` (-) | Written after a seeded edit (levels of the first profile used for all) that no theorem noticed, because the specification of C123 shared the helper valid_levels (it now has its own levels_of). Errors at empty places are not stated: such samples are ignored by the fit as their value is missing. |

## Testing the theorems against wrong programs

One definition of the model at a time was changed in a scratch copy to a mistake that could be made in the Python
(an index off by one, a missing branch, exchanged arguments, a dropped check) and everything was built again with
`make -k`.  A line of `seeded/LOG.jsonl` records the definition, the edit, the claim, the lemmas at which the build
stopped (`proof_stopped_at`), the property theorems that thereby cannot be proved (`theorems_failed`) and what was
tightened.  A lemma that stops is usually the one giving the value of the edited function, so whether the
*statement* of the theorem becomes false was judged by reading it; edits that no claim excludes are recorded as such.

## Plans made before the proofs

| id | plan |
|---|---|
| C01 | model `spatial_correlation` over any `Num`; prove at exact reals by ring/sum-of-squares. |
| C02 | model `sorter` with a concrete stable argsort; spec = `count_le`; induction over merge of boundary/sites. |
| C03 | same model; show result depends on sites only through their sorted permutation; refutation witness. |
| C04 | model as elementwise map with global flag; spec: exists integer k, out = in + 360k. |
| C05 | same model; case analysis. |
| C06 | same model; exact condition on singleton view vs array view + witness. |
| C07 | model with `sin`/`pi` from the reals; use monotonicity/sign lemmas of `sin`. |
| C08 | model with python negative indexing and error values; decide all integers. |
| C09 | lexicographic order on fields; linear arithmetic. |
| C10 | model strings as Coq `string`/ascii lists with python `int()` parsing; frame lemma over lists. |
| C11 | digits <-> fields printing function in Spec; uses C09. |
| C12 | same printing function plus the `.0` suffix. |
| C13 | model; `sqrt` lemmas. |
| C14 | model with random stream and unstable argsort as oracles constrained only by 'values in [0,1)' and 'permutation sorted by key'. |
| C15 | same model; counting with `unique`. |
| C16 | same model; evaluate quotas. |
| C17 | same model; sortedness of oracle argsort. |
| C18 | model RNG as state machine: `seed` resets the state; independence from initial state. |
| C19 | same model at exact reals; witness computed. |
| C20 | model argmin; spec by minimality and firstness. |
| C21 | model; explicit floor characterisation of nearest grid cell. |
| C22 | same. |
| C23 | same. |
| C24 | model final selection loop and whole function; selection-sort invariant. |
| C25 | model masks and theta_level_indices. |
| C26 | spec predicate `kept` separate from the sequence of argwhere loops. |
| C27 | error value of the model. |
| C28 | nanvar over list; sums of squares. |
| C29 | model nearest search; bounds. |
| C30 | model; exp lemmas. |
| C31 | power-series (Schur product) proof that exp(-(x-y)^2) is PSD, Cauchy kernel for the PV factor. |
| C32 | equalities between parameter positions. |
| C33 | index arithmetic on blocks. |
| C34 | witness + conditional symmetry. |
| C35 | model interp1d bounds error. |
| C36 | model with oracle inverse (spec: two-sided inverse); Pythagoras identity. |
| C37 | basis matrix model from `sorter`. |
| C38 | direct from model. |
| C39 | exp/log round trip. |
| C40 | sum of reciprocal row sums. |
| C41 | model of the option parser. |
| C42 | integer inequalities. |
| C43 | index arithmetic + witness. |
| C44 | permutation argument. |
| C45 | oracle inverse of the covariance; linear algebra over lists/functions of indices. |
| C46 | linear algebra. |
| C47 | PSD (C31) + noise => kernel trivial => invertible; Schur complement for radicands. |
| C48 | linear algebra. |
| C49 | sums under permutation. |
| C50 | model column by column; spec via existential bracket. |
| C51 | same. |
| C52 | same. |
| C53 | same. |
| C54 | integer address arithmetic of the 2160x4320 int16 file. |
| C55 | boxes and files as lists. |
| C56 | same; running counter invariant. |
| C57 | same; witness and general statement. |
| C58 | substring search over strings. |
| C59 | filter by mask, truthiness of numpy arrays. |
| C60 | invariant by induction over casts and calls. |
| C61 | Chebyshev inequality over lists. |
| C62 | filter/aligned arrays. |
| C63 | file system as value; mapping kernel as oracle per profile. |
| C64 | same. |
| C65 | permutation algebra. |
| C66 | same. |
| C67 | same. |
| C68 | same. |
| C69 | same. |
| C70 | conductivity conversions as oracle pair with inverse law. |
| C71 | association list of keys; ascii order. |
