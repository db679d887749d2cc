{"id": "C01", "title": "spatial_correlation is a squared scaled distance", "statement": "For finite arguments and non-zero scales, spatial_correlation returns a finite non-negative number, returns the same number when the two points are exchanged, and (when no vorticity is supplied) returns 0 exactly when the two points coincide in longitude, latitude and date. A zero longitude, latitude or age scale raises ZeroDivisionError.", "quantifier": "all pairs of points, all non-zero scales, with and without potential vorticity", "why_tests_cant": "The claim is about every real-valued pair of points and scale; a test fixes finitely many.", "anchors": ["pyowc/utilities.py: spatial_correlation"]}
{"id": "C02", "title": "sorter counts the boundaries at or below each site", "statement": "For any boundary array and any ascending array of sites, entry k of sorter(boundaries, sites) equals (number of boundaries <= sites[k]) - 1; the boundaries themselves need not be sorted.", "quantifier": "all arrays of any length, with ties and repeated values", "why_tests_cant": "Correctness depends on tie-breaking for arbitrary interleavings and lengths; examples cover a handful.", "anchors": ["pyowc/utilities.py: sorter"]}
{"id": "C03", "title": "sorter answers for the sorted sites, not the given order", "statement": "For arbitrary (unsorted) sites the result of sorter is the interval numbers of the sites in ascending order: it has one entry per site, is non-decreasing, lies in [-1, nb-1], and equals the result for the sorted sites. Hence the k-th entry is not in general the interval of sites[k].", "quantifier": "all boundary and site arrays", "why_tests_cant": "The existing tests use only sorted or constant sites, so the order defect never shows.", "anchors": ["pyowc/utilities.py: sorter"]}
{"id": "C04", "title": "wrap_longitude keeps every position on the globe", "statement": "wrap_longitude returns an array of the same length whose k-th element is congruent to the k-th input modulo 360 degrees; inputs in [-360, 360] end up in [0, 400].", "quantifier": "all finite longitude arrays of any length", "why_tests_cant": "Ranges over all arrays of reals; tests pick three arrays.", "anchors": ["pyowc/utilities.py: wrap_longitude"]}
{"id": "C05", "title": "wrap_longitude is idempotent and never splits the seam", "statement": "For longitudes in [-360,360]: wrapping twice equals wrapping once, and the output never contains both a value >= 320 and a value <= 40, so casts either side of the Greenwich meridian are contiguous.", "quantifier": "all longitude arrays with entries in [-360,360]", "why_tests_cant": "Needs every combination of values near both edges of the seam.", "anchors": ["pyowc/utilities.py: wrap_longitude"]}
{"id": "C06", "title": "wrap_longitude of one cast depends on the other casts", "statement": "The wrapped longitude of a cast is not a function of that cast alone: the same cast at longitude l in [0,40] is returned as l or as l+360 according to whether any other element of the array is >= 320 (or in [-40,0)). Consequently the region-wide call and the selected-subset call can disagree by 360 degrees for the same cast, and exactly this condition decides it.", "quantifier": "all arrays and all sub-selections of them", "why_tests_cant": "Concerns the relation between two calls on related inputs; unit tests check single calls.", "anchors": ["pyowc/utilities.py: wrap_longitude", "pyowc/data/fetchers.py: get_region_data", "pyowc/data/fetchers.py: get_region_hist_locations"]}
{"id": "C07", "title": "potential_vorticity is never zero and has the sign of latitude", "statement": "For non-zero depth potential_vorticity returns a non-zero number equal to 2*7.292e-5*sin(lat)/depth except at the equator where it returns the 1e-5 floor; for latitudes strictly between -90 and 90 off the equator and positive depth its sign is the sign of the latitude; it is odd in latitude off the equator; depth zero raises ZeroDivisionError.", "quantifier": "all latitudes and depths", "why_tests_cant": "Quantifies over a continuum.", "anchors": ["pyowc/utilities.py: potential_vorticity"]}
{"id": "C08", "title": "cal2dec error discipline", "statement": "cal2dec either returns a value or raises ValueError; it raises exactly when the month index is outside [-13,12] or the computed day-of-year exceeds 366. Month indices -13..-1 and 12 are silently accepted.", "quantifier": "all integer months, days, hours, minutes", "why_tests_cant": "Boundary behaviour over all integers; two values are tested.", "anchors": ["pyowc/utilities.py: cal2dec"]}
{"id": "C09", "title": "cal2dec is strictly increasing in calendar order", "statement": "For genuine calendar fields of a non-leap year (month 0..11, day 1..length of month, hour 0..23, minute 0..59), cal2dec returns the exact elapsed days since new year, lies in [0,365), and a chronologically later date gets a strictly larger value.", "quantifier": "all pairs of calendar dates in a year", "why_tests_cant": "About all pairs of dates.", "anchors": ["pyowc/utilities.py: cal2dec"]}
{"id": "C10", "title": "change_dates is pointwise and total", "statement": "change_dates never raises: it returns one value per input date, each depending only on the textual form of that date; a date whose fields do not parse, or whose month is not 1..12 or day not 1..31, gives 0 and does not disturb its neighbours.", "quantifier": "all lists of date strings", "why_tests_cant": "Every possible string and every list length.", "anchors": ["pyowc/utilities.py: change_dates"]}
{"id": "C11", "title": "change_dates orders dates chronologically across years", "statement": "For two genuine non-leap-calendar timestamps written YYYYMMDDhhmm[ss], the earlier gets a strictly smaller decimal year, and a date in year y lies in [y, y+1). The order is broken only by 29 February, which collides with 1 March.", "quantifier": "all pairs of timestamps", "why_tests_cant": "All pairs over the whole calendar.", "anchors": ["pyowc/utilities.py: change_dates", "pyowc/utilities.py: cal2dec"]}
{"id": "C12", "title": "change_dates rejects short float-typed dates", "statement": "When an 8 or 10 digit date is supplied as a float (text form ending in '.0') change_dates returns 0 for it, while the same date supplied as an integer is converted; 12 and 14 digit dates give the same result in both forms.", "quantifier": "all well-formed 8, 10, 12 and 14 digit dates", "why_tests_cant": "Relates two textual encodings over all dates.", "anchors": ["pyowc/utilities.py: change_dates"]}
{"id": "C13", "title": "find_ellipse measures a scaled distance", "statement": "For finite inputs and non-zero sizes find_ellipse returns sqrt((dlong/(3*sizelong))^2 + (dlat/(3*sizelat))^2 + pv^2): non-negative, symmetric under exchanging point and centre, zero at the centre, and below 1 exactly for points strictly inside the triple-size ellipse; enlarging the sizes never excludes a point that was inside.", "quantifier": "all finite points, centres, sizes", "why_tests_cant": "Continuum of inputs.", "anchors": ["pyowc/core/finders.py: find_ellipse"]}
{"id": "C14", "title": "find_besthist returns valid, distinct, in-ellipse casts", "statement": "Whenever find_besthist returns, every returned index addresses an existing historical cast that lies strictly inside the large-scale ellipse around the float and no cast is returned twice (for max_casts = 3 or >= 5, or whenever at most max_casts casts lie inside).", "quantifier": "all grids of any size, any random stream, any tie-breaking of the unstable sort", "why_tests_cant": "Holds for every random draw and every permutation the sort may choose among ties.", "anchors": ["pyowc/core/finders.py: find_besthist"]}
{"id": "C15", "title": "find_besthist returns min(available, max_casts) casts", "statement": "If n casts lie inside the ellipse, find_besthist returns exactly n casts in ascending order when n <= max_casts, and exactly max_casts casts when n > max_casts and max_casts is 3 or at least 5.", "quantifier": "all grids, all max_casts", "why_tests_cant": "Count must hold for every draw of the random third, including collisions.", "anchors": ["pyowc/core/finders.py: find_besthist"]}
{"id": "C16", "title": "find_besthist small-quota behaviour", "statement": "For more in-ellipse casts than the quota: max_casts of 0, 2 or 4 (and every negative value) always raises ValueError, and max_casts = 1 raises ValueError with 2 or 3 in-ellipse casts and otherwise returns n-1 casts instead of 1.", "quantifier": "all grids and all random streams", "why_tests_cant": "Quantifies over all grids; the tests use only 300.", "anchors": ["pyowc/core/finders.py: find_besthist"]}
{"id": "C17", "title": "find_besthist picks the closest casts for its non-random share", "statement": "Among casts not drawn at random, every cast selected for the large-scale share has a large-scale separation no greater than every cast not selected for it, and every cast in the small-scale share has a small-scale separation no greater than every cast left out entirely.", "quantifier": "all grids with finite positions and dates, without PV", "why_tests_cant": "Optimality over all candidate sets of any size.", "anchors": ["pyowc/core/finders.py: find_besthist"]}
{"id": "C18", "title": "find_besthist is reproducible", "statement": "The result depends only on the arguments: it does not depend on the state of the global random generator when the call is made.", "quantifier": "all prior generator states, all arguments", "why_tests_cant": "Quantifies over hidden global state.", "anchors": ["pyowc/core/finders.py: find_besthist"]}
{"id": "C19", "title": "find_besthist ranks by the wrong PV term", "statement": "With the PV option on, the separation used to rank casts passes potential vorticities in the positions of the scale and the scale in the position of a vorticity: its PV contribution is ((phi - pv_float)/sqrt(phi^2+pv_float^2)/pv_hist)^2, not ((pv_float-pv_hist)/sqrt(..)/phi)^2, and there are inputs where a cast with identical position, date and vorticity ranks behind one with a different vorticity. With the option off both agree.", "quantifier": "all casts", "why_tests_cant": "Tests check only count and type of the result.", "anchors": ["pyowc/core/finders.py: find_besthist", "pyowc/utilities.py: spatial_correlation"]}
{"id": "C20", "title": "nearest_neighbour returns the closest table cell", "statement": "nearest_neighbour returns table[j,i] where i (j) is the smallest index minimising the distance of the input to the axis value.", "quantifier": "all axes, tables and inputs", "why_tests_cant": "All table sizes and inputs.", "anchors": ["pyowc/core/finders.py: nearest_neighbour"]}
{"id": "C21", "title": "find_25boxes returns the 5x5 neighbourhood", "statement": "For longitude in [0,360) and latitude in [-70,69.98] (so that no row is clamped) the 25 rows are those of the 10-degree boxes covering the float's (slightly shifted) position and its neighbours at offsets -20,-10,0,10,20 degrees in both directions, with longitude taken modulo 360; each box row contains the shifted point; the first row is the box of the float itself.", "quantifier": "all longitudes and latitudes", "why_tests_cant": "A continuum of positions including every box edge; the tests use one point.", "anchors": ["pyowc/core/finders.py: find_25boxes", "pyowc/core/finders.py: nearest_neighbour"]}
{"id": "C22", "title": "find_25boxes duplicates boxes near the poles and only there", "statement": "The 25 returned rows are pairwise distinct exactly when no shifted latitude is clamped to the outermost row of boxes; poleward of that the same box appears at least twice (and its historical data are then used twice).", "quantifier": "all longitudes in [0,360), all latitudes", "why_tests_cant": "Needs all latitudes; single mid-latitude tested.", "anchors": ["pyowc/core/finders.py: find_25boxes", "pyowc/data/fetchers.py: get_region_data"]}
{"id": "C23", "title": "find_25boxes propagates missing positions", "statement": "If longitude or latitude is NaN every entry of the 25x4 result is NaN; otherwise all 25 rows are rows of the supplied box table (no NaN filler), for any table with 648 rows.", "quantifier": "all positions and tables", "why_tests_cant": "All inputs.", "anchors": ["pyowc/core/finders.py: find_25boxes"]}
{"id": "C24", "title": "find_10thetas picks the minimum-variance levels", "statement": "The returned levels are pairwise distinct candidate levels in non-decreasing order of salinity variance, there are exactly min(10, number of candidate levels with a variance and enough profiles) of them, and no unreturned candidate has a smaller variance than a returned one.", "quantifier": "all profile matrices of any shape and any NaN pattern", "why_tests_cant": "Optimality and counting over arbitrary matrices.", "anchors": ["pyowc/core/finders.py: find_10thetas"]}
{"id": "C25", "title": "find_10thetas excluded samples are never used", "statement": "No returned index points to a sample that was unmapped or outside the configured temperature/pressure windows, every index addresses a row of its profile, and it is the first row nearest in temperature to the chosen level.", "quantifier": "all matrices, bounds", "why_tests_cant": "All masks and bounds.", "anchors": ["pyowc/core/finders.py: find_10thetas"]}
{"id": "C26", "title": "find_10thetas window semantics", "statement": "With only a 'less than' bound samples strictly above it are discarded; with only a 'greater than' bound samples strictly below it are discarded; with both and lt < gt the open band between them is discarded, otherwise everything outside the closed band [gt, lt] is discarded. Samples exactly on a bound are always kept.", "quantifier": "all samples and bounds", "why_tests_cant": "All boundary placements.", "anchors": ["pyowc/core/finders.py: find_10thetas"]}
{"id": "C27", "title": "find_10thetas fails on a narrow temperature range", "statement": "If after exclusion the temperature range contains no two distinct multiples of 0.1 degree (ceil(10*min)/10 >= floor(10*max)/10), or no sample is left, find_10thetas raises UnboundLocalError instead of returning no levels.", "quantifier": "all matrices", "why_tests_cant": "Tests only exercise wide ranges.", "anchors": ["pyowc/core/finders.py: find_10thetas"]}
{"id": "C28", "title": "signal_variance is the population variance of the valid values", "statement": "signal_variance raises RuntimeError exactly when no value is valid; otherwise it is non-negative, ignores NaN entries wherever they are, is unchanged by adding a constant, scales with the square of a factor, does not depend on order, and is 0 exactly when all valid values are equal.", "quantifier": "all lists of values with any NaN pattern", "why_tests_cant": "Algebraic laws over all inputs.", "anchors": ["pyowc/core/stats.py: signal_variance"]}
{"id": "C29", "title": "noise_variance is half the mean squared nearest-neighbour difference", "statement": "For finite positions noise_variance never raises; it is 0 when all casts coincide; otherwise it is half the mean, over the casts for which it exists, of the squared salinity difference to the first of the nearest casts at another position (NaN if no such difference exists). Hence it is non-negative, unchanged by adding a constant to the salinities, and at most half the largest squared salinity difference.", "quantifier": "all cast lists of any length", "why_tests_cant": "All configurations including coincident points.", "anchors": ["pyowc/core/stats.py: noise_variance"]}
{"id": "C30", "title": "covar_xyt_pv is a correlation", "statement": "Every entry lies in (0,1], equals 1 when both points coincide, and exchanging the two point sets transposes the matrix.", "quantifier": "all point sets with finite coordinates and non-zero scales, with PV off, or with PV on for non-empty sets with non-zero depths", "why_tests_cant": "All point sets.", "anchors": ["pyowc/core/stats.py: covar_xyt_pv"]}
{"id": "C31", "title": "covar_xyt_pv of a point set is positive semidefinite", "statement": "For every point set the self-covariance matrix K satisfies sum_ij w_i w_j K_ij >= 0 for every weight vector w (PV on or off).", "quantifier": "all point sets of any size, all weights, all non-zero scales, with non-zero depths if PV is on", "why_tests_cant": "An algebraic property of an infinite family of matrices.", "anchors": ["pyowc/core/stats.py: covar_xyt_pv", "pyowc/data/wrangling.py: map_data_grid"]}
{"id": "C32", "title": "covariance scale arguments are crossed over, pipeline compensates", "statement": "covar_xyt_pv divides the first coordinate (latitude) by its parameter named long and the second (longitude) by the one named lat; update_salinity_mapping passes them exchanged so in the pipeline latitude is divided by the latitude scale and longitude by the longitude scale, whereas calc_piecewisefit passes coordinates to covarxy_pv in the other order, so there longitude is divided by the latitude scale and PV is computed from longitude.", "quantifier": "all points and scales", "why_tests_cant": "Tests hard-code the existing numbers.", "anchors": ["pyowc/core/stats.py: covar_xyt_pv", "pyowc/core/stats.py: covarxy_pv", "pyowc/core/stats.py: build_cov", "pyowc/calibration.py: update_salinity_mapping", "pyowc/calibration.py: calc_piecewisefit"]}
{"id": "C33", "title": "build_cov block structure", "statement": "For ptmp of m levels by n profiles build_cov returns an (nm)x(nm) matrix whose entry (a*m+i, b*m+j) is the horizontal correlation of profiles a,b times the vertical correlation of levels i,j of profile a; all entries are in (0,1] and the diagonal is 1.", "quantifier": "all shapes and values within the tabulated temperature range", "why_tests_cant": "All shapes.", "anchors": ["pyowc/core/stats.py: build_cov"]}
{"id": "C34", "title": "build_cov is not symmetric in general", "statement": "build_cov's matrix is symmetric when every profile is isothermal and the planetary vorticity is off or nonzero everywhere; but there are inputs (already one profile with two temperatures, or two profiles of which one has zero vorticity, or two different profiles) for which entry (p,q) differs from entry (q,p).", "quantifier": "all inputs", "why_tests_cant": "Symmetry is an all-pairs property.", "anchors": ["pyowc/core/stats.py: build_cov"]}
{"id": "C35", "title": "build_cov rejects out-of-range temperatures", "statement": "With at least two levels, build_cov raises ValueError exactly when some temperature that is not NaN is outside [-2,30]; with a single level temperatures are never looked at.", "quantifier": "all matrices", "why_tests_cant": "All values.", "anchors": ["pyowc/core/stats.py: build_cov"]}
{"id": "C36", "title": "brk_pt_fit is the weighted least-squares optimum", "statement": "When the normal matrix is invertible the returned coefficients minimise the weighted sum of squared residuals over all coefficient vectors, the residual is y minus the fitted values, and no other coefficient vector attains the same sum.", "quantifier": "all data, weights, breakpoint sets", "why_tests_cant": "Optimality over all coefficient vectors.", "anchors": ["pyowc/core/stats.py: brk_pt_fit"]}
{"id": "C37", "title": "brk_pt_fit fits a continuous piecewise-linear curve exactly", "statement": "The basis built by brk_pt_fit represents, for ascending x, a continuous function that is linear between breakpoints; if the data already are such a function and the normal matrix is invertible the residual is zero and the coefficients are recovered.", "quantifier": "all data and breakpoints", "why_tests_cant": "All functions of the class.", "anchors": ["pyowc/core/stats.py: brk_pt_fit", "pyowc/utilities.py: sorter"]}
{"id": "C38", "title": "brk_pt_fit refuses mismatched or singular problems", "statement": "If x and y have different lengths, or the determinant is zero, the coefficients are all zero and the residual equals y.", "quantifier": "all inputs", "why_tests_cant": "All shapes.", "anchors": ["pyowc/core/stats.py: brk_pt_fit"]}
{"id": "C39", "title": "fit_cond break parameterisation is ordered and onto", "statement": "Every real parameter vector is mapped to strictly increasing breakpoints strictly inside the x-range, and every strictly increasing interior break vector is reached: encoding it and decoding returns it.", "quantifier": "all parameter vectors of any length", "why_tests_cant": "Continuum.", "anchors": ["pyowc/core/stats.py: fit_cond", "pyowc/core/stats.py: nlbpfun"]}
{"id": "C40", "title": "fit_cond effective sample size", "statement": "The number of degrees of freedom computed from a correlation matrix with unit diagonal and entries in [0,1] lies between 1 and the number of points, equals the number of points for independent data and 1 for fully correlated data.", "quantifier": "all matrices of any size", "why_tests_cant": "All matrices.", "anchors": ["pyowc/core/stats.py: fit_cond"]}
{"id": "C41", "title": "fit_cond argument handling", "statement": "Given at least one valid sample, fit_cond raises ValueError for an option without a value and for an unknown option name preceded only by well-formed options, and TypeError when neither max_no_breaks nor number_breaks is given; no random number is drawn before.", "quantifier": "all data with a valid sample, all argument lists", "why_tests_cant": "All option lists.", "anchors": ["pyowc/core/stats.py: fit_cond"]}
{"id": "C42", "title": "fit_cond considers only models with positive residual degrees of freedom", "statement": "Without prescribed breaks the candidates are the constant and every number of breaks from none up to the largest that does not exceed the requested maximum and leaves five effective observations more than twice that number; if any other than the constant is scored, all scored models have denominators of at least one in the criterion, and the chosen candidate has the least criterion among those scored.", "quantifier": "all sample sizes and requested maxima", "why_tests_cant": "All degrees-of-freedom combinations.", "anchors": ["pyowc/core/stats.py: fit_cond"]}
{"id": "C43", "title": "fit_cond per-profile means", "statement": "The station mean reported for a profile averages the samples from just after the first sample of the previous profile through its own first sample, hence is not in general the mean over that profile's own samples; for one sample per profile the two agree.", "quantifier": "all profile layouts", "why_tests_cant": "Tests compare only non-NaN cells to one stored reference.", "anchors": ["pyowc/core/stats.py: fit_cond"]}
{"id": "C44", "title": "fit_cond unsorted input", "statement": "fit_cond sorts the positions without their values: rearranging the positions among the valid samples, keeping values, errors and covariances in place, does not change the result, and consequently listing the same samples in another order can change the reported means.", "quantifier": "all x, y", "why_tests_cant": "All permutations.", "anchors": ["pyowc/core/stats.py: fit_cond"]}
{"id": "C45", "title": "map_data_grid reproduces a constant field", "statement": "If all historical salinities equal c the mapped value at the float and at every cast is exactly c, whatever the positions and scales.", "quantifier": "all cast sets for which the covariance is invertible", "why_tests_cant": "All cast sets.", "anchors": ["pyowc/data/wrangling.py: map_data_grid"]}
{"id": "C46", "title": "map_data_grid is affine in the salinities", "statement": "Mapping a*s+b gives a*mapped(s)+b, and mapping s+t gives mapped(s)+mapped(t); error estimates do not depend on the salinities.", "quantifier": "all salinities and positions", "why_tests_cant": "Algebraic law.", "anchors": ["pyowc/data/wrangling.py: map_data_grid"]}
{"id": "C47", "title": "map_data_grid is always solvable with noise", "statement": "With non-negative signal variance and positive noise variance the covariance matrix is invertible for every non-empty cast set and every mapped value and error estimate is a real number, the errors non-negative (so the divisor is nonzero and no square root is of a negative number).", "quantifier": "all cast sets including repeated casts", "why_tests_cant": "Needs positive definiteness for all sizes.", "anchors": ["pyowc/data/wrangling.py: map_data_grid", "pyowc/core/stats.py: covar_xyt_pv"]}
{"id": "C48", "title": "map_data_grid interpolates exactly without noise", "statement": "With zero noise and an invertible covariance the mapped value at each historical cast equals its salinity and its error estimate is zero.", "quantifier": "all cast sets", "why_tests_cant": "Exact algebraic law.", "anchors": ["pyowc/data/wrangling.py: map_data_grid"]}
{"id": "C49", "title": "map_data_grid does not depend on cast order", "statement": "Permuting the historical casts (with their salinities) leaves the value and error at the float unchanged and permutes the per-cast outputs.", "quantifier": "all permutations", "why_tests_cant": "n! permutations.", "anchors": ["pyowc/data/wrangling.py: map_data_grid"]}
{"id": "C50", "title": "interp_climatology interpolates on the float temperature", "statement": "Each non-missing output for a station is the linear interpolation of salinity and pressure between two vertically adjacent valid samples of that station whose temperatures bracket the float's temperature, and among all such brackets it is the one whose pressure is closest to the float's.", "quantifier": "all climatology matrices and float profiles", "why_tests_cant": "All shapes/NaN patterns/inversions.", "anchors": ["pyowc/data/wrangling.py: interp_climatology"]}
{"id": "C51", "title": "interp_climatology outputs missing exactly when there is nothing to interpolate", "statement": "When it returns, output (level, station) is NaN exactly if the float level has a non-finite value, or the station has no bracketing pair; salinity and pressure are missing together. Mismatched shapes and no valid climatology give all-NaN.", "quantifier": "all inputs", "why_tests_cant": "All NaN patterns.", "anchors": ["pyowc/data/wrangling.py: interp_climatology"]}
{"id": "C52", "title": "interp_climatology crashes on isothermal matches", "statement": "On arrays of one shape interp_climatology raises exactly in three cases, always ValueError: there is no station; some valid float level meets a station all of whose brackets are isothermal at exactly the float temperature; or there is a valid float level and a valid climatology sample but no station has two of them.", "quantifier": "all inputs", "why_tests_cant": "The crash conditions are rare in test data.", "anchors": ["pyowc/data/wrangling.py: interp_climatology"]}
{"id": "C53", "title": "interp_climatology treats stations independently", "statement": "When it returns, the output column of a station depends only on that station's column: removing, adding or permuting other stations, or inserting all-NaN levels, does not change it.", "quantifier": "all climatology matrices", "why_tests_cant": "Relation between calls.", "anchors": ["pyowc/data/wrangling.py: interp_climatology"]}
{"id": "C54", "title": "get_topo_grid reads the addressed cells", "statement": "For a window inside the file's domain, cell (i,j) of the returned elevation is the value stored in the file for the 5-minute row and column whose latitude and longitude are reported in the coordinate outputs, and no read is outside the file.", "quantifier": "all windows", "why_tests_cant": "All windows incl. seam.", "anchors": ["pyowc/data/fetchers.py: get_topo_grid"]}
{"id": "C55", "title": "get_region_hist_locations concatenates boxes in order", "statement": "The outputs have equal length, list casts box by box (CTD, bottle, Argo within a box) in file order, with dates decimalised; files with a single cast, bottle files with a single level and Argo files with fewer than two levels are skipped; ValueError is raised exactly when nothing is found.", "quantifier": "all box tables and file contents", "why_tests_cant": "All configurations.", "anchors": ["pyowc/data/fetchers.py: get_region_hist_locations", "pyowc/data/fetchers.py: get_data"]}
{"id": "C56", "title": "get_region_data returns the selected casts in ascending order", "statement": "The casts returned are exactly those numbered by index in the concatenation order of get_region_hist_locations, listed in ascending order whatever the order of index, dropping casts with no valid level and casts of files with fewer than two levels.", "quantifier": "all indices and file contents", "why_tests_cant": "All index orders.", "anchors": ["pyowc/data/fetchers.py: get_region_data"]}
{"id": "C57", "title": "get_region_data loses data after an empty first cast", "statement": "If the first selected cast (of a file with at least two levels) has no valid sample no deeper than the limit, data of other casts are lost.", "quantifier": "all file contents", "why_tests_cant": "Depends on rare data patterns.", "anchors": ["pyowc/data/fetchers.py: get_region_data"]}
{"id": "C58", "title": "the reference database never contains the float under study", "statement": "Argo reference casts whose source name contains the float name are removed together with all their data columns and every other cast is kept with its columns aligned, for files with at least two casts and levels; smaller files are not read.", "quantifier": "all databases and float names", "why_tests_cant": "All databases.", "anchors": ["pyowc/data/fetchers.py: get_data", "pyowc/data/fetchers.py: read_mat_argo"]}
{"id": "C59", "title": "SAF constraint only removes casts and only in the Southern Ocean", "statement": "frontal_constraint_saf returns a sub-selection (same order) of the input casts with all arrays filtered alike, and returns everything when the float is north of 30S.", "quantifier": "all inputs", "why_tests_cant": "All inputs.", "anchors": ["pyowc/data/fetchers.py: frontal_constraint_saf"]}
{"id": "C60", "title": "selected historical points are separated and cover", "statement": "After recording the casts of a profile, any two recorded points are at least 1/60 degree apart in longitude or latitude, and every cast used is within 1/60 degree of a recorded point; earlier records are never removed.", "quantifier": "all histories of recording calls", "why_tests_cant": "Invariant over all call sequences.", "anchors": ["pyowc/helper.py: selected_historical_points"]}
{"id": "C61", "title": "outlier removal keeps most casts and alignment", "statement": "Casts whose salinity is more than three standard deviations from the mean are removed from all six arrays alike; fewer than one ninth of the casts can be removed.", "quantifier": "all cast sets", "why_tests_cant": "Chebyshev bound for all data.", "anchors": ["pyowc/helper.py: remove_statical_outliers", "pyowc/calibration.py: update_salinity_mapping"]}
{"id": "C62", "title": "history used at a level is within the pressure window", "statement": "process_profile_hist_variables keeps exactly the casts with a valid interpolated salinity whose interpolated pressure is strictly within map_p_delta of the float level, all six arrays aligned and in order.", "quantifier": "all inputs", "why_tests_cant": "All inputs.", "anchors": ["pyowc/helper.py: process_profile_hist_variables"]}
{"id": "C63", "title": "a fresh mapping run covers every profile once", "statement": "Starting without a mapped file, update_salinity_mapping writes one column per source profile, in ascending profile number, and a second run over the saved file performs no recalculation.", "quantifier": "all source files with distinct profile numbers", "why_tests_cant": "All profile number lists.", "anchors": ["pyowc/calibration.py: update_salinity_mapping", "pyowc/helper.py: load_varibales_from_file"]}
{"id": "C64", "title": "incremental mapping update crashes", "statement": "If a mapped file exists and the source has at least one profile number not in it, update_salinity_mapping raises AttributeError before writing, so the file is unchanged.", "quantifier": "all mapped files and sources", "why_tests_cant": "History property: depends on a previous run.", "anchors": ["pyowc/calibration.py: update_salinity_mapping"]}
{"id": "C65", "title": "mapped matrices are sorted twice", "statement": "After a run on profiles not already in ascending order the five mapped matrices are permuted twice while profile numbers and per-profile settings are permuted once, so columns are mislabelled; they are correctly labelled exactly when sorting twice equals sorting once.", "quantifier": "all profile orders", "why_tests_cant": "Test data are already sorted.", "anchors": ["pyowc/calibration.py: update_salinity_mapping", "pyowc/helper.py: sort_numpy_array"]}
{"id": "C66", "title": "mapped salinities saved are in range", "statement": "No saved mapped salinity is below 30 or above 40; offending ones are NaN.", "quantifier": "all runs", "why_tests_cant": "All data.", "anchors": ["pyowc/calibration.py: update_salinity_mapping"]}
{"id": "C67", "title": "existing mapped matrices are padded, never altered", "statement": "Loading an existing mapped file with fewer levels than the source appends NaN rows to the five matrices and leaves every existing value, label and setting unchanged.", "quantifier": "all files", "why_tests_cant": "All files.", "anchors": ["pyowc/helper.py: load_varibales_from_file"]}
{"id": "C68", "title": "set_calseries default series", "statement": "Without an existing file set_calseries records one calibration flag per profile: 1 for profiles with at least one valid salinity, temperature and pressure, 0 otherwise, with max 4 breaks and no bounds - provided the profile numbers are ascending; otherwise the zeros are attached to the wrong profiles.", "quantifier": "all source files", "why_tests_cant": "All files.", "anchors": ["pyowc/configuration.py: set_calseries"]}
{"id": "C69", "title": "set_calseries existing file", "statement": "With an existing file covering all source profiles the flags are kept except that profiles without data become 0; with a missing profile it raises AttributeError; repeated calls do not change the result.", "quantifier": "all files and histories", "why_tests_cant": "History property.", "anchors": ["pyowc/configuration.py: set_calseries"]}
{"id": "C70", "title": "calibrated salinity applies one multiplicative conductivity factor per profile", "statement": "For every profile in a calibrated series each calibrated salinity is obtained from the same profile-wise conductivity factor, and its error from the factor enlarged by the error of the factor; with factor 1 the calibrated salinity equals the measured one; profiles flagged 0 stay missing; a series' processing does not touch other series' columns.", "quantifier": "all series layouts", "why_tests_cant": "Frame property over all layouts.", "anchors": ["pyowc/calibration.py: calc_piecewisefit"]}
{"id": "C71", "title": "configuration load is pure", "statement": "Every call of load returns a fresh mapping with the same entries, keys in ascending order and without repetition; mutating a returned mapping does not affect later calls.", "quantifier": "all call/mutation histories", "why_tests_cant": "History property.", "anchors": ["pyowc/configuration.py: load"]}
{"id": "C72", "title": "find_10thetas discards rarely sampled levels, and level 0 with them", "statement": "The salinity variance of a candidate level is the sample variance (divisor n-1) over the profiles that have a salinity on that level, and is missing for fewer than two; a level sampled by less than the given fraction of the best sampled level's profiles is blanked; whenever any level is blanked for that reason, level 0 is blanked too, even if it is well sampled.", "quantifier": "all profile matrices, all fractions", "why_tests_cant": "Depends on every pattern of missing data.", "anchors": ["pyowc/core/finders.py: find_10thetas"]}
{"id": "C73", "title": "find_10thetas level salinities interpolate between bracketing samples", "statement": "The salinity of a profile on a level is missing when the profile's temperatures do not straddle the level; otherwise it is the linear interpolation between the nearest sample and its closer vertical neighbour on the far side of the level, or the nearest sample's salinity if there is no such neighbour or a salinity is missing. If the two neighbours have the same temperature beyond the level, no result is returned; without such ties, a temperature range of two multiples of 0.1 degree and a pressure range of 10 guarantee a result.", "quantifier": "all profile matrices", "why_tests_cant": "Needs all arrangements of inversions and ties.", "anchors": ["pyowc/core/finders.py: find_10thetas"]}
{"id": "C74", "title": "find_10thetas candidate levels", "statement": "Candidate pressure levels start at the smallest usable pressure and are spaced 50 apart when the usable pressures span more than 450, otherwise by the whole part of a tenth of the span; they stay below the largest pressure and there are always at least ten. Each candidate temperature is the mean over the profiles whose usable pressures strictly bracket the level of the interpolated temperature. A pressure span below 10 raises ValueError.", "quantifier": "all profile matrices", "why_tests_cant": "Holds for every span and missing pattern.", "anchors": ["pyowc/core/finders.py: find_10thetas"]}
{"id": "C75", "title": "fit_cond never returns a fit with estimated break points", "statement": "Without prescribed breaks and with a non-negative number of Monte-Carlo loops, whatever maximum is requested, a returned fit has no break points and at most two coefficients; where a break-point model would be chosen the call fails instead.", "quantifier": "all data, covariances, option lists, optimiser results, generators", "why_tests_cant": "Tests on samples that favour a line cannot tell; it is a statement about all optimiser outcomes.", "anchors": ["pyowc/core/stats.py: fit_cond"]}
{"id": "C76", "title": "fit_cond ignores the initial_breaks option", "statement": "Whenever a call returns a result, the same call without its initial_breaks options returns the same result and leaves the same generator state.", "quantifier": "all data and option lists, all optimisers", "why_tests_cant": "Comparison of two runs for every input.", "anchors": ["pyowc/core/stats.py: fit_cond"]}
{"id": "C77", "title": "fit_cond without room for a line returns the weighted mean", "statement": "With max_no_breaks = -1, or fewer than five effective observations, the result is the mean of the valid values weighted by inverse error variances, at every profile position, with zero derivative, undefined derivative error, and one coefficient; no random number is drawn.", "quantifier": "all valid data, covariances and maxima", "why_tests_cant": "All data layouts and covariances.", "anchors": ["pyowc/core/stats.py: fit_cond"]}
{"id": "C78", "title": "fit_cond chooses between the weighted mean and the weighted least-squares line", "statement": "With at least five effective observations at two or more positions, a returned fit is the weighted least-squares line if its corrected information criterion is smaller than the weighted mean's, and otherwise the weighted mean; a result is guaranteed for max_no_breaks = 0 or fewer than seven effective observations. If all valid samples share one position ValueError is raised.", "quantifier": "all valid data and covariances", "why_tests_cant": "Optimality over all lines and the choice for all data.", "anchors": ["pyowc/core/stats.py: fit_cond", "pyowc/core/stats.py: brk_pt_fit"]}
{"id": "C79", "title": "fit_cond evaluates the line from the first profile, not the first valid one", "statement": "The line's coefficients refer to the first position with a valid sample, but the returned curve is evaluated from the first position; with a leading profile without valid samples the curve misses data that lie exactly on a line.", "quantifier": "a concrete data set", "why_tests_cant": "A returned curve for data exactly on a line is never compared in tests with missing leading profiles.", "anchors": ["pyowc/core/stats.py: fit_cond"]}
{"id": "C80", "title": "fit_cond without valid data", "statement": "When no sample has finite position and value, the call returns the distinct positions with everything else missing, whatever the options are, even invalid ones, and draws no random number.", "quantifier": "all inputs without valid samples, all argument lists", "why_tests_cant": "All option lists.", "anchors": ["pyowc/core/stats.py: fit_cond"]}
{"id": "C81", "title": "map_data_grid is the best linear unbiased estimate", "statement": "The mapped value, at the float and at every cast, is a weighted mean of the salinities whose weights sum to one and have the least expected squared error among all such weights, for a signal of the given variance and correlation and independent noise; the weights are unique and the squared error estimate is exactly that least expected error.", "quantifier": "all cast sets with an invertible covariance, all salinities", "why_tests_cant": "Optimality over all weight vectors.", "anchors": ["pyowc/data/wrangling.py: map_data_grid", "pyowc/core/stats.py: covar_xyt_pv"]}
{"id": "C82", "title": "map_data_grid: more casts never increase the error estimate", "statement": "Mapping with additional casts, the scales and variances unchanged, gives an error estimate at the float that is not larger.", "quantifier": "all cast sets and additional casts", "why_tests_cant": "Relation between calls for all cast sets.", "anchors": ["pyowc/data/wrangling.py: map_data_grid"]}
{"id": "C83", "title": "cached database readers are transparent on an unchanging disk", "statement": "Starting from an empty cache, any sequence of calls of a cached reader returns what reading the file each time would return, errors included, whatever the order and number of calls and evictions.", "quantifier": "all sequences of calls, all contents of the disk", "why_tests_cant": "All call histories, including those that overflow the cache.", "anchors": ["pyowc/data/fetchers.py: read_mat_ctd", "pyowc/data/fetchers.py: read_mat_bottle", "pyowc/data/fetchers.py: read_mat_argo"]}
{"id": "C84", "title": "cached database readers serve stale data after the file changes", "statement": "A value served for a file is served again by the next 127 calls of the same reader at least, whatever has become of the file.", "quantifier": "all call histories, all later contents of the disk", "why_tests_cant": "Needs the file to change within one process.", "anchors": ["pyowc/data/fetchers.py: read_mat_ctd", "pyowc/data/fetchers.py: read_mat_bottle", "pyowc/data/fetchers.py: read_mat_argo"]}
{"id": "C85", "title": "SAF constraint fails on a repeated pressure", "statement": "South of 30S, frontal_constraint_saf raises ValueError whenever two consecutive usable levels of the float have the same pressure.", "quantifier": "all grids, all float profiles", "why_tests_cant": "All profiles with a repeated pressure, wherever it occurs.", "anchors": ["pyowc/data/fetchers.py: frontal_constraint_saf"]}
{"id": "C86", "title": "a level is mapped in two stages of best unbiased estimates", "statement": "update_salinity_mapping maps a level from at least six historical points by removing outliers beyond three standard deviations, estimating the field with the large scales, estimating the residuals at the casts with the small scales and adding both; each estimate is the unique unbiased one of least expected squared error, latitude scales apply to latitudes and longitude scales to longitudes, and the error is the root of the sum of the two expected errors. With five points or fewer nothing is mapped.", "quantifier": "all point sets with positive noise, all configurations with nonzero scales", "why_tests_cant": "Optimality over all weights and all point sets.", "anchors": ["pyowc/calibration.py: update_salinity_mapping", "pyowc/data/wrangling.py: map_data_grid"]}
{"id": "C87", "title": "mapping a level follows a change of salinity offset", "statement": "Adding a constant to every historical salinity of a level adds it to the mapped salinity and leaves mapping error, noise, signal variance and the points used unchanged.", "quantifier": "all point sets with positive noise, all offsets", "why_tests_cant": "Relation between two runs for all point sets.", "anchors": ["pyowc/calibration.py: update_salinity_mapping"]}
{"id": "C88", "title": "one level that cannot be mapped loses the whole float", "statement": "If all historical salinities of a level are equal the mapping raises LinAlgError (singular matrix), and an exception on any level of any profile ends the run without anything being saved.", "quantifier": "all point sets, all sources", "why_tests_cant": "All positions of the failing level.", "anchors": ["pyowc/calibration.py: update_salinity_mapping", "pyowc/data/wrangling.py: map_data_grid"]}
{"id": "C89", "title": "runs that cannot produce a mapped file", "statement": "A fresh run in which no level of any profile is mapped raises UnboundLocalError, and a run on a mapped file without one of the twelve settings (such as an older file without use_saf) raises KeyError; nothing is written.", "quantifier": "all sources, all mapped files", "why_tests_cant": "All sources without mapped levels, all missing settings.", "anchors": ["pyowc/calibration.py: update_salinity_mapping", "pyowc/helper.py: load_varibales_from_file"]}
{"id": "C90", "title": "which profiles and levels are skipped", "statement": "A profile is skipped when its position is missing or none of its pressures, the first one not counted, is valid; a level is skipped when its salinity is missing or its pressure is less than the excluded pressure (or missing).", "quantifier": "all profiles", "why_tests_cant": "All patterns of missing values.", "anchors": ["pyowc/calibration.py: update_salinity_mapping"]}
{"id": "C91", "title": "depths of the historical casts are not those of the casts", "statement": "The depths used in the mapping follow the order of the selection while the positions and data follow the order of the files without casts that have no data; they agree when the selection is in ascending order and every selected cast has data (in a file with at least two levels), otherwise casts are given the depths of other casts.", "quantifier": "all databases and floats", "why_tests_cant": "Needs a selection out of order or a cast without data at the right place.", "anchors": ["pyowc/calibration.py: update_salinity_mapping", "pyowc/data/fetchers.py: get_region_data"]}
{"id": "C92", "title": "a mapping run writes one file or none", "statement": "update_salinity_mapping changes no stored file other than the mapped file of its float, and that only if it succeeds.", "quantifier": "all stores, all runs including failing ones", "why_tests_cant": "All contents of the directory, all exceptions.", "anchors": ["pyowc/calibration.py: update_salinity_mapping"]}
{"id": "C93", "title": "print_cfg lists every entry on its own aligned line", "statement": "The text is an empty line followed by one line per entry, in the order of the mapping: the key right-aligned in 30 characters (longer keys are not cut), a colon, a blank and the value; provided keys and values contain no newline.", "quantifier": "all mappings", "why_tests_cant": "All keys and values.", "anchors": ["pyowc/configuration.py: print_cfg"]}
{"id": "C94", "title": "a calibration factor belongs to the profile at the same place in the order of the numbers", "statement": "In a successful calibration with distinct profile numbers the factor saved for the p-th profile of a series (in the order of the file) is the value of the series' fit at the p-th smallest number of the series, and so are its error, the slope with its error and the station mean with its error; with ascending numbers this is the profile's own number, otherwise some profile is given the value of another one.", "quantifier": "all sources, series and settings", "why_tests_cant": "Needs unsorted profile numbers and a slope.", "anchors": ["pyowc/calibration.py: calc_piecewisefit", "pyowc/core/stats.py: fit_cond"]}
{"id": "C95", "title": "series that can never be calibrated", "statement": "A calibration with a series of one profile, or with a series in which a profile number is repeated beside another one, never succeeds.", "quantifier": "all sources and settings with such a series", "why_tests_cant": "A claim about all inputs of a kind: the absence of a success.", "anchors": ["pyowc/calibration.py: calc_piecewisefit", "pyowc/core/finders.py: find_10thetas"]}
{"id": "C96", "title": "prescribed break points never lead to a calibration", "statement": "When the settings contain break points, calc_piecewisefit either raises or saves a file in which everything is missing.", "quantifier": "all settings with break points and at least one flagged profile", "why_tests_cant": "A claim about all inputs of a kind: the absence of a success.", "anchors": ["pyowc/calibration.py: calc_piecewisefit", "pyowc/core/stats.py: fit_cond"]}
{"id": "C97", "title": "a calibration run writes one file or none", "statement": "calc_piecewisefit changes no file other than the calibration file of its float, and that only if it succeeds; a missing source or mapped file raises FileNotFoundError; the settings are read from where set_calseries writes them exactly if FLOAT_MAPPED_POSTFIX equals FLOAT_CALIB_POSTFIX.", "quantifier": "all stores, configurations and runs", "why_tests_cant": "All contents of the directories, all exceptions.", "anchors": ["pyowc/calibration.py: calc_piecewisefit", "pyowc/configuration.py: set_calseries"]}
{"id": "C98", "title": "settings that do not lead to a calibration", "statement": "A mapped file without historical points and a flagged profile give UnboundLocalError; settings without use_percent_gt give KeyError; settings without a series, or with a number of max_breaks rows that is neither one nor the number of series, give a saved file in which everything is missing and no error.", "quantifier": "all sources and settings of the kind", "why_tests_cant": "All inputs of the kind.", "anchors": ["pyowc/calibration.py: calc_piecewisefit"]}
{"id": "C99", "title": "no break point is ever saved", "statement": "A saved calibration made without prescribed break points contains no break points and at most two coefficients per series, whatever max_breaks is.", "quantifier": "all sources and settings", "why_tests_cant": "A claim about all inputs: the search for break points never succeeds.", "anchors": ["pyowc/calibration.py: calc_piecewisefit", "pyowc/core/stats.py: fit_cond"]}
{"id": "C100", "title": "legend of the theta-salinity plot", "statement": "theta_sal_plot puts profile i (counting from 0) into the legend exactly if i is a multiple of ceil(n/30) and smaller than the NUMBER of the last profile; so never more than 30, but for descending numbers (3, 2, 1) only the first, and none if the last number is 0.", "quantifier": "all floats with integer profile numbers", "why_tests_cant": "All profile numbers and counts; the mixture of index and number only shows with unusual numbers.", "anchors": ["pyowc/plot/plots.py: theta_sal_plot"]}
{"id": "C101", "title": "curves and error bars of the theta-salinity plot", "statement": "A completed theta_sal_plot draws, for every profile in order, its salinity-temperature curve followed by one horizontal error bar per level found in that profile, at the mapped salinity, mapped temperature and mapping error of that profile and row, and saves one file.", "quantifier": "all arrays, all level indices", "why_tests_cant": "All sizes and all patterns of missing indices.", "anchors": ["pyowc/plot/plots.py: theta_sal_plot"]}
{"id": "C102", "title": "trajectory plot", "statement": "trajectory_plot draws the positions of the float and of the historical profiles, annotates exactly the first, the last and every third profile with its number at its position, and takes the limits from the historical profiles alone (20 degrees of longitude, 15 of latitude beyond them); plot_diagnostics maps longitudes to (-180, 180]. A float crossing 180 degrees is therefore drawn outside the limits, and neighbouring profiles 358 degrees apart.", "quantifier": "all floats and climatologies", "why_tests_cant": "All trajectories, including those across the date line.", "anchors": ["pyowc/plot/plots.py: trajectory_plot", "pyowc/plot/dashboard.py: plot_diagnostics"]}
{"id": "C103", "title": "what the windows hide in the salinity variance plot", "statement": "Unless only an upper temperature bound is set, sal_var_plot takes the column numbers of samples outside the windows for row numbers: such a sample in row i and profile j hides rows i and j of all profiles, and if j is no row number the function raises IndexError before drawing anything. Samples inside all windows are hidden, and the plot can fail because of it.", "quantifier": "all data and windows for which find_10thetas succeeds", "why_tests_cant": "Needs a sample outside a window in a particular profile.", "anchors": ["pyowc/plot/plots.py: sal_var_plot"]}
{"id": "C104", "title": "values of the salinity variance plot", "statement": "On each of the levels chosen by find_10thetas, the three curves, the error bars and the error band of sal_var_plot hold for every profile the value at the nearest shown sample or the linear interpolation between it and the neighbour across the level (or nothing if the level is not reached), of the float, mapped and calibrated salinity and their errors.", "quantifier": "all data, any interpolation routine that is linear between two points", "why_tests_cant": "A statement about all real inputs; tests compare images or nothing.", "anchors": ["pyowc/plot/plots.py: sal_var_plot"]}
{"id": "C105", "title": "anomaly plot is relative to the median", "statement": "sal_anom_plot succeeds exactly if some profile has a temperature and, if bounds are configured, these are finite and there are at least two profiles, as many as numbers. At each of the temperatures 0.1, 0.2, ... 30.0 the anomalies have median 0; adding a constant to all salinities changes nothing; equal profiles with offsets are drawn as the offsets minus their median, so a deviation of fewer than half of the profiles is drawn at its full size. A profile with fewer than three samples of known temperature and salinity is left out.", "quantifier": "all profiles, offsets and orders of sorting", "why_tests_cant": "All real inputs and any sorting algorithm.", "anchors": ["pyowc/plot/plots.py: sal_anom_plot"]}
{"id": "C106", "title": "floats with a single profile have no dashboard", "statement": "For a float with one profile sal_anom_plot raises and draws nothing, and plot_diagnostics fails after at most two files, the trajectory and the uncalibrated theta-salinity plot.", "quantifier": "all floats with one profile, all settings with bounds", "why_tests_cant": "A claim about the absence of success for all inputs of a kind.", "anchors": ["pyowc/plot/plots.py: sal_anom_plot", "pyowc/plot/dashboard.py: plot_diagnostics"]}
{"id": "C107", "title": "salinity curve plot", "statement": "The file of cal_sal_curve_plot holds the multiplicative factors with one and two standard errors and the single profile factors in the first panel, and in the second the averages, over the levels where both are known, of calibrated minus original salinity with the averaged errors and the single profile corrections; without any calibrated salinity nothing is drawn or saved.", "quantifier": "all data with matching lengths, figures closed by show", "why_tests_cant": "All patterns of missing values.", "anchors": ["pyowc/plot/plots.py: cal_sal_curve_plot"]}
{"id": "C108", "title": "dashboard files are separate if show closes the figures", "statement": "If plt.show closes the figures, every file saved by a successful plot_diagnostics belongs to exactly one of the eight plots and has the content it would have if that plot were made alone, from the float, mapped and calibrated data; no file of one plot is overwritten by another.", "quantifier": "all data, all names, formats and directories", "why_tests_cant": "File names and figure numbers interact across the whole run.", "anchors": ["pyowc/plot/dashboard.py: plot_diagnostics", "pyowc/plot/plots.py: theta_sal_plot", "pyowc/plot/plots.py: t_s_profile_plot"]}
{"id": "C109", "title": "dashboard files are mixed up if figures stay open", "statement": "If plt.show does not close the figures (no display), the salinity curve file of a successful plot_diagnostics holds the trajectory plot with the second panel drawn into it instead of the two panels, and the salinity profile file holds that below its own panels.", "quantifier": "all successful runs with a calibrated salinity", "why_tests_cant": "Depends on the state of pyplot across eight functions.", "anchors": ["pyowc/plot/dashboard.py: plot_diagnostics", "pyowc/plot/plots.py: cal_sal_curve_plot", "pyowc/plot/plots.py: t_s_profile_plot"]}
{"id": "C110", "title": "files of the salinity variance plot", "statement": "With at most ten levels and no sample that names a missing row, sal_var_plot either saves one file per level, numbered from 1, and there is a known float salinity on some level, or there is none and it raises ValueError after saving the first file; with more than ten levels it raises IndexError and saves nothing. A float with one profile can fail in this way.", "quantifier": "all data for which find_10thetas succeeds, without ties in temperature", "why_tests_cant": "All data; the failure needs a float without salinities on the levels.", "anchors": ["pyowc/plot/plots.py: sal_var_plot"]}
{"id": "C111", "title": "files are handed from one stage to the next only with equal postfixes", "statement": "The mapped file read by plot_diagnostics is the one written by the mapping. The settings of set_calseries are read by calc_piecewisefit iff FLOAT_CALIB_POSTFIX = FLOAT_MAPPED_POSTFIX and by plot_diagnostics iff FLOAT_CALIB_POSTFIX = FLOAT_SOURCE_POSTFIX, as is the calibration. With other postfixes plot_diagnostics after a calibration fails, or shows an older calibration.", "quantifier": "all configurations, directories and names", "why_tests_cant": "All configurations; the defaults hide it.", "anchors": ["pyowc/plot/dashboard.py: plot_diagnostics", "pyowc/calibration.py: calc_piecewisefit", "pyowc/configuration.py: set_calseries"]}
{"id": "C112", "title": "SAF constraint keeps the casts on the float's side, read without their last row", "statement": "South of 30S a float whose temperature at 300 dbar exceeds 5 (or is below 3) keeps exactly the casts whose temperature at 300 dbar, read from the levels without missing values that are followed by a row of another pressure, is on the same side; the last row of a cast is therefore never used, and a cast deeper than 300 dbar only in its last row is never kept, whatever its temperatures.", "quantifier": "all floats and casts without repeated pressures among the usable levels", "why_tests_cant": "The loss of the last row shows only for casts that fill all rows.", "anchors": ["pyowc/data/fetchers.py: frontal_constraint_saf"]}
{"id": "C113", "title": "SAF constraint decides by the envelopes between 3 and 5 degrees", "statement": "If the temperature at 300 dbar does not decide, the float is southern (northern) exactly if there is a depth between 150 and 1700 where everything can be compared and at all such depths it is strictly within the southern (northern) envelope and not so for the other one; then the casts of that side are kept, otherwise all. A float that does not span 300 dbar, or has fewer than three usable levels, keeps all casts.", "quantifier": "all floats, typical profiles and casts without repeated pressures among the usable levels", "why_tests_cant": "All shapes of the envelopes and all gaps.", "anchors": ["pyowc/data/fetchers.py: frontal_constraint_saf"]}
{"id": "C114", "title": "error returned with a constant offset", "statement": "If fit_cond returns one coefficient, the error it returns at every position is the square root of sum_i sum_j c_ij / e_j^2 divided by sum 1/e_i^2 (c the correlations lvcov of the valid samples, e their errors), the error of the derivative is undefined and no random numbers are drawn. That is the standard error of the weighted mean if the samples are uncorrelated or all errors are equal; for other symmetric correlations that are not negative it is never smaller, and it can be larger, since each correlation is weighted with one squared error instead of the two errors.", "quantifier": "all samples with positive errors, all correlation matrices, all settings", "why_tests_cant": "All errors and correlations; the existing tests use one matrix and compare stored numbers.", "anchors": ["pyowc/core/stats.py: fit_cond"]}
{"id": "C115", "title": "error of the slope returned with a line", "statement": "If fit_cond returns two coefficients for samples at different positions, the error it returns for the derivative is sum_ij d_i c_ij d_j / e_j^2 divided by S^2 (d the distances to the weighted centre, S = sum d_i^2/e_i^2), times half the range of the positions over the standard deviation of the values. For uncorrelated samples the first factor is the variance of the slope of the weighted line: the returned value is a rescaled variance, not a standard error.", "quantifier": "all samples with positive errors, all correlation matrices, all settings", "why_tests_cant": "All errors, correlations and scales; the scaling cancels only for special data.", "anchors": ["pyowc/core/stats.py: fit_cond"]}
{"id": "C116", "title": "small reference files are lost", "statement": "A reference file with a single cast has no effect: get_region_hist_locations and get_region_data return what they return without the file. Selecting a cast of a file with fewer than two levels has no effect on get_region_data, although get_region_hist_locations lists the casts of such CTD files, so casts with data that were listed and selected are not returned.", "quantifier": "all databases, box tables and indices", "why_tests_cant": "The reader drops dimensions of length one, so only files with one cast or one level show it.", "anchors": ["pyowc/data/fetchers.py: get_region_hist_locations", "pyowc/data/fetchers.py: get_region_data", "pyowc/data/fetchers.py: read_mat_bottle", "pyowc/data/fetchers.py: read_mat_argo"]}
{"id": "C117", "title": "mapping by a pool of processes equals mapping one by one", "statement": "In every execution of pool.map over update_salinity_mapping, whatever the division of the floats among the processes and whatever the order in which the processes read and write files: it ends; it raises nothing exactly if no float, mapped alone, raises; the disk is then the one left by mapping the floats one after another; otherwise the exception is that of one of the floats, every float has either the mapped file of mapping it alone or its old one, and keeps the old one only if it or an earlier float in the list raises. Nothing but the mapped files changes. With the default paths this holds for all names without a slash.", "quantifier": "all lists of different floats, disks, divisions and interleavings", "why_tests_cant": "The order of the processes is not under the control of a test.", "anchors": ["start_with_pycharm.py", "pyowc/calibration.py: update_salinity_mapping"]}
{"id": "C118", "title": "what a failing run of the script leaves", "statement": "On a machine with one processor the script raises ValueError and does nothing. If a float cannot be mapped, the script raises the exception of such a float, draws no random number, plots nothing and changes no file but mapped ones. If all can be mapped and the script fails at a later float, all mapped files are there, the earlier floats have all their files, and the settings and calibrations of the later ones are as before.", "quantifier": "all lists of different floats, disks, executions", "why_tests_cant": "Failures depend on the combination of files and on the scheduling.", "anchors": ["start_with_pycharm.py", "pyowc/calibration.py: update_salinity_mapping", "pyowc/calibration.py: calc_piecewisefit", "pyowc/configuration.py: set_calseries"]}
{"id": "C119", "title": "the floats of a run do not influence each other", "statement": "After a complete run of the script the files of a float are those of its own mapping, its own settings and a fit to these: two runs with any other floats, on disks that agree on the source, mapped and settings file of the float, leave the same mapped file and settings, and calibrations that differ at most in what is derived from random numbers (no difference in factors, slopes, station means and calibrated salinities). No other file is changed.", "quantifier": "all lists of different floats, disks, executions, generators of random numbers", "why_tests_cant": "All combinations of floats and all states of the generator.", "anchors": ["start_with_pycharm.py", "pyowc/calibration.py: update_salinity_mapping", "pyowc/calibration.py: calc_piecewisefit", "pyowc/configuration.py: set_calseries"]}
{"id": "C120", "title": "a complete first run", "statement": "If the script completes for a float with ascending profile numbers and neither mapped file nor settings, the mapped file, the settings and the calibration carry the profile numbers of the source in its order, column j of every mapped matrix holds the levels calculated for profile j, a profile with salinity, temperature and pressure has flag 1 and is calibrated with a single factor, and one without has flag 0 and no calibration.", "quantifier": "all such floats, other floats, executions", "why_tests_cant": "The chain of all stages for all floats.", "anchors": ["start_with_pycharm.py", "pyowc/calibration.py: update_salinity_mapping", "pyowc/calibration.py: calc_piecewisefit", "pyowc/configuration.py: set_calseries"]}
{"id": "C121", "title": "a second run changes nothing", "statement": "Running the script again for all or some of the floats of a complete first run, even with another configuration of the mapping or without the reference data, changes no file but calibrations, and if it completes the calibrations differ at most in what is derived from random numbers.", "quantifier": "all first runs over floats with ascending profile numbers, all second runs", "why_tests_cant": "History property over two runs with all interleavings.", "anchors": ["start_with_pycharm.py", "pyowc/calibration.py: update_salinity_mapping", "pyowc/calibration.py: calc_piecewisefit", "pyowc/configuration.py: set_calseries"]}
{"id": "C122", "title": "one depth of the sea floor for every position", "statement": "The depth the mapping uses for the float and for every historical cast, and the depth the calibration uses for every profile, is minus the bilinear interpolation of the elevations stored in tbase.int around the position (longitudes modulo 360, latitudes from 89 55' S to 90 N); so one position has the same depth in all three places, also across the meridian of Greenwich and the date line. In the calibration this holds unless the float has longitudes on both sides (one greater than 180, one less than 1) and a latitude beyond 88 55' N; then, and only then, reading the grid raises OSError.", "quantifier": "all known positions with longitude 0 to 360, all contents of tbase.int", "why_tests_cant": "All positions and windows; the grid is read in three different ways.", "anchors": ["pyowc/data/fetchers.py: get_topo_grid", "pyowc/calibration.py: update_salinity_mapping", "pyowc/calibration.py: calc_piecewisefit", "pyowc/helper.py: process_profiles_grid_variables"]}
{"id": "C123", "title": "the calibration recovers a constant offset and a linear drift", "statement": "If in a series of the calibration the conductivity of the mapped salinity is the same multiple k of the conductivity of the measured one wherever it is known, a calibration without given breakpoints that completes assigns k to every profile of the series, with derivative 0, whatever the errors, correlations, levels chosen and numbers of breakpoints allowed, and the calibrated salinity is the mapped one. If the multiple is a + b x with x the profile number, at most a line is allowed or more, and the effective number of samples is at least five, the factor at profile x is a + b (x + x0 - x1), where x0 is the number of the first profile with a sample and x1 of the first profile of the series: the drift is recovered exactly if the first profile has a sample, and is shifted otherwise. With fewer effective samples, or if only a constant is allowed, all profiles get the weighted mean.", "quantifier": "all floats, mappings, settings, errors, random numbers", "why_tests_cant": "Recovery of an injected drift for all data; a test injects one.", "anchors": ["pyowc/calibration.py: calc_piecewisefit", "pyowc/core/stats.py: fit_cond", "pyowc/core/finders.py: find_10thetas"]}
{"id": "C124", "title": "the calibration completes", "statement": "calc_piecewisefit completes, without any exception, for every float whose source, mapped data and settings have the same number of profiles, which has mapped data, different profile numbers, positions at sea, temperatures from -2 to 30 that reach across a tenth of a degree and differ between levels two apart, pressures that reach across 10 dbar, mapping errors that are not zero, at least one sample at the levels chosen, and settings without breakpoints that allow a constant only; and likewise if a line is allowed and two profiles have a sample.", "quantifier": "all such floats and settings, all random numbers", "why_tests_cant": "All data; tests run one float.", "anchors": ["pyowc/calibration.py: calc_piecewisefit", "pyowc/core/stats.py: fit_cond", "pyowc/core/finders.py: find_10thetas"]}
{"id": "C125", "title": "sorter in double precision", "statement": "With numbers in double precision (IEEE 754 binary64) sorter returns, for finite boundaries and ascending finite sites, for each site the number of boundaries at or below it minus one; for sites in any order one entry per site, ascending, between -1 and the number of boundaries minus one, and independent of the order of the sites.", "quantifier": "all arrays of finite doubles", "why_tests_cant": "All doubles, including neighbouring ones and both zeros.", "anchors": ["pyowc/utilities.py: sorter"]}
{"id": "C126", "title": "wrap_longitude in double precision", "statement": "In double precision, for longitudes from -360 to 360, wrap_longitude returns finite values from 0 to 400, each within 2^-45 degrees of the given longitude plus a multiple of 360, never both a value of 320 or more and one of 40 or less, and applying it again changes nothing at all. The result is in general not exactly on the meridian given (-0.1 is not).", "quantifier": "all arrays of doubles from -360 to 360", "why_tests_cant": "All doubles; values next to 0, 40, 320 and 360 matter.", "anchors": ["pyowc/utilities.py: wrap_longitude"]}
{"id": "C127", "title": "dates in double precision", "statement": "In double precision cal2dec is within 1/8 of 1e-12 of the elapsed days, lies in [0,365) and is strictly increasing in calendar order; change_dates gives dates of the years 1000 to 9999 values within 1e-12 of the decimal year, in [year, year+1), and of two dates that differ by a minute or more the later one the strictly larger value. 29 February is given exactly the value of 1 March.", "quantifier": "all pairs of dates of the years 1000 to 9999, to the minute", "why_tests_cant": "All pairs of dates with rounding; there are 5e9 minutes.", "anchors": ["pyowc/utilities.py: cal2dec", "pyowc/utilities.py: change_dates"]}
{"id": "C128", "title": "the 25 boxes in double precision", "statement": "In double precision find_25boxes returns, for longitudes from 0 up to 360 and latitudes from -70.01 to 69.99 whose distance to an edge of a box less 0.01 degrees is more than 1e-12 degrees, 25 different boxes: the one around the float and its neighbours up to two columns and rows away. This does not hold at the edges less 0.01 degrees: for a float at 39.99 E only 20 different boxes are returned, the column 20 degrees to the west is missing and the next one is returned twice.", "quantifier": "all such positions as doubles, all tables of 648 rows", "why_tests_cant": "All doubles; the failing positions are single values.", "anchors": ["pyowc/core/finders.py: find_25boxes", "pyowc/core/finders.py: nearest_neighbour"]}
{"id": "C129", "title": "covariances in double precision", "statement": "In double precision, for any implementation of exp and sin, the covariance matrix of covar_xyt_pv with the two sets of points exchanged is bit for bit the transposed one, also with infinite or missing coordinates and with the PV option. Without the PV option, for finite coordinates and scales that are not zero and an exp that is between 0 and 1 for arguments that are not positive and 1 at zero, every entry is a number between 0 and 1, and exactly 1 for a point and itself.", "quantifier": "all points and scales as doubles, all implementations of exp and sin", "why_tests_cant": "All doubles, overflow and underflow included.", "anchors": ["pyowc/core/stats.py: covar_xyt_pv"]}
{"id": "C130", "title": "distances in double precision are symmetric", "statement": "In double precision spatial_correlation and find_ellipse return bit for bit the same number, or raise the same exception, if the two points (longitude, latitude, date, potential vorticity) are exchanged; for all doubles including infinities and NaN.", "quantifier": "all doubles", "why_tests_cant": "All doubles.", "anchors": ["pyowc/utilities.py: spatial_correlation", "pyowc/core/finders.py: find_ellipse"]}
{"id": "C131", "title": "variances in double precision", "statement": "In double precision signal_variance of finite or missing salinities is never negative and never NaN; noise_variance of equal salinities is exactly zero whenever it returns. signal_variance of equal salinities is in general not zero: seven casts of salinity 34.05 have a positive variance.", "quantifier": "all arrays of fewer than 2^53 doubles", "why_tests_cant": "All doubles.", "anchors": ["pyowc/core/stats.py: signal_variance", "pyowc/core/stats.py: noise_variance"]}
{"id": "C132", "title": "nearest_neighbour in double precision", "statement": "In double precision nearest_neighbour returns the entry of a row and a column whose distances to the point are the smallest ones up to 2^-44, for axes within 512 of the point.", "quantifier": "all axes and points as doubles", "why_tests_cant": "All doubles.", "anchors": ["pyowc/core/finders.py: nearest_neighbour"]}
{"id": "C133", "title": "find_besthist in double precision", "statement": "In double precision, if find_besthist returns, the result has no repeated cast and only casts for which find_ellipse returns less than 1; it is all of them, in order, if there are at most max_casts, and otherwise has exactly max_casts elements (all but one for max_casts = 1). It is a random share of at most a third, then casts of which none is farther, by the computed large-scale separation, than any cast in neither share, then casts of which none is farther, by the computed small-scale separation, than any cast left out; NaN counts as farthest. Without the PV option it does return, for max_casts 3 or at least 5, at least one cast and scales between 2^-500 and 2^500.", "quantifier": "all doubles including infinities and NaN, fewer than 2^53 casts, all random numbers in [0,1), any sorting algorithm", "why_tests_cant": "All doubles, all random sequences; rounding can change the drawn position, the ellipse and the ranking.", "anchors": ["pyowc/core/finders.py: find_besthist", "pyowc/core/finders.py: find_ellipse", "pyowc/utilities.py: spatial_correlation"]}
{"id": "C134", "title": "A bias of the reference salinities goes unchanged into the mapped salinities", "statement": "Let two reference databases differ only by a constant added to all salinities in all files (salinity offset of the references, e.g. a change of scale), and let SAF be switched off. For each profile of the float the mapping reads the same files, selects the same casts with the same random numbers and fails in the same cases before the levels; a level is mapped with one database exactly when it is mapped with the other; and at each mapped level whose noise is positive, the objective mapping gives the same mapped potential temperature, error, noise, signal and points, and the mapped salinity plus the constant. So, if a first mapping of a float ends and every noise in its file is positive, the mapping from the biased database ends too, its file is the same in the temperatures, errors, noises, signals, profile numbers, settings and selected casts, and each mapped salinity is larger by exactly the constant wherever the sum is between 30 and 40.", "quantifier": "all databases and constants, all floats, configurations with nonzero scales and use_saf other than 1, exact inverses, all random generators, all interpolations and depths", "why_tests_cant": "Compares two whole mapping runs for all databases and constants; a test would have to choose one.", "anchors": ["pyowc/calibration.py: update_salinity_mapping", "pyowc/data/fetchers.py: get_data", "pyowc/data/fetchers.py: get_region_data", "pyowc/core/stats.py: noise_variance", "pyowc/core/stats.py: signal_variance", "pyowc/core/stats.py: covar_xyt_pv", "pyowc/data/wrangling.py: interp_climatology", "pyowc/data/wrangling.py: map_data_grid"]}
{"id": "C135", "title": "The mapping does not use the salinities to be calibrated", "statement": "If two floats differ only in the values of their salinities (and temperatures in situ), missing and infinite values being at the same places, and no frontal criterion applies (USE_SAF is not 1, or every profile is north of 30 S), then update_salinity_mapping has the same outcome for both and leaves the same files. With the frontal criterion this fails: other salinities of the float can put it on the other side of the front, and so select other reference casts (C135_frontal_criterion_refuted).", "quantifier": "all pairs of floats, databases, configurations, random generators and file systems", "why_tests_cant": "Two runs are compared for all possible values of the salinities; an influence on a tie or on the order of random numbers would show up in few inputs only.", "anchors": ["pyowc/calibration.py: update_salinity_mapping", "pyowc/data/fetchers.py: frontal_constraint_saf", "pyowc/data/wrangling.py: interp_climatology", "pyowc/core/finders.py: find_besthist"]}
{"id": "C136", "title": "A level is mapped from its own temperature and the position, date and pressures of its profile", "statement": "What is mapped at a level depends, in a run without frontal criterion, only on the position, date and pressures of its profile, on the potential temperature of the level and on whether its salinity is missing or infinite: if two floats agree in these and both mappings end, the five values in the mapped file are equal, whatever the other levels and the other profiles are. So the change of one profile changes one column of the mapped file at most. Marking salinities of a profile as missing (whatever their temperatures) never makes its calculation fail before the levels; it leaves those levels unmapped and all others as they were.", "quantifier": "all pairs of floats, levels, databases, configurations, random generators", "why_tests_cant": "A statement about pairs of runs; shared state such as the random generator or the arrays reused between levels could leak between levels and profiles.", "anchors": ["pyowc/calibration.py: update_salinity_mapping", "pyowc/data/wrangling.py: interp_climatology", "pyowc/core/finders.py: find_besthist", "pyowc/data/fetchers.py: get_region_data"]}
{"id": "C137", "title": "Around Greenwich the float and its reference casts are compared on the same side, unless all casts are on the other side", "statement": "For a float at longitude 0 to 360 and casts recorded anywhere in its five columns of boxes with longitudes from -360 to 360, the differences of longitude used by the mapping (casts after wrap_longitude, float shifted beyond 360 when needed) are the true ones exactly when it is not the case that all casts are on the other side: not (some cast west of Greenwich with a float east of it and none east), and not (some cast east of Greenwich with a float west of it and none within 40 degrees west). In this case update_salinity_mapping selects the reference casts, and maps each level, as if float and casts were given at their true places without jump at 360. If instead every cast of the 25 boxes is on the other side of Greenwich and the large longitude scale is at most 100 degrees, no cast is ever selected and the profile, hence the mapping of the float, fails although the casts can be a few degrees away.", "quantifier": "all longitudes of floats and casts, all databases, configurations without SAF, random generators, sorts and interpolations; real arithmetic", "why_tests_cant": "The faulty situation needs a float within 20 degrees of Greenwich with casts on one side only; tests use floats far from it.", "anchors": ["pyowc/calibration.py: update_salinity_mapping", "pyowc/utilities.py: wrap_longitude", "pyowc/core/finders.py: find_besthist", "pyowc/core/finders.py: find_25boxes", "pyowc/data/fetchers.py: get_region_hist_locations", "pyowc/data/fetchers.py: get_region_data"]}
{"id": "C138", "title": "A mapped level, from the casts of the database to the entries of the file", "statement": "In a run without frontal criterion, a level of a profile is mapped exactly from the reference casts found for the profile: of each cast chosen by the search that has data no deeper than the deepest pressure of the float plus MAP_P_DELTA, the salinity and pressure interpolated linearly between the two successive complete samples that enclose the potential temperature of the level and come closest to its pressure (the first, if several), provided that this pressure is less than MAP_P_DELTA away. A level with missing salinity, temperature or pressure, or with pressure less than MAP_P_EXCLUDE, or for which at most 5 casts give such a point, is not mapped. Otherwise the points are freed of outliers (three standard deviations), and if the noise estimated from those left is positive the mapped salinity and error are the two-stage best linear unbiased estimates for the float's position, date and depth from them, the mapped temperature is that of the level, the noise is the estimate, the signal is the variance of their salinities, and the recorded points are their positions (all in one turn). The file of a first run, for profile numbers in increasing order, has in column i and row n the values of level n of profile i: temperature, salinity if between 30 and 40, error, noise, signal; NaN if not mapped.", "quantifier": "all databases, floats at longitudes 0 to 360 with casts not all beyond Greenwich (C137), levels, configurations with nonzero scales and use_saf other than 1, exact inverses, random generators, sorts, depths", "why_tests_cant": "Composes reading, selection, interpolation, window, outliers and mapping for all databases; a test sees one file and cannot know the right value.", "anchors": ["pyowc/calibration.py: update_salinity_mapping", "pyowc/data/wrangling.py: interp_climatology", "pyowc/data/fetchers.py: get_region_data", "pyowc/core/finders.py: find_besthist", "pyowc/helper.py: process_profile_hist_variables", "pyowc/data/wrangling.py: map_data_grid"]}
{"id": "C139", "title": "The mapping of a float completes", "statement": "If no mapped file exists, the frontal criterion and the use of potential vorticity are off, the scales are not zero, MAX_CASTS is 3 or at least 5, and every profile of the float with a position and a good level lies on the map (longitude 0 to 360), with reference casts around it of which each has two complete samples or more above the limit of depth and no two successive samples of equal temperature, at least one lies inside the large ellipse, not all are on the other side of Greenwich, and at each level the salinities of the casts found have a scatter, then update_salinity_mapping raises nothing: each profile is calculated, a level is mapped when more than five of the casts found give a point there and left missing otherwise, profiles without position or good level are passed over; and, if at least one level is mapped, the file is written. (Without the conditions on the scatter, the temperatures of the samples, Greenwich and MAX_CASTS runs can fail: C88, C52, C137, C16.)", "quantifier": "all floats, databases, configurations, random generators, sorts, exact inverses and interpolations of depth that answer with numbers", "why_tests_cant": "That nothing fails anywhere in the chain of reading, search, interpolation, window, outliers, noise, covariance and storage has to be seen for all inputs meeting the conditions; a test shows one run that ends.", "anchors": ["pyowc/calibration.py: update_salinity_mapping", "pyowc/core/finders.py: find_besthist", "pyowc/data/fetchers.py: get_region_data", "pyowc/data/wrangling.py: interp_climatology", "pyowc/helper.py: process_profile_hist_variables", "pyowc/data/wrangling.py: map_data_grid", "pyowc/data/fetchers.py: get_topo_grid"]}
{"id": "C140", "title": "The mapped file names the settings with which each profile was mapped", "statement": "After a first run, for profile numbers without repetition, the mapped file has under each of the keys scale_long_large, scale_lat_large, scale_long_small, scale_lat_small, scale_phi_large, scale_phi_small, scale_age_large, scale_age_small, use_pv, use_saf, p_delta and p_exclude one entry per profile; the entry that stands at the place of a profile number in la_profile_no is the configured value of that very setting if at least one level of this profile was mapped, and NaN if none was.", "quantifier": "all floats, configurations, sorts, orders of the profile numbers, outcomes of the levels", "why_tests_cant": "A test compares the values of one configuration, where several settings may be equal, and one order of profiles.", "anchors": ["pyowc/calibration.py: update_salinity_mapping"]}
{"id": "C141", "title": "What the mapping does not depend on: the random generator, MAX_CASTS while it is not reached, MAP_P_EXCLUDE for the levels below", "statement": "The outcome of update_salinity_mapping and the file it leaves do not depend on the state in which the profiles find numpy's global random generator. If no profile has more reference casts inside its large ellipse than MAX_CASTS, they do not depend on the generator, the seeding and the order of equal elements in sorting at all, and any other MAX_CASTS not smaller than the numbers of casts gives the same. Changing MAP_P_EXCLUDE neither makes nor avoids a failure of a profile before its levels; levels above the new limit are left out and each level below both limits has the same outcome.", "quantifier": "all floats, databases, configurations, with or without frontal criterion and vorticity, in every arithmetic", "why_tests_cant": "Two runs are compared for all generators; in a test the generator is one, and its influence would appear only through the selection of casts.", "anchors": ["pyowc/calibration.py: update_salinity_mapping", "pyowc/core/finders.py: find_besthist", "pyowc/core/finders.py: find_ellipse"]}
{"id": "C142", "title": "Interpolation of the climatology in double precision", "statement": "In IEEE double precision, if all complete samples and float levels are within the range of the sea (salinities and temperatures up to 64 in size, pressures up to 16384; temperatures zero or not below 2^-400 in size), every result of interp_climatology is, at a station, the linear interpolation between two successive complete samples of different temperature that enclose the temperature of the level, with an error of at most 1e-12 in salinity and 1e-10 in pressure; no other such pair has an interpolated pressure closer to that of the level by more than 2e-10; if the salinities of the two samples are within a factor of two of each other the result lies between them. NaN is returned exactly if no pair encloses the temperature or the level is not complete. The cases that raise an error are those of exact arithmetic (C52). The interpolated pressure, in contrast, can lie outside those of all samples of the station.", "quantifier": "all arrays of doubles of equal shape within the range, all float levels", "why_tests_cant": "Rounding errors of all doubles cannot be enumerated; underflow of the product in the test for a change of sign and overflow have to be excluded for all of them.", "anchors": ["pyowc/data/wrangling.py: interp_climatology", "pyowc/data/wrangling.py: calculate_interpolation_weights", "pyowc/data/wrangling.py: interpolate_values", "pyowc/data/wrangling.py: find_sign_changes_in_columns"]}
{"id": "C143", "title": "The plot of the chosen levels", "statement": "t_s_profile_plot completes exactly if, for each profile, salinity, temperature and pressure have equally many levels and the variances are as many as the temperatures they belong to. It saves one file, with four panels: the variances against temperature (upper left), salinity against temperature of each profile (upper right), both with a line at each chosen temperature, and temperature and salinity of each profile against minus pressure (lower left and right) with a line at minus each chosen pressure; whether or not show closes figures.", "quantifier": "all arrays, levels, names, in every arithmetic", "why_tests_cant": "A test that draws the plot does not see what is in it.", "anchors": ["pyowc/plot/plots.py: t_s_profile_plot"]}
{"id": "C144", "title": "Mapping a level under changes of order, unit, origin and hemisphere", "statement": "For a level with more than five reference points and positive noise: the mapped salinity, error, noise and signal do not depend on the order of the reference casts, provided that casts equally near to a third one, and nearest to it, have the same salinity; without this the order matters, since the noise is estimated from the first of the nearest casts (C144_order_refuted: the same six casts give noise 1/6 in one order and 1/12 in the other). If all salinities s are replaced by a*s+c with a not 0, the mapped salinity v becomes a*v+c, the error is multiplied by |a|, noise and signal by a^2. Counting all longitudes, or all dates, from another origin changes nothing but the recorded longitudes. Reflecting all latitudes at the equator changes nothing but the recorded latitudes (with the vorticity option, if no position is on the equator).", "quantifier": "all sets of points, float positions, scales, units, origins; exact inverses; real arithmetic", "why_tests_cant": "Relations between two runs for all inputs; tests compare single outputs with recorded values.", "anchors": ["pyowc/calibration.py: update_salinity_mapping", "pyowc/core/stats.py: noise_variance", "pyowc/core/stats.py: signal_variance", "pyowc/core/stats.py: covar_xyt_pv", "pyowc/data/wrangling.py: map_data_grid", "pyowc/helper.py: remove_statical_outliers"]}
{"id": "C145", "title": "The error of a fitted line", "statement": "When fit_cond returns a straight line, the error it gives at each distinct position u is the root of the mean, over the random draws, of the squared line fitted to noise alone (each sample's error times the number drawn for it), times a factor for correlated samples. The draws are nloops (200 unless given) vectors of one number per valid sample, taken one after the other, and nothing else is drawn. The fitted line at any position is a fixed combination of the values, and the lines through the noise use the same combination, at the position moved as in C79. For uncorrelated samples the factor is 1. Otherwise it is not the ratio of the variances of the line with and without correlation (C145_factor_is_ratio_of_variances_refuted: two samples with unit errors and correlation 1/2 give 3/4 at the second sample, where the ratio is 1).", "quantifier": "all samples, errors, correlation matrices for which the factor is not negative, options, random generators; exact linear algebra; real arithmetic", "why_tests_cant": "The error depends on random draws and on every sample; tests compare with recorded values within a wide tolerance.", "anchors": ["pyowc/core/stats.py: fit_cond", "pyowc/core/stats.py: brk_pt_fit"]}
{"id": "C146", "title": "Only the reference casts in the large ellipse matter", "statement": "In a run without vorticity and without frontal criterion, for a profile with at most MAX_CASTS reference casts in the ellipse around it whose half axes are three times the large scales, a level is mapped from these casts, all of them and no others, as in C138, and the depth of the sea does not enter. Two databases that have the same casts in the ellipse, in the same order, give the same mapped temperature, salinity, error, noise and signal of the level, however different they are elsewhere in the 25 boxes; the recorded points differ by a whole turn at most.", "quantifier": "all databases, floats at longitudes 0 to 360 with casts not all beyond Greenwich (C137), levels with positive noise, configurations with nonzero scales, exact inverses, random generators, sorts, depths", "why_tests_cant": "Relates runs on all pairs of databases; a test sees one database.", "anchors": ["pyowc/calibration.py: update_salinity_mapping", "pyowc/core/finders.py: find_besthist", "pyowc/core/finders.py: find_ellipse", "pyowc/data/fetchers.py: get_region_data"]}
{"id": "C147", "title": "How large and how small the error of a mapped level is", "statement": "map_data_grid with noise variance nv > 0 and signal variance sv from n casts: its squared error lies between nv/n and 2*sv + nv/n; its value v satisfies nv*(v - mean)^2 <= 2*n*sv*var, mean and var being those of the salinities; the values mapped at the casts have the mean of the salinities, and the residuals scatter no more than the salinities. Hence a level mapped from n points (after outliers) with recorded noise nv > 0 and signal sv has a squared error between 2*nv/n and 4*sv + 2*nv/n (never zero, however many casts agree), and a salinity v with nv*(v - mean)^2 <= 8*n*sv^2.", "quantifier": "all casts, positions, scales (with and without vorticity), salinities, variances with positive noise, exact inverses", "why_tests_cant": "Bounds over all geometries of casts, of numbers computed through matrix inverses.", "anchors": ["pyowc/data/wrangling.py: map_data_grid", "pyowc/calibration.py: update_salinity_mapping", "pyowc/core/stats.py: noise_variance", "pyowc/core/stats.py: signal_variance"]}
{"id": "C148", "title": "Which prescribed break points are accepted", "statement": "With break points in the settings and a limit (one number) for each series: fewer rows of break points than series raise IndexError; otherwise, if the number of rows is not that of the series, if a row has more finite entries than the limit of its series, or if the number of limits is wrong, a file is saved in which everything is missing, with no error; and break points that fit always raise. A single limit holds for all series; entries that are not finite do not count. So no choice of break points leads to a calibration, and a file is saved exactly when the break points are refused.", "quantifier": "all settings with break points, at least one flagged profile and one limit per series, all sources, mapped files, generators and numerical routines (with C_from_SP of NaN being NaN)", "why_tests_cant": "All combinations of numbers of rows, paddings and limits; no test of the repository calibrates with prescribed break points (only fit_cond is called with some).", "anchors": ["pyowc/calibration.py: calc_piecewisefit", "pyowc/core/stats.py: fit_cond"]}
{"id": "C149", "title": "What the fit of a calibration series is given", "statement": "When a calibration without break points completes, the factors saved for a series whose profile numbers ascend are the values, at the numbers of the profiles, of a fit whose input is: ten samples for each profile of the series, in the order of the profiles, with the number of the profile as position; the samples of a profile stand at the levels that find_10thetas, given the columns of this series and the windows of the settings, chose for that very profile, in its order, first the levels chosen and then nothing; the value is the conductivity of the mapped salinity over that of the measured one at that level (both at the measured potential temperature and pressure 0), the error is 100 times the change of the mapped conductivity under a hundredth of the mapping error, over the measured conductivity; and the covariances are those of build_cov for the potential temperatures at the same places and the coordinates of the same profiles.", "quantifier": "all sources, mapped files, settings without break points, series and numerical routines (with C_from_SP of NaN being NaN)", "why_tests_cant": "Any number of series, profiles and levels with any pattern of missing samples; a test compares the results of one float, in which levels taken from another profile may differ by little.", "anchors": ["pyowc/calibration.py: calc_piecewisefit", "pyowc/core/finders.py: find_10thetas", "pyowc/core/stats.py: build_cov", "pyowc/core/stats.py: fit_cond"]}
