{"id": "C01", "title": "Constant baseline follows the signal when dry", "statement": "baseline_constant returns an array of the same length as trsl whose first n_average_last_dry values are the first values of trsl, and whose value at every later dry time step is exactly trsl there.", "quantifier": "every trsl and wet array of equal length, every n_average_last_dry >= 1, every time step", "why_tests_cant": "the output at a step depends on the whole history of wet/dry transitions; tests sample a few histories of one length", "anchors": ["pycomlink/processing/baseline.py:baseline_constant", "pycomlink/processing/baseline.py:_numba_baseline_constant"]}
{"id": "C02", "title": "Constant baseline is frozen at the pre-event mean during a wet event", "statement": "For a wet event that starts at step s >= n_average_last_dry, baseline_constant is, at every step of that event, the mean of the n_average_last_dry baseline values immediately before s; the value is the same for the whole event. In float64 it is within 4 units in the last place per averaged value of the exact mean of those values.", "quantifier": "every signal, every wet/dry sequence, every event position and length, every averaging length", "why_tests_cant": "events of unbounded length and number; averaging windows overlap earlier events", "anchors": ["pycomlink/processing/baseline.py:_numba_baseline_constant"]}
{"id": "C03", "title": "NaN in wet is treated as wet by the constant baseline (documentation says NaN output)", "statement": "The documentation of baseline_constant promises NaN in the baseline where (and after) wet is NaN. In the code a NaN in wet is converted to True first, so the result is the same as if the NaN had been a wet flag, and no NaN is produced from NaN-free trsl.", "quantifier": "every signal and every wet array, with NaNs at any positions", "why_tests_cant": "the claim is about every placement of NaNs in wet", "anchors": ["pycomlink/processing/baseline.py:baseline_constant"]}
{"id": "C04", "title": "Constant baseline is causal and range-preserving", "statement": "baseline_constant at step i depends only on trsl and wet up to step i, and (exact arithmetic) stays within any interval that contains all trsl values. In binary64 this still holds for n_average_last_dry of 1 or 2, but not for 3: with a constant level of 50.7 dB the baseline of a wet step is larger than the level; in general the baseline at step i leaves the interval by at most i times n_average_last_dry times 2^-50 of the largest level.", "quantifier": "every pair of inputs that agree up to step i; every finite signal", "why_tests_cant": "a relational property over all pairs of input histories", "anchors": ["pycomlink/processing/baseline.py:_numba_baseline_constant"]}
{"id": "C05", "title": "Linear baseline is the straight line across each completed wet period", "statement": "For a wet period without NaN enclosed by dry steps d and e, baseline_linear at d..e is the linear interpolation between rsl[d] and rsl[e], and therefore (exact arithmetic) lies between the two; at dry steps not next to a NaN wet period it equals rsl. Rounding does not spoil this: in binary64 the values of a wet period rise or fall monotonically between the two dry levels if these are at most 2^53 in size and equal or at least 2^-53 apart; for differences that underflow they can overshoot.", "quantifier": "every signal, every wet/dry sequence, every completed wet period", "why_tests_cant": "the slice assignment depends on the positions of two unbounded-distance transitions", "anchors": ["pycomlink/processing/baseline.py:baseline_linear", "pycomlink/processing/baseline.py:_numba_baseline_linear"]}
{"id": "C06", "title": "Linear baseline leaves zeros in a wet period that reaches the end of the series", "statement": "baseline_linear is documented to give the baseline during wet periods; if the series ends while wet, all steps after the last dry one are 0.0, whatever rsl is.", "quantifier": "every signal and wet sequence with an unfinished wet period", "why_tests_cant": "holds for every length of the trailing period; the repo tests only completed events", "anchors": ["pycomlink/processing/baseline.py:_numba_baseline_linear"]}
{"id": "C07", "title": "NaN handling of the linear baseline", "statement": "With ignore_nan=False the whole completed wet period containing a NaN wet flag (a NaN flag counts as wet) gets NaN; with ignore_nan=True the result equals the one obtained from the wet series in which every NaN is replaced by the previous state, so it contains no NaN for finite rsl in exact arithmetic.", "quantifier": "every signal and every placement of NaNs in wet, both settings of ignore_nan", "why_tests_cant": "every placement of NaNs; two-run relational claim", "anchors": ["pycomlink/processing/baseline.py:baseline_linear", "pycomlink/processing/baseline.py:_numba_baseline_linear"]}
{"id": "C08", "title": "The impossible branch of the linear baseline is impossible", "statement": "baseline_linear never raises on non-empty inputs of equal length: for every input, including NaN wet flags, one of the three handled wet/dry cases applies, and the branch that writes a NaN inside a dry period is never taken.", "quantifier": "every reachable loop state", "why_tests_cant": "unreachability of a branch over all executions cannot be shown by running some of them", "anchors": ["pycomlink/processing/baseline.py:_numba_baseline_linear"]}
{"id": "C09", "title": "Gap markers are exactly the below-threshold neighbours of NaN (cyclically)", "statement": "get_blackout_start_and_end marks step i as gap start iff rsl[i] < threshold and the cyclically next value is NaN, and as gap end iff rsl[i] < threshold and the cyclically previous value is NaN. Hence a series that starts with NaN can have its last sample marked as gap start although no gap follows it.", "quantifier": "every series and threshold, NaNs and infinities included", "why_tests_cant": "every placement of NaNs and every length, including the wrap-around at both ends", "anchors": ["pycomlink/processing/blackout_gap_detection.py:get_blackout_start_and_end"]}
{"id": "C10", "title": "The blackout mask marks NaN runs entered from a low sample, unless that sample also ends a gap", "statement": "Using the markers of get_blackout_start_and_end, created_blackout_gap_mask_from_start_end_markers marks a step iff it is NaN and the NaN run containing it directly follows a value below the threshold whose cyclically previous value is not NaN. The simpler documented reading (every NaN run entered from below the threshold is marked) is refuted: a lone low sample between two gaps, or a low first sample when the last sample is NaN, suppresses the following gap.", "quantifier": "every series, every run position and length, every threshold", "why_tests_cant": "run lengths and positions are unbounded", "anchors": ["pycomlink/processing/blackout_gap_detection.py:created_blackout_gap_mask_from_start_end_markers", "pycomlink/processing/blackout_gap_detection.py:get_blackout_start_and_end"]}
{"id": "C11", "title": "Forward plus reversed blackout mask: exact characterisation", "statement": "The documented usage (notebook: mask of the series OR mirrored mask of the mirrored series with swapped, mirrored markers) never raises and marks a step iff it lies in a NaN run that either follows a low value whose cyclic predecessor is not NaN, or precedes a low value whose cyclic successor is not NaN. Refuted: that every NaN run with a low value on either (even on both) sides is marked.", "quantifier": "every series and threshold", "why_tests_cant": "unbounded run lengths; relational between the series and its mirror image", "anchors": ["pycomlink/processing/blackout_gap_detection.py:created_blackout_gap_mask_from_start_end_markers", "docs/notebooks/Blackout gap detection examples.ipynb"]}
{"id": "C12", "title": "Mask never marks valid data, for any markers", "statement": "Whatever marker arrays are passed, created_blackout_gap_mask_from_start_end_markers only marks steps whose rsl is NaN, and a step in a NaN run is marked iff the most recent decisive event before or at it in the scan is a start marker.", "quantifier": "every series and every pair of marker arrays", "why_tests_cant": "arbitrary, even inconsistent, markers", "anchors": ["pycomlink/processing/blackout_gap_detection.py:created_blackout_gap_mask_from_start_end_markers"]}
{"id": "C13", "title": "Schleiss WAA is bounded by the attenuation and by waa_max", "statement": "waa_schleiss_2013 on equally long series returns 0 at the first step; at every later step with a non-NaN attenuation the WAA is the least of rsl-baseline, waa_max and (only if wet==1) the relaxed previous value, ignoring NaN candidates; it raises (ZeroDivisionError) iff tau is 0 and some step after the first is wet.", "quantifier": "all float64 series (NaN/inf included), all wet series, all parameters", "why_tests_cant": "the value is a recursion over the whole history", "anchors": ["pycomlink/processing/wet_antenna.py:waa_schleiss_2013", "pycomlink/processing/wet_antenna.py:_numba_waa_schleiss_2013"]}
{"id": "C14", "title": "Schleiss WAA: NaN in the data does not spread in time", "statement": "The WAA at a step i>=1 is NaN exactly when rsl[i]-baseline[i] is NaN; NaNs at earlier steps do not make later steps NaN.", "quantifier": "all float64 series with NaNs anywhere, all parameters", "why_tests_cant": "NaN propagation through a recursion for every NaN placement", "anchors": ["pycomlink/processing/wet_antenna.py:_numba_waa_schleiss_2013"]}
{"id": "C15", "title": "Schleiss WAA rises monotonically and exponentially during a wet period", "statement": "In exact arithmetic, with 0 < 3*delta_t/tau <= 1 and attenuation at least waa_max >= 0 during a wet period after a step with WAA w0, the WAA k steps later is waa_max - (waa_max - w0)*(1-3*delta_t/tau)^k: nondecreasing and never above waa_max. In binary64, for any delta_t >= 0 and tau > 0, the WAA of a wet step is not below that of the step before and not above waa_max or the attenuation, provided the WAA before is not above either; so it never falls during a wet period with attenuation >= waa_max.", "quantifier": "all period lengths k and parameter values in the stated range", "why_tests_cant": "unbounded number of steps", "anchors": ["pycomlink/processing/wet_antenna.py:_numba_waa_schleiss_2013"]}
{"id": "C16", "title": "Pastorek WAA range, monotonicity and zero at zero rain", "statement": "In exact arithmetic waa_pastorek_2021 maps rain rates R>=0 into [0, A_max), is strictly increasing in R, and is exactly 0 for R=0 (A_max, d, zeta > 0). In binary64, with a math library whose pow and exp are monotone, the values lie in [0, A_max] and never decrease in R.", "quantifier": "all rain rates and all positive parameters", "why_tests_cant": "continuum of inputs", "anchors": ["pycomlink/processing/wet_antenna.py:waa_pastorek_2021"]}
{"id": "C17", "title": "WAA from observed attenuation never exceeds the observation", "statement": "In exact arithmetic waa_pastorek_2021_from_A_obs rejects any negative observation with ValueError and any observation above the table's end with ValueError; otherwise it returns values between 0 and A_obs, nondecreasing in A_obs, with 0 at 0, such that A_obs - WAA is also nondecreasing. In float64, with a power and an exponential that are monotone, the same arrays are rejected and the others answered: NaN for NaN, 0 for 0, and up to 2^-39 dB every value is between 0 and the smaller of A_obs and A_max and nondecreasing in A_obs.", "quantifier": "all arrays of observed attenuation, all link lengths and positive power-law and WAA parameters; in float64 A_max up to 1024 dB", "why_tests_cant": "continuum of inputs; composition of the k-R inversion, the WAA model and a 100-point lookup table", "anchors": ["pycomlink/processing/wet_antenna.py:waa_pastorek_2021_from_A_obs"]}
{"id": "C18", "title": "calc_R_from_A accepts exactly the two documented parameter combinations", "statement": "calc_R_from_A raises ValueError unless exactly (f_GHz and pol) or exactly (a and b) are given.", "quantifier": "all 16 combinations of given/missing parameters, all values", "why_tests_cant": "every combination with every value of the others", "anchors": ["pycomlink/processing/k_R_relation.py:calc_R_from_A"]}
{"id": "C19", "title": "Rain rates are NaN exactly at NaN attenuation, otherwise 0 or at least R_min", "statement": "The result of calc_R_from_A has the length of A; an entry is NaN iff A is NaN there (positive a, b, L); negative attenuation gives exactly 0; every other entry is 0 or >= R_min and never negative.", "quantifier": "all float64 attenuation arrays, all positive a, b, L and all R_min", "why_tests_cant": "NaN/threshold/negative cases interact at every element and every float value", "anchors": ["pycomlink/processing/k_R_relation.py:calc_R_from_A"]}
{"id": "C20", "title": "calc_R_from_A inverts the power law A = a R^b L", "statement": "In exact arithmetic, for R >= R_min > 0 (or R = 0), calc_R_from_A(a*R**b*L, L, a, b, R_min) = R; for 0 < R < R_min it returns 0. In float64, if the attenuation is that of R up to a relative error d, the result is R up to a relative error of 1.1 d/b plus the error of pow plus 2^-48 (or 0 if R is within that of R_min or below).", "quantifier": "all rain rates R >= 0 and all positive a, b, L, R_min", "why_tests_cant": "continuum of inputs; float tests only approximate", "anchors": ["pycomlink/processing/k_R_relation.py:calc_R_from_A"]}
{"id": "C21", "title": "Rain rate is nondecreasing in attenuation", "statement": "calc_R_from_A is nondecreasing in A elementwise, for non-NaN A, positive a, b, L (exact arithmetic; and for float64 given a monotone pow).", "quantifier": "all pairs of attenuation values", "why_tests_cant": "a relational property over a continuum", "anchors": ["pycomlink/processing/k_R_relation.py:calc_R_from_A"]}
{"id": "C22", "title": "a_b rejects out-of-range frequency, bad polarisation, shape mismatch and unknown table", "statement": "a_b raises ValueError if any frequency is below 1 or above 100 GHz, if any polarisation is not one of the eight spellings, if shapes differ, or if approx_type is unknown; otherwise it returns arrays of the input length.", "quantifier": "all frequency arrays, polarisation arrays and approximation names", "why_tests_cant": "unbounded arrays with the offending element anywhere", "anchors": ["pycomlink/processing/k_R_relation.py:a_b"]}
{"id": "C23", "title": "a_b picks the horizontal or vertical ITU coefficients elementwise", "statement": "For accepted inputs a_b returns at each position the interpolated k_H/alpha_H for an h-spelling and k_V/alpha_V for a v-spelling, at that position's frequency; at a tabulated frequency it returns exactly the table entries of that column.", "quantifier": "all arrays mixing polarisations and frequencies, both tables", "why_tests_cant": "all positions, mixtures and all table columns", "anchors": ["pycomlink/processing/k_R_relation.py:a_b", "pycomlink/processing/k_R_relation.py:ITU_table_2005", "pycomlink/processing/k_R_relation.py:ITU_table_2003"]}
{"id": "C24", "title": "The ITU coefficients are positive over the whole accepted range", "statement": "The cubic interpolants of the ITU tables used by a_b (interp1d kind='cubic', i.e. the not-a-knot spline) are strictly positive for every frequency from 1 to 100 GHz, so calc_R_from_A never divides by zero or takes a root of a negative number for an accepted frequency.", "quantifier": "every real frequency in [1,100], both polarisations", "why_tests_cant": "continuum of frequencies: a cubic interpolant can undershoot between table nodes", "anchors": ["pycomlink/processing/k_R_relation.py:a_b", "pycomlink/processing/k_R_relation.py:ITU_table_2005", "pycomlink/processing/k_R_relation.py:ITU_table_2003"]}
{"id": "C25", "title": "Min/max rain retrieval is the power-law retrieval scaled by 1/(ln k + gamma)", "statement": "In exact arithmetic calc_R_from_A_min_max with R_min=0 equals calc_R_from_A (same a, b, L) divided by ln(k)+0.57721566 at every non-NaN entry, is 0 for negative attenuation and NaN exactly at NaN. In binary64 and for any R_min it equals calc_R_from_A with the coefficient a (ln k + 0.57721566)^b. Without f_GHz a missing a or b raises TypeError; with f_GHz given a and b are ignored.", "quantifier": "all attenuation arrays, a, b, L and k (exact part: positive a, b, L and k >= 1)", "why_tests_cant": "continuum of inputs", "anchors": ["pycomlink/processing/k_R_relation.py:calc_R_from_A_min_max"]}
{"id": "C26", "title": "Min/max attenuation is non-negative after the first window of NaN", "statement": "_calc_A_min_max returns an array of the input length whose first `window` entries are NaN and whose entry i>=window is the positive part of Ac_max[i] minus the minimum of Ac_min over the window+1 steps ending at i, hence never negative. A negative window is always refused: ValueError, or IndexError if it is longer than the series.", "quantifier": "all series lengths (also shorter than the window), all integer windows, all float64 data", "why_tests_cant": "sliding windows over unbounded series", "anchors": ["pycomlink/processing/min_max.py:_calc_A_min_max"]}
{"id": "C27", "title": "Missing min/max samples are replaced by the rounded mean and never leak NaN", "statement": "In exact arithmetic, if at least one sample of each bias-corrected series is a number and none is infinite, no entry after the first window is NaN: NaNs are replaced by the mean of the non-NaN values rounded half-to-even. In float64, for levels and gains up to 1024 in size and up to 2^20 steps, the fill value is an integer within 1/2 + 2^-18 of the exact mean and each entry after the first window is the rounded positive difference, never NaN.", "quantifier": "all NaN placements", "why_tests_cant": "every placement of NaNs", "anchors": ["pycomlink/processing/min_max.py:_calc_A_min_max"]}
{"id": "C28", "title": "The reference level is a median of recent dry levels", "statement": "nearby_determine_reference_level at step t is NaN if fewer than min_periods of the last n_average_dry steps (fewer at the start) are dry with non-NaN mean level; otherwise it is the median of exactly those values of (pmin+pmax)/2, so it lies between their minimum and maximum. With float64 rounding too it lies between any two bounds of pmin and pmax at those steps, as long as twice a bound does not overflow. Steps with NaN wet are not dry.", "quantifier": "all series, windows and min_periods", "why_tests_cant": "every window position, every NaN/wet placement", "anchors": ["pycomlink/processing/nearby_rain_retrival.py:nearby_determine_reference_level"]}
{"id": "C29", "title": "Corrected signal levels never exceed the reference and are untouched only in wet attenuated steps", "statement": "nearby_correct_received_signals: p_c_min is pmin exactly when wet==1 and pmin<pref, otherwise pref; p_c_max is pmax exactly when additionally pmax<pref, otherwise pref; hence both are <= pref wherever pref is not NaN.", "quantifier": "all float64 series including NaN", "why_tests_cant": "all NaN combinations of four inputs at every step", "anchors": ["pycomlink/processing/nearby_rain_retrival.py:nearby_correct_received_signals"]}
{"id": "C30", "title": "Nearby rain rate is non-negative and between the min and max rain rates", "statement": "In exact arithmetic nearby_rainfall_retrival yields, for alpha in [0,1], positive a, b, length, a value between the rain rates from p_c_max and p_c_min, which is >= 0; entries with F <= threshold are NaN; entries with NaN F are kept. In float64, for moderate levels and an accurate power function, it is a non-negative number that equals alpha times the max rate plus (1 - alpha) times the min rate up to a relative error of 2^-28; it can exceed both rates by rounding. Any combination of f_GHz, pol, a, b other than exactly (f_GHz, pol) or exactly (a, b) raises ValueError. Without a threshold the F array has no influence; with a threshold an F array whose length differs from the series raises IndexError.", "quantifier": "all series and parameters in range", "why_tests_cant": "continuum of inputs", "anchors": ["pycomlink/processing/nearby_rain_retrival.py:nearby_rainfall_retrival"]}
{"id": "C31", "title": "No rain is retrieved outside wet steps; missing data is reported as zero rain", "statement": "Running the three nearby steps in sequence, every step that is not classified wet (wet != 1, NaN included) and every step with missing pmin gets rain rate 0 whenever the reference level is a number, waa_max >= 0 and the F filter does not apply. So missing data is reported as zero rain, not as missing.", "quantifier": "all series and parameters", "why_tests_cant": "composition of three functions over all NaN placements", "anchors": ["pycomlink/processing/nearby_rain_retrival.py:nearby_rainfall_retrival", "pycomlink/processing/nearby_rain_retrival.py:nearby_correct_received_signals", "pycomlink/processing/nearby_rain_retrival.py:nearby_determine_reference_level"]}
{"id": "C32", "title": "The neighbour relation is reflexive and symmetric", "statement": "With distances from calc_distance_between_cml_endpoints and any radius > 0, every link is within its own radius (whatever its length), and link i is a neighbour of j iff j is a neighbour of i.", "quantifier": "all link networks and radii", "why_tests_cant": "all pairs of links with arbitrary coordinates", "anchors": ["pycomlink/processing/wet_dry/nearby_wetdry.py:calc_distance_between_cml_endpoints", "pycomlink/processing/wet_dry/nearby_wetdry.py:nearby_wetdry"]}
{"id": "C33", "title": "Wet classification values and unclassified links", "statement": "nearby_wetdry returns only 0, 1 or NaN; for a link with at most min_links links in radius (itself included) everything is NaN in both outputs; and at a time step where at most min_links neighbours have data the result is NaN.", "quantifier": "all networks, series and thresholds", "why_tests_cant": "all networks and all NaN placements", "anchors": ["pycomlink/processing/wet_dry/nearby_wetdry.py:nearby_wetdry"]}
{"id": "C34", "title": "Wet classification rule away from the series ends", "statement": "For a link with enough neighbours, at a step t with 1 <= t and t+2 < length whose medians are numbers, wet is 1 iff the median rule (median deltaP and median deltaP/L below their thresholds) holds at t or holds together with the link's own deltaP < -2 at t-1, t+1 or t+2.", "quantifier": "all networks, series, thresholds and interior time steps", "why_tests_cant": "a time-neighbourhood rule at every step", "anchors": ["pycomlink/processing/wet_dry/nearby_wetdry.py:nearby_wetdry"]}
{"id": "C35", "title": "The first and the last two steps are always classified wet", "statement": "At the first step and at the last two steps of the series, a classified link is reported wet whenever its medians are numbers there, no matter how dry the data is, because the shifted condition is padded with NaN which counts as true.", "quantifier": "all networks, series and thresholds", "why_tests_cant": "must be shown for every data set; the repo's own test pins one instance without noticing", "anchors": ["pycomlink/processing/wet_dry/nearby_wetdry.py:nearby_wetdry", "pycomlink/tests/test_nearby_wetdry.py"]}
{"id": "C36", "title": "F is a complete-window sum over timeperiod*4 steps whatever the interval", "statement": "The outlier score F at a step is NaN unless the previous timeperiod*4 steps all have deltaPL and median values, and otherwise is their summed difference times interval/60; the window length does not depend on `interval`, unlike the window of max(pmin).", "quantifier": "all series and parameter values", "why_tests_cant": "all windows and intervals", "anchors": ["pycomlink/processing/wet_dry/nearby_wetdry.py:nearby_wetdry"]}
{"id": "C37", "title": "Haversine distance is symmetric, non-negative and at most half the circumference", "statement": "In exact arithmetic haversine is always defined (the term under the square roots stays in [0,1] for every real input, even latitudes outside [-90,90]), lies between 0 and 6367*pi, and does not change when the two points are swapped. In float64 swapping changes nothing either, and for points less than a quarter of the globe apart the result is a number in that range up to rounding; between opposite points it can be NaN, because the term under the root is rounded above 1.", "quantifier": "all real coordinates", "why_tests_cant": "continuum of inputs", "anchors": ["pycomlink/spatial/helper.py:haversine"]}
{"id": "C38", "title": "Haversine distance is the great-circle distance: zero only for equal points, triangle inequality", "statement": "In exact arithmetic haversine equals 6367 km times the angle between the two unit vectors of the points; it is 0 iff the unit vectors are equal and satisfies the triangle inequality. The float64 result is within 1 cm of that distance for points less than a quarter of the globe apart, given math functions accurate to a few units in the last place.", "quantifier": "all triples of points", "why_tests_cant": "continuum of inputs, relational over triples", "anchors": ["pycomlink/spatial/helper.py:haversine"]}
{"id": "C39", "title": "IDW values lie between the smallest and largest neighbour value", "statement": "In exact arithmetic an IDW result at a query point with at least one neighbour in range is a weighted mean with positive weights of the values of at most nnear nearest data points, hence between the minimum and maximum of z; it is NaN when no data point is in range. In float64 the value stays in that range up to 10 units in the last place (of the largest magnitude) per neighbour, is not negative if no neighbour value is and 0 if all are 0; it can leave the range by rounding.", "quantifier": "all data sets, query points, nnear >= 2, exponents p > 0 and maximum distances", "why_tests_cant": "continuum of inputs and unbounded data sets", "anchors": ["pycomlink/spatial/idw.py:Invdisttree", "pycomlink/spatial/idw.py:_numba_idw_loop"]}
{"id": "C40", "title": "IDW reproduces the data at data points", "statement": "At a query point closer than 1e-10 to its nearest data point IDW returns exactly that point's value.", "quantifier": "all data sets and query points", "why_tests_cant": "continuum of inputs", "anchors": ["pycomlink/spatial/idw.py:_numba_idw_loop"]}
{"id": "C41", "title": "IDW uses the nearest points only", "statement": "The neighbours used for a query point are in range, at most nnear many, and every data point not used that is in range is at least as far as every used one; the values at other points have no influence (in float64: at points that the search did not return, even NaN).", "quantifier": "all data sets and query points", "why_tests_cant": "unbounded data sets", "anchors": ["pycomlink/spatial/idw.py:Invdisttree"]}
{"id": "C42", "title": "The IDW distance cache ignores max_distance", "statement": "For any history of calls on one Invdisttree in which max_distance does not change between calls, each result equals the result of a fresh object; if max_distance changes while query points, nnear and eps stay the same, the stale neighbours of the earlier call are used.", "quantifier": "all histories of calls", "why_tests_cant": "a history property: every sequence of calls with every argument change", "anchors": ["pycomlink/spatial/idw.py:Invdisttree"]}
{"id": "C43", "title": "The grid interpolator is history independent", "statement": "For any sequence of calls on one IdwKdtreeInterpolator with unchanged settings, each call returns what a fresh interpolator would return; the reuse of the k-d tree and of the distance matrix is unobservable.", "quantifier": "all histories of calls with arbitrary x, y, z and grids", "why_tests_cant": "a history property over a two-level cache", "anchors": ["pycomlink/spatial/interpolator.py:IdwKdtreeInterpolator", "pycomlink/spatial/idw.py:Invdisttree"]}
{"id": "C44", "title": "The grid interpolator: shape, all-NaN input and NaN exclusion", "statement": "The result has the shape of the grid; if all z are NaN the result is all NaN; with exclude_nan=True points with NaN z have no influence on the result; unequal lengths of x, y, z raise AssertionError. A non-finite coordinate of a used point or of the grid, or fewer than two neighbours requested, raises ValueError; a NaN coordinate of an excluded point is harmless.", "quantifier": "all inputs", "why_tests_cant": "all NaN placements and grid shapes", "anchors": ["pycomlink/spatial/interpolator.py:PointsToGridInterpolator", "pycomlink/spatial/interpolator.py:IdwKdtreeInterpolator"]}
{"id": "C45", "title": "The generated grid encloses all data points with the requested resolution", "statement": "In exact arithmetic, when a grid has to be generated, consecutive coordinates differ by resolution, the first is min-resolution and the last lies in [max, max+resolution); ValueError if resolution is missing or there are no points. A grid is generated, and the given one ignored, also when only one of xgrid and ygrid is given.", "quantifier": "all point sets and positive resolutions", "why_tests_cant": "continuum of inputs", "anchors": ["pycomlink/spatial/interpolator.py:_parse_grid_kwargs"]}
{"id": "C46", "title": "Climatological variogram parameters", "statement": "In exact arithmetic clim_var_param returns sill >= 0, range >= 0, nugget = sill/10, depends on the date only through the day of year (which counts the days of the Gregorian year from 1); and sill and range are strictly positive for every day when time_scale_hours >= 1/60. In float64 sill, range and nugget are positive numbers with nugget <= sill for time scales from one minute to 2^20 hours, if powers are right to one part in eight and cosines lie between -1 and 1.", "quantifier": "all dates and all positive time scales", "why_tests_cant": "continuum of time scales", "anchors": ["pycomlink/spatial/interpolator.py:clim_var_param"]}
{"id": "C47", "title": "Each sample is aggregated into exactly the right bin", "statement": "aggregate_df_onto_DatetimeIndex with label='right' assigns a sample at time t inside the common period to the smallest new timestamp >= t, with label='left' to the largest new timestamp <= t; every sample of the common period that has such a timestamp inside the common period is counted in exactly one group, all others are dropped; unknown labels raise NotImplementedError.", "quantifier": "all strictly increasing index pairs and data", "why_tests_cant": "all relative positions of two unbounded time grids", "anchors": ["pycomlink/util/temporal.py:aggregate_df_onto_DatetimeIndex"]}
{"id": "C48", "title": "Aggregation conserves sums", "statement": "Aggregating with sum over all groups equals the sum over exactly the samples of the common period that have a label. In binary64 this holds for values that are multiples of a power of two (with a total of at most 2^53 units) and any summation exact for those, and fails for tenths.", "quantifier": "all data and index pairs", "why_tests_cant": "unbounded inputs", "anchors": ["pycomlink/util/temporal.py:aggregate_df_onto_DatetimeIndex"]}
{"id": "C49", "title": "A naive new_index with a non-UTC new_index_tz yields shifted labels", "statement": "If new_index is naive and new_index_tz is a zone with offset o, the samples are grouped by instants new_index - o, but the resulting labels denote the instants new_index (local clock time taken as UTC): labels are wrong by o unless o = 0.", "quantifier": "all data, indexes and offsets", "why_tests_cant": "needs the label of every group for every offset", "anchors": ["pycomlink/util/temporal.py:aggregate_df_onto_DatetimeIndex"]}
{"id": "C50", "title": "Wet/dry contingency counts add up", "statement": "calc_wet_dry_performance_metrics: N_true_wet+N_missed_wet=N_wet_reference, N_true_dry+N_false_wet=N_dry_reference, the four counts plus N_nan_pairs equal N_all_pairs, N_nan_pairs lies between the larger and the sum of the two NaN counts; unequal shapes raise AssertionError.", "quantifier": "all pairs of arrays of equal length", "why_tests_cant": "all arrays with NaNs anywhere", "anchors": ["pycomlink/validation/stats.py:calc_wet_dry_performance_metrics"]}
{"id": "C51", "title": "Wet/dry rates are complementary", "statement": "In exact arithmetic true_wet_rate+missed_wet_rate=1 if the reference has wet pairs (both NaN otherwise) and true_dry_rate+false_wet_rate=1 if it has dry pairs, each rate in [0,1]. In binary64 the same holds exactly: the two rounded rates add up to 1.0, and a rate is 1.0 only if the other count is zero.", "quantifier": "all pairs of arrays", "why_tests_cant": "all arrays", "anchors": ["pycomlink/validation/stats.py:calc_wet_dry_performance_metrics"]}
{"id": "C52", "title": "Matthews correlation range, zero rule and NaN cases", "statement": "In exact arithmetic the returned Matthews correlation is 0 when nothing is predicted wet, NaN when something is predicted wet but one marginal is zero (everything predicted wet, or the reference all wet or all dry), and otherwise lies in [-1,1]; it is never infinite, so the infinity special case is dead code. It is 1 for a perfect and -1 for a perfectly inverted prediction with both classes present. In binary64 the result is within 2^-49 of that value, but it can exceed 1 (three wet pairs and one dry pair, all predicted right) and be below 1 for a perfect prediction (two wet, one dry).", "quantifier": "all contingency tables", "why_tests_cant": "all tables", "anchors": ["pycomlink/validation/stats.py:calc_wet_dry_performance_metrics"]}
{"id": "C53", "title": "The wet threshold in the rain metrics is strict (documentation says >=)", "statement": "calc_rain_error_performance_metrics documents wet as value >= threshold, but a value equal to the threshold is counted dry: the false/missed wet rates are those of the strict comparison.", "quantifier": "all arrays and thresholds", "why_tests_cant": "all arrays with values at the threshold", "anchors": ["pycomlink/validation/stats.py:calc_rain_error_performance_metrics"]}
{"id": "C54", "title": "Rain error metrics: NaN pairs are excluded, symmetric errors and inequality MAE <= RMSE", "statement": "In exact arithmetic all metrics depend only on the pairs without NaN; 0 <= mean_absolute_error <= root_mean_square_error; both are 0 iff prediction equals reference on those pairs; |R_mean_predicted - R_mean_reference| <= mean_absolute_error; sums are N times means. In float64, for up to 2^20 valid pairs and whatever the order of summation, MAE, RMSE and the means differ from the exact values by at most 5 N, 10 N and 4 N units of relative rounding, both errors are exactly 0 for a perfect prediction, and MAE can exceed RMSE by rounding.", "quantifier": "all finite arrays with NaNs anywhere, at least one valid pair", "why_tests_cant": "Cauchy-Schwarz type claim over all arrays", "anchors": ["pycomlink/validation/stats.py:calc_rain_error_performance_metrics"]}
{"id": "C55", "title": "Deprecated wet error rates agree with the current metrics", "statement": "On NaN-free boolean arrays calc_wet_error_rates and calc_wet_dry_error return the false/missed wet rates of calc_wet_dry_performance_metrics (swapped order in calc_wet_dry_error).", "quantifier": "all boolean arrays", "why_tests_cant": "equivalence of implementations on all inputs", "anchors": ["pycomlink/validation/stats.py:calc_wet_error_rates", "pycomlink/validation/validator.py:calc_wet_dry_error"]}
{"id": "C56", "title": "Argument merging equals Python's argument binding for valid calls", "statement": "For every signature of positional-or-keyword parameters and every call Python accepts, the wrapper passes to the wrapped function exactly the binding Python would make (positional, keyword, then default, in signature order).", "quantifier": "all signatures and all valid calls", "why_tests_cant": "all signatures and argument splits", "anchors": ["pycomlink/processing/xarray_wrapper.py:_get_new_args_dict"]}
{"id": "C57", "title": "With a time dimension invalid calls are accepted silently", "statement": "If some argument has a time dimension, an unknown keyword, a parameter given both positionally and by keyword, surplus positional arguments and a missing required argument are not rejected, whereas without a time dimension Python's TypeError is raised.", "quantifier": "all signatures and calls", "why_tests_cant": "all calls", "anchors": ["pycomlink/processing/xarray_wrapper.py:xarray_apply_along_time_dim", "pycomlink/processing/xarray_wrapper.py:_get_new_args_dict"]}
{"id": "C58", "title": "Wrapped functions act independently on each time series", "statement": "On DataArrays the wrapped function's result for each combination of the other dimensions is the plain function applied to the corresponding 1-D series: equal to a loop over the series, whatever the other dimensions are. The result for the first series must have the length of the time axis; a later one may also be a single number, which is repeated; any other length is a ValueError.", "quantifier": "all stacks of series", "why_tests_cant": "all shapes", "anchors": ["pycomlink/processing/xarray_wrapper.py:xarray_apply_along_time_dim"]}
{"id": "C59", "title": "get_blackout_start_and_end cannot be used with a time dimension", "statement": "Because the wrapper declares one output, a wrapped function returning a tuple of two arrays raises ValueError for every DataArray input with a time dimension.", "quantifier": "all inputs with a time dimension", "why_tests_cant": "all inputs", "anchors": ["pycomlink/processing/xarray_wrapper.py:xarray_apply_along_time_dim", "pycomlink/processing/blackout_gap_detection.py:get_blackout_start_and_end"]}
{"id": "C60", "title": "MLP output is aligned with the input series", "statement": "mlp_wet_dry returns one row per time step; a row is NaN exactly if the 40-step window of either channel used for it is incomplete or contains a NaN, otherwise it is the model's prediction for exactly that window; unknown models raise ValueError; series shorter than the window raise ValueError.", "quantifier": "all series lengths and NaN placements, all four models", "why_tests_cant": "all window positions, off-by-one risk at both edges", "anchors": ["pycomlink/processing/wet_dry/mlp.py:mlp_wet_dry"]}
{"id": "C61", "title": "Online MLP models never look into the future", "statement": "For rg_online and rad_online the row at step t depends only on samples t-40..t of the two channels.", "quantifier": "all pairs of series that agree on t-40..t", "why_tests_cant": "relational over all inputs", "anchors": ["pycomlink/processing/wet_dry/mlp.py:mlp_wet_dry"]}
{"id": "C62", "title": "CNN predictions are stored at the end of the window they were made from", "statement": "For distinct link ids, wet_dry_1d_cnn stores at (t, link) the model output for the scaled window of that link ending at t if t >= seq_len-1 and all its values are finite, and NaN otherwise. The scaling uses, per variable, mean and deviation over the windows of all selected links. Without any valid window it raises IndexError.", "quantifier": "all data sets, sequence lengths and NaN placements", "why_tests_cant": "alignment through three functions for all shapes", "anchors": ["pycomlink/processing/tensorflow_utils/inference_utils.py:create_samples", "pycomlink/processing/tensorflow_utils/inference_utils.py:store_predictions", "pycomlink/processing/tensorflow_utils/run_inference.py:wet_dry_1d_cnn"]}
{"id": "C63", "title": "store_predictions rejects misaligned inputs and writes only addressed cells", "statement": "store_predictions raises ValueError on unequal lengths; every cell not addressed by a (time index, link id) pair stays NaN; time indices >= the number of time steps and unknown link ids are dropped; negative ones count from the end, and below minus the number of time steps they raise IndexError; for repeated addresses the last one wins.", "quantifier": "all prediction lists", "why_tests_cant": "all lists", "anchors": ["pycomlink/processing/tensorflow_utils/inference_utils.py:store_predictions"]}
{"id": "C64", "title": "Feature scaling standardises each feature and maps constants to zero", "statement": "In exact arithmetic scale_features gives each feature mean 0 and, unless the feature is constant up to scikit-learn's rounding tolerance, variance 1; a feature within that tolerance is only centred and a constant feature becomes 0; features do not influence each other.", "quantifier": "all non-empty finite inputs", "why_tests_cant": "all inputs", "anchors": ["pycomlink/processing/tensorflow_utils/inference_utils.py:scale_features"]}
{"id": "C65", "title": "The TensorFlow model cache confuses URLs with the same file name", "statement": "download_and_cache returns the content last downloaded under the URL's last path component: after downloading from one URL, a different URL with the same last component returns the other's file without downloading, unless force_download is set. In particular resolve_model_paths with two such URLs returns one file twice. A URL ending in a slash yields the cache directory. Local files are used as given, without a download.", "quantifier": "all histories of downloads", "why_tests_cant": "a history property", "anchors": ["pycomlink/processing/tensorflow_utils/inference_utils.py:download_and_cache", "pycomlink/processing/tensorflow_utils/inference_utils.py:resolve_model_paths"]}
{"id": "C66", "title": "A crash during a download leaves a file that is used forever", "statement": "Both caches treat any existing file as complete: after a download interrupted at any point after the file was created, later calls without force_download return the truncated file; without crashes a cached file always has the complete content of some download of that URL's key.", "quantifier": "all crash points and histories", "why_tests_cant": "crash points", "anchors": ["pycomlink/processing/tensorflow_utils/inference_utils.py:download_and_cache", "pycomlink/processing/pytorch_utils/inference_utils.py:download_and_cache_model"]}
{"id": "C67", "title": "Rolling windows and their target times", "statement": "rolling_window returns max(0, n-window+1) windows, window k being timeseries[k:k+window], with target time valid_times[k+window-reflength//2] when 2 <= reflength <= 2*window; reflength below 2 raises IndexError as soon as there is a window; larger reflength makes several windows share a target.", "quantifier": "all series, window sizes and reference lengths", "why_tests_cant": "all sizes", "anchors": ["pycomlink/processing/pytorch_utils/run_inference.py:rolling_window"]}
{"id": "C68", "title": "CNN (PyTorch) predictions land at the target time of their window", "statement": "For distinct times and ids and 2 <= reflength <= 2*window, the prediction stored at (time index j, link) is the model output for that link's window [j+h-window, j+h) with h = reflength//2 if that window exists, and NaN otherwise. Series shorter than the window raise RuntimeError, an empty link list and a batch size below 1 ValueError.", "quantifier": "all data sets and sizes", "why_tests_cant": "alignment through four functions", "anchors": ["pycomlink/processing/pytorch_utils/run_inference.py:batchify_windows", "pycomlink/processing/pytorch_utils/run_inference.py:run_inference", "pycomlink/processing/pytorch_utils/run_inference.py:redistribute_results", "pycomlink/processing/pytorch_utils/run_inference.py:cnn_wd"]}
{"id": "C69", "title": "Batch size does not change predictions", "statement": "For a model that acts on each sample separately, run_inference returns the same predictions for every batch_size >= 1.", "quantifier": "all batch sizes and sample counts", "why_tests_cant": "all sizes", "anchors": ["pycomlink/processing/pytorch_utils/run_inference.py:run_inference", "pycomlink/processing/pytorch_utils/pytorch_utils.py:build_dataloader"]}
{"id": "C70", "title": "Cached models are never listed", "statement": "list_cached_models with the default suffix returns no file that download_and_cache_model creates, because the suffix is used as the whole glob pattern. An empty suffix raises ValueError once the cache directory exists.", "quantifier": "all cache states", "why_tests_cant": "all cache contents", "anchors": ["pycomlink/processing/pytorch_utils/inference_utils.py:list_cached_models", "pycomlink/processing/pytorch_utils/inference_utils.py:download_and_cache_model"]}
{"id": "C71", "title": "Model source dispatch", "statement": "get_model loads from the cache for http(s) URLs, locally for names ending in .pt or containing '/', and rejects others; in particular a .pth/.pt2 file is rejected only if its path contains no '/'.", "quantifier": "all strings", "why_tests_cant": "all strings", "anchors": ["pycomlink/processing/pytorch_utils/inference_utils.py:get_model"]}
{"id": "C72", "title": "Clearing the cache forces the next download", "statement": "After clear_model_cache the next download_and_cache_model downloads again; two successful calls without clearing download once; the returned path always exists after a successful call; a subdirectory in the cache makes clearing fail.", "quantifier": "all histories of cache operations", "why_tests_cant": "a history property", "anchors": ["pycomlink/processing/pytorch_utils/inference_utils.py:clear_model_cache", "pycomlink/processing/pytorch_utils/inference_utils.py:download_and_cache_model"]}
{"id": "C73", "title": "STFT classification: missing spectra are dry and output length", "statement": "stft_classification returns one flag per rsl sample (spectrogram not longer than the series); samples without a spectrum at the two ends, and samples with NaN score, are classified dry; others are wet iff score > threshold; the score is the plain difference of the two band means because both band counts are always 1. Negative bounds of the dry period count from the end, bounds before the start mean the start.", "quantifier": "all spectrograms, thresholds and dividing frequencies", "why_tests_cant": "all sizes and NaN placements", "anchors": ["pycomlink/processing/wet_dry/stft.py:stft_classification"]}
{"id": "C74", "title": "STFT mirror mode always fails, parameter combinations are checked", "statement": "stft_classification never succeeds with mirror=True: it raises TypeError once a spectrogram was computed and UnboundLocalError if Pxx and f were supplied. It raises ValueError if Pxx is given without f or if the spectrogram has more columns than the series has samples, and otherwise AttributeError unless exactly (t_dry_start and t_dry_stop) or exactly dry_length is given.", "quantifier": "all inputs", "why_tests_cant": "all argument combinations", "anchors": ["pycomlink/processing/wet_dry/stft.py:stft_classification"]}
{"id": "C75", "title": "The dry-period finder's slice is shifted by one", "statement": "find_lowest_std_dev_period returns (stop-window, stop) where the window of lowest standard deviation covers samples stop-window+1..stop: the slice start:stop includes one sample before that window and excludes its last sample, and start is -1 when the first window is the best, in which case stft_classification(dry_length=...) classifies every sample dry. The window has the lowest standard deviation and is the first such; without any complete window IndexError is raised, for a negative window length ValueError, and with a matplotlib that has no mlab.find AttributeError.", "quantifier": "all series and window lengths", "why_tests_cant": "all series", "anchors": ["pycomlink/processing/wet_dry/stft.py:find_lowest_std_dev_period"]}
{"id": "C76", "title": "Restricting to the bounding box does not change the weighted path average", "statement": "GridValidator.get_time_series: for non-negative weights the weighted sum over the bounding box of the positive weights equals the weighted sum over the whole grid (NaN grid values count as 0), at exactly the grid times strictly between the CML's first and last time; it raises ValueError if no weight is positive.", "quantifier": "all weight matrices, grids and times", "why_tests_cant": "all matrices", "anchors": ["pycomlink/validation/validator.py:GridValidator.get_time_series"]}
{"id": "C77", "title": "Coverage mask is pointwise membership in the union of link buffers", "statement": "calc_coverage_mask returns an array of the grid's shape whose entry [i,j] is True iff the point (xgrid[i,j], ygrid[i,j]) lies in the buffer of at least one link; with more links or larger distance the mask can only grow (exact disc buffers). A ygrid with fewer points than xgrid raises ValueError, and a shapely without cascaded_union AttributeError.", "quantifier": "all grids and link sets", "why_tests_cant": "all shapes and sets", "anchors": ["pycomlink/spatial/coverage.py:calc_coverage_mask"]}
{"id": "C78", "title": "Deprecation wrapper is transparent", "statement": "A named function decorated with deprecated(...), called from Python code, returns exactly what the function returns (or raises what it raises) for all arguments; unless a filter ignores it, exactly one DeprecatedWarning naming the function and the caller's file and line is shown per call before the function runs, also for repeated calls from one line, and only the first of many with the filter action once. With the filter action error the function is not called; without __name__ or calling frame AttributeError is raised.", "quantifier": "all functions and arguments", "why_tests_cant": "all functions", "anchors": ["pycomlink/util/maintenance.py:deprecated"]}
{"id": "C79", "title": "Reading a cmlh5 file keeps every link and channel", "statement": "read_cmlh5_file_to_xarray returns one dataset per top-level group in key order, with one channel entry per subgroup in key order carrying its own tx, rx, time, frequency (GHz) and polarisation and the link's coordinates; on the joint time axis a channel has its own value at its own times and NaN elsewhere; if all channels have the same time axis it is kept as it is, otherwise the joint axis is strictly ascending. An empty file raises IndexError; a link without channels, with series of different lengths, or with different time axes one of which repeats a time raises ValueError.", "quantifier": "all files", "why_tests_cant": "all numbers of links and channels and all time axes", "anchors": ["pycomlink/io/cmlh5_to_xarray.py:read_cmlh5_file_to_xarray"]}
{"id": "C80", "title": "TensorFlow is imported at most once", "statement": "get_tf performs the import (and any installation) at most once per process however often it is called, and never installs unless auto_install or ALLOW_TF_AUTOINSTALL=1 is set.", "quantifier": "all histories of calls", "why_tests_cant": "a history property", "anchors": ["pycomlink/processing/tensorflow_utils/lazy_tf.py:get_tf"]}
{"id": "C81", "title": "A polarisation string with several frequencies is rejected by calc_R_from_A", "statement": "calc_R_from_A raises ValueError whenever pol is a single string and f_GHz has more than one element, although its docstring says the string is expanded to the shape of f_GHz (a_b itself does expand it).", "quantifier": "all attenuation arrays, all frequency arrays with at least two elements, all strings", "why_tests_cant": "universal statement about an unbounded array argument; the documented expansion is never tested through calc_R_from_A", "anchors": ["pycomlink/processing/k_R_relation.py:calc_R_from_A", "pycomlink/processing/k_R_relation.py:a_b"]}
{"id": "C82", "title": "Frequency arrays are all-or-nothing in calc_R_from_A", "statement": "With one frequency and polarisation per attenuation value (at least two), calc_R_from_A raises ValueError as soon as any single attenuation value is NaN or negative; if all are non-negative it applies the power law elementwise with that element's coefficients and the R_min cut.", "quantifier": "all lengths, all positions of the NaN or negative value, all float64 values", "why_tests_cant": "every position and every mixture in unbounded arrays", "anchors": ["pycomlink/processing/k_R_relation.py:calc_R_from_A"]}
{"id": "C83", "title": "Scalar rain rates are rejected by the wet antenna functions", "statement": "waa_pastorek_2021 with a scalar R, and waa_leijnse_2008 with scalar R and scalar f_Hz, raise TypeError although both docstrings allow scalars; one-element arrays are accepted.", "quantifier": "all scalars and all parameters", "why_tests_cant": "universal statement; tests only pass arrays", "anchors": ["pycomlink/processing/wet_antenna.py:waa_pastorek_2021", "pycomlink/processing/wet_antenna.py:waa_leijnse_2008"]}
{"id": "C84", "title": "The Leijnse wet antenna formula is 0 dB at zero rain without its guard", "statement": "In exact arithmetic, for every frequency >= 0, temperature in (0, 339] K and antenna cover with positive real and non-negative imaginary refractive index and thickness >= 0, the formula of waa_leijnse_2008 has a non-zero denominator and evaluates to exactly 0 at R=0, so the final assignment waa[R == 0] = 0 only removes rounding errors and the returned array equals the formula everywhere.", "quantifier": "all rain-rate arrays, frequencies, temperatures, film parameters and antenna covers in the stated ranges", "why_tests_cant": "algebraic identity over a continuum of complex parameters", "anchors": ["pycomlink/processing/wet_antenna.py:waa_leijnse_2008"]}
{"id": "C85", "title": "Permittivity of water is a lossy double Debye law", "statement": "In exact arithmetic, for temperatures in (0, 339] K eps_water at frequency 0 is the real static permittivity, its real part strictly decreases with frequency and stays between the high-frequency limit and the static value, and its imaginary part is positive for positive frequencies. Real part and loss are those of the published double Debye law with relaxation frequencies f1 and 39.8 f1.", "quantifier": "all frequencies and all temperatures in the range", "why_tests_cant": "continuum of inputs", "anchors": ["pycomlink/processing/wet_antenna.py:eps_water"]}
{"id": "C86", "title": "Coordinate arrays overwritten in place go unnoticed without NaN exclusion", "statement": "An Invdisttree given a float array of query points, and an IdwKdtreeInterpolator with exclude_nan=False given float arrays x and y, keep the caller's own arrays as cache key. If the caller overwrites them in place and calls again with the same arrays, the result is that of the old coordinates. With exclude_nan=True the coordinates are copied and overwriting has no effect (part of C43).", "quantifier": "all data, all overwritten coordinates", "why_tests_cant": "needs in-place modification between calls, for every history", "anchors": ["pycomlink/spatial/idw.py:Invdisttree", "pycomlink/spatial/interpolator.py:IdwKdtreeInterpolator"]}
{"id": "C87", "title": "N_all_pairs counts rows, not pairs, for multi-dimensional input", "statement": "For arrays with more than one dimension the wet/dry metrics accept the input and classify every element, but N_all_pairs (documented as the number of all reference-predicted pairs) is the length of the first dimension, so N_nan_pairs can exceed it.", "quantifier": "all arrays of every shape", "why_tests_cant": "all shapes", "anchors": ["pycomlink/validation/stats.py:calc_wet_dry_performance_metrics"]}
{"id": "C88", "title": "Pearson correlation range and special cases", "statement": "The returned pearson_correlation is NaN or lies in [-1,1] in float64. In exact arithmetic it is NaN exactly if the valid reference or predicted values are all equal, equals the Pearson coefficient otherwise, and is 1 (-1) if the prediction is an increasing (decreasing) affine function of a non-constant reference.", "quantifier": "all arrays", "why_tests_cant": "Cauchy-Schwarz over all arrays; rounding could leave the range", "anchors": ["pycomlink/validation/stats.py:calc_rain_error_performance_metrics"]}
{"id": "C89", "title": "RMSE decomposes into bias and spread", "statement": "In exact arithmetic root_mean_square_error^2 = (R_mean_predicted - R_mean_reference)^2 + (coefficient_of_variation * R_mean_reference)^2 whenever the mean reference is not zero. In binary64, for at most 2^20 pairs of rates up to 2^200, R_mean_predicted - R_mean_reference is at most mean_absolute_error and root_mean_square_error in magnitude up to rounding (a few units 2^-53 of the rates for each pair), and it can exceed mean_absolute_error by rounding.", "quantifier": "all finite arrays with NaNs anywhere and at least one valid pair", "why_tests_cant": "algebraic identity over all arrays", "anchors": ["pycomlink/validation/stats.py:calc_rain_error_performance_metrics"]}
{"id": "C90", "title": "Rain metrics with threshold 0 agree with the wet/dry metrics", "statement": "With rainfall_threshold_wet=0, false_wet_rate, missed_wet_rate and the four pair counts of calc_rain_error_performance_metrics equal those of calc_wet_dry_performance_metrics on the same arrays.", "quantifier": "all arrays", "why_tests_cant": "equivalence of two implementations on all inputs", "anchors": ["pycomlink/validation/stats.py:calc_rain_error_performance_metrics", "pycomlink/validation/stats.py:calc_wet_dry_performance_metrics"]}
{"id": "C91", "title": "Mean rain of false and missed wet pairs exceeds the threshold", "statement": "In exact arithmetic false_wet_precipitation_rate (missed_wet_precipitation_rate) is NaN if there is no false (missed) wet pair, otherwise the mean predicted (reference) rain of those pairs, which exceeds the threshold. In float64 the reported mean is within 4 units of relative rounding per pair of that mean, and need not exceed the threshold.", "quantifier": "all finite arrays with NaNs anywhere, all thresholds", "why_tests_cant": "all arrays", "anchors": ["pycomlink/validation/stats.py:calc_rain_error_performance_metrics"]}
{"id": "C92", "title": "Resampling to grid times assigns each sample to one grid interval", "statement": "GridValidator.resample_to_grid_time_series with strictly increasing (localised) grid times returns, in increasing order, exactly the grid times that own a sample, each with the mean of the non-NaN samples it owns: with label right a sample belongs to the first grid time at or after it, with label left to the last grid time at or before it, and samples beyond the ends are dropped. Any other label raises NotImplementedError; calling it before get_time_series raises AttributeError.", "quantifier": "all grid times, sample times and values", "why_tests_cant": "all placements of samples against grid times, including equality", "anchors": ["pycomlink/validation/validator.py:GridValidator.resample_to_grid_time_series"]}
{"id": "C93", "title": "The Leijnse attenuation is the loss of transmission caused by the water film", "statement": "In exact arithmetic waa_leijnse_2008 returns 10 log10(t_dry / t_wet), where t_dry and t_wet are the shares of power that a plane wave at normal incidence keeps when it passes the antenna cover alone and the cover under a water film of thickness gamma R^delta (product of the transfer matrices of the interfaces and layers). Both shares lie in (0, 1], so the logarithm is defined, and the result is never below 10 log10(t_dry): film and cover together never amplify.", "quantifier": "all rain rates, frequencies >= 0, temperatures in (0, 339] K, film parameters, antenna indices with positive real and non-negative imaginary part, and antenna thicknesses", "why_tests_cant": "continuum of complex inputs; passivity is an inequality about products of matrices", "anchors": ["pycomlink/processing/wet_antenna.py:waa_leijnse_2008", "pycomlink/processing/wet_antenna.py:eps_water"]}
{"id": "C94", "title": "Leijnse attenuation from observed attenuation stays on the table and below the observation", "statement": "In exact arithmetic, for a link between 1 and 100 GHz, waa_leijnse_2008_from_A_obs raises ValueError if some observation is negative or beyond the last table entry. Otherwise NaN stays NaN and every number x is mapped to y such that (x, y) lies on the polygon through the table points (A_rain + waa, waa), whichever interval the search finds even though the table need not be sorted; hence 0 <= x - y <= 1000: the attenuation left for rain is never negative.", "quantifier": "all arrays of observations, link lengths, polarisations, frequencies, temperatures and antenna parameters in range", "why_tests_cant": "all inputs; tables that are not sorted", "anchors": ["pycomlink/processing/wet_antenna.py:waa_leijnse_2008_from_A_obs"]}
{"id": "C95", "title": "Kriging passes exactly the valid points and the grid to pykrige", "statement": "OrdinaryKrigingInterpolator: if some z is not NaN, the pykrige call receives x, y, z (with exclude_nan only the points whose z is not NaN, in order) and the flattened grids; the returned grid is its flat result in row order, sigma is stored, and its exceptions pass through leaving sigma as it was. The z it received is stored in either case. With exclude_nan removing the NaN points beforehand changes nothing. The result of a call does not depend on earlier calls. If all z are NaN the instance is left unchanged, so sigma is still that of an earlier call.", "quantifier": "all points, grids, exclude_nan settings, call sequences and pykrige behaviours", "why_tests_cant": "call histories and an external solver with arbitrary behaviour", "anchors": ["pycomlink/spatial/interpolator.py:OrdinaryKrigingInterpolator", "pycomlink/spatial/interpolator.py:PointsToGridInterpolator.__call__"]}
{"id": "C96", "title": "Grids of integers fail exactly when there are no data", "statement": "PointsToGridInterpolator.__call__ on a grid of integers raises ValueError if all z are NaN (a NaN cannot be stored in an integer array), while the same grid as floats gives all NaN. If some z is not NaN the integer grid gives the same result as the float grid.", "quantifier": "all points and grids, every interpolation function", "why_tests_cant": "the failing combination of dtype and data is not covered by example tests", "anchors": ["pycomlink/spatial/interpolator.py:PointsToGridInterpolator.__call__"]}
{"id": "C97", "title": "id_coord of the 1D CNN only works when the link dimension is called cml_id", "statement": "tensorflow_utils wet_dry_1d_cnn raises KeyError if id_coord names nothing in the dataset. If the link dimension has another name than cml_id, the call ends in IndexError whatever id_coord and cml_ids are. With a link dimension cml_id, another coordinate passed as id_coord is used as a list of cml_id values; links that are no cml_id are skipped, and if none is left the call ends in IndexError.", "quantifier": "all datasets with one link dimension, networks, variables, sequence lengths >= 1 and link selections", "why_tests_cant": "all dimension names and selections", "anchors": ["pycomlink/processing/tensorflow_utils/run_inference.py:wet_dry_1d_cnn", "pycomlink/processing/tensorflow_utils/inference_utils.py:create_samples"]}
{"id": "C98", "title": "Predictions are merged without changing other variables; a rerun is idempotent", "statement": "With return_ds the dataset returned by tensorflow_utils wet_dry_1d_cnn has the same links, times and other variables; a new variable prob_name holds the predictions. If the variable exists, ValueError (MergeError) is raised if a stored and a new prediction are both numbers and differ, otherwise stored values are kept and NaNs are filled with new predictions. Calling it again with the same arguments on its own result gives the same dataset. Calling it again for a subset of the links can raise ValueError, because the features are then scaled differently.", "quantifier": "all datasets, networks, variables not containing prob_name and selections", "why_tests_cant": "all combinations of stored and new values; two consecutive calls", "anchors": ["pycomlink/processing/tensorflow_utils/run_inference.py:wet_dry_1d_cnn"]}
{"id": "C99", "title": "The 1D CNN result does not depend on units, but on all links and the whole period", "statement": "In exact arithmetic, replacing every value x of a variable v by a_v x + b_v with a_v > 0 (another unit or offset) does not change the result of tensorflow_utils wet_dry_1d_cnn, provided no selected feature is nearly constant before or after. The prediction of one link can change when only the values of another link change, and the prediction at a step can change when only later values change, because the features are scaled over all links and times of the call.", "quantifier": "all networks, datasets, variables, sequence lengths >= 1, selections and positive affine maps", "why_tests_cant": "an equality of two runs for all affine maps", "anchors": ["pycomlink/processing/tensorflow_utils/run_inference.py:wet_dry_1d_cnn", "pycomlink/processing/tensorflow_utils/inference_utils.py:create_samples"]}
{"id": "C100", "title": "The documented chain gives causal rain rates that are missing or >= 0, and zero when dry", "statement": "baseline_constant, waa_schleiss_2013, A = trsl - baseline - waa and calc_R_from_A applied in a row as in the workflow notebook: the chain does not raise (unless tau = 0 and a later step is wet), missing loss gives a missing rain rate, every other rain rate is missing or >= 0. If waa_max >= 0, a dry step with a finite loss gets rain rate exactly 0. Rain rates up to a step depend only on loss and flags up to that step. The notebook's step A[A < 0] = 0 never changes anything, as A is never negative; without the wet antenna correction A can be negative but the rain rates are equal with and without the step.", "quantifier": "all losses, wet flags (including NaN and values other than 0 and 1), n >= 1, waa parameters and coefficients with a*L positive and finite", "why_tests_cant": "composition of three functions over all series", "anchors": ["pycomlink/processing/baseline.py:baseline_constant", "pycomlink/processing/wet_antenna.py:waa_schleiss_2013", "pycomlink/processing/k_R_relation.py:calc_R_from_A", "docs/notebooks/Basic CML processing workflow.ipynb"]}
{"id": "C101", "title": "Wet antenna correction lowers rain rates unless the loss has dropped below the baseline", "statement": "In the chain of C100 with waa_max >= 0, delta_t >= 0, tau > 0: if the loss is not below the baseline in any step so far, the rain rate with waa_schleiss_2013 is at most the rain rate without it, and missing in the same steps. If the loss was below the baseline, the wet antenna attenuation becomes negative and a later wet step can get more rain than without correction; even a step whose loss is below the baseline can get a positive rain rate.", "quantifier": "all losses, wet flags, n >= 1, parameters and coefficients in range", "why_tests_cant": "an inequality between two float64 pipelines for all series", "anchors": ["pycomlink/processing/wet_antenna.py:waa_schleiss_2013", "pycomlink/processing/k_R_relation.py:calc_R_from_A", "pycomlink/processing/baseline.py:baseline_constant"]}
{"id": "C102", "title": "A constant offset of the received level has no effect on the nearby-link approach", "statement": "In exact arithmetic, adding to the received levels of every link a constant of its own (unknown transmit power, calibration) changes neither wet nor F of nearby_wetdry. Adding one constant to pmin and pmax of a link shifts the reference level of nearby_determine_reference_level by it, and the rain rate obtained from reference level, nearby_correct_received_signals and nearby_rainfall_retrival stays the same.", "quantifier": "all levels (including NaN and infinities), offsets per link, flags and parameters; also equal exceptions", "why_tests_cant": "an equality of two runs for all real offsets", "anchors": ["pycomlink/processing/wet_dry/nearby_wetdry.py:nearby_wetdry", "pycomlink/processing/nearby_rain_retrival.py:nearby_determine_reference_level", "pycomlink/processing/nearby_rain_retrival.py:nearby_correct_received_signals", "pycomlink/processing/nearby_rain_retrival.py:nearby_rainfall_retrival"]}
{"id": "C103", "title": "Baselines follow a constant offset of the loss, except the linear one at a wet end of the record", "statement": "In exact arithmetic, adding a constant to trsl adds it to baseline_constant and leaves the rain rate of the documented chain (C100) unchanged. baseline_linear follows the offset if the last sample is dry; if the record ends in a wet period it does not, because zeros are left there.", "quantifier": "all series, wet flags, offsets; the negative statement for every non-zero offset", "why_tests_cant": "an equality of two runs for all real offsets", "anchors": ["pycomlink/processing/baseline.py:baseline_constant", "pycomlink/processing/baseline.py:baseline_linear", "docs/notebooks/Basic CML processing workflow.ipynb"]}
{"id": "C104", "title": "Min/max attenuation ignores level offsets, but with missing data only even ones", "statement": "In exact arithmetic, adding one constant to both transmit levels and another to both received levels does not change the attenuation of _calc_A_min_max if no value is missing. With missing values this holds if the two constants differ by an even integer. An offset of 1 dB can change the attenuation then, because missing values are replaced by the mean rounded half to even.", "quantifier": "all level series, gains, windows and offsets", "why_tests_cant": "an equality of two runs for all real offsets; the rounding of ties matters", "anchors": ["pycomlink/processing/min_max.py:_calc_A_min_max"]}
{"id": "C105", "title": "The nearby-link classification depends only on the link and its neighbours, in any order", "statement": "If link i of one network and link i' of another have equal levels and length, and the neighbours of both have the same levels and lengths in any order, nearby_wetdry gives both the same wet row and the same F row (equal numbers or both NaN). So links outside the radius, their number and their data have no influence, and listing the links in another order only reorders the result.", "quantifier": "all networks with consistent sizes and non-zero lengths, all radii, thresholds and windows; binary64", "why_tests_cant": "an equality of two runs over all permutations and all distant links", "anchors": ["pycomlink/processing/wet_dry/nearby_wetdry.py:nearby_wetdry", "pycomlink/processing/wet_dry/nearby_wetdry.py:calc_distance_between_cml_endpoints"]}
{"id": "C106", "title": "In binary64 a generated grid covers the stations for integer coordinates, but not in general", "statement": "With x, y as numpy float arrays: if coordinates and resolution are integers (up to 2^50), the generated grid starts at min - resolution, advances by exactly resolution and encloses all stations. Otherwise the last grid coordinate can lie before the outermost station and the spacing differs from resolution (stations at 10 and 11, resolution 0.1), but only by rounding: with M the largest coordinate plus the resolution, at most 2^30 resolutions, coordinate i is off by at most (3i+7)*M/2^53 and the last one less than (3n+14)*M/2^53 before the outermost station; for degrees and a resolution of at least 0.001 this is less than 1e-6. Coordinates always start at the rounded min - resolution and never decrease. A NaN coordinate raises ValueError if it is the first one of x and is ignored if it comes later. No stations or a zero resolution raise ValueError.", "quantifier": "all coordinate lists and resolutions; the refutation is a concrete input", "why_tests_cant": "rounding in np.arange over all inputs", "anchors": ["pycomlink/spatial/interpolator.py:_parse_grid_kwargs"]}
{"id": "C107", "title": "Metrics do not depend on the order of pairs; exchanging reference and prediction exchanges the error types", "statement": "Reordering the pairs changes nothing in the wet/dry metrics (binary64) and nothing in the rain error metrics in exact arithmetic; in binary64 the sums depend on the order, but mean_absolute_error, root_mean_square_error, R_mean_reference and R_mean_predicted of two orders of n valid pairs differ by at most 10, 20, 8 and 8 n units of rounding (2^-53) of the exact errors and mean absolute values (up to underflow), and not at all for a perfect prediction's errors. Exchanging reference and prediction keeps true wet, true dry and NaN pair counts, RMSE and MAE, and exchanges false wet with missed wet, the sums, means and rain amounts of both series. The Matthews correlation is symmetric only if both series contain rain: an all-dry prediction of a wet reference scores 0, a wet prediction of an all-dry reference scores NaN.", "quantifier": "all arrays, NaN and infinities included", "why_tests_cant": "an equality of two runs over all permutations of all arrays", "anchors": ["pycomlink/validation/stats.py:calc_wet_dry_performance_metrics", "pycomlink/validation/stats.py:calc_rain_error_performance_metrics"]}
{"id": "C108", "title": "Changing the unit of the rain rate", "statement": "In exact arithmetic, multiplying both series and the threshold by a positive constant leaves Pearson correlation, coefficient of variation, false and missed wet rates and the NaN counts of the rain error metrics unchanged and multiplies RMSE, MAE, sums, means and the false and missed precipitation by the constant. In float64 the same holds bit by bit for powers of two (mm/h to mm per 15 minutes) if all values are NaN, 0 or between 2^-47 and 2^100 in size; not for other factors (12: correlation, coefficient of variation and sums change by rounding) and not for tiny values, whose squares underflow.", "quantifier": "all arrays and thresholds, NaN and infinities included, all positive constants (exact arithmetic); powers of two from 2^-100 to 2^100 and at most 2^20 pairs (binary64)", "why_tests_cant": "an equality of two runs over a continuum of factors", "anchors": ["pycomlink/validation/stats.py:calc_rain_error_performance_metrics"]}
{"id": "C109", "title": "Inverse distance weighting depends only on distances and values, not on position, orientation, station order or unit", "statement": "In exact arithmetic and with no two stations equally far from a grid point: moving stations and grid together by any distance preserving map, or listing the stations in another order, does not change the interpolated values; scaling all coordinates and max_distance by a positive factor does not change them either if no station is within 1e-10 of a grid point. With equally far stations at the nnear cut the result can depend on the station order.", "quantifier": "all station and grid configurations, exponents, nnear and max_distance, for every neighbour search meeting scipy's contract", "why_tests_cant": "an equality of two runs over all isometries, permutations and factors", "anchors": ["pycomlink/spatial/idw.py:Invdisttree.__call__", "pycomlink/spatial/idw.py:_numba_idw_loop"]}
{"id": "C110", "title": "Interpolated values are linear and monotone in the station values", "statement": "In exact arithmetic the result for a*z1+b*z2 is a times the result for z1 plus b times the result for z2, the result for a*z+b is a times the result for z plus b (the weights add up to one), and larger station values never give smaller grid values. Grid points without station in range are NaN in all cases. In float64 the order is kept, but a common shift of the data is not kept bit by bit; the result for station values that equal a*z1+b*z2 is missing at the same places and elsewhere a times the first plus b times the second result up to the rounding bound of C152, under its conditions.", "quantifier": "all stations, grids, values, coefficients, exponents, nnear and max_distance", "why_tests_cant": "relations between runs over continua of inputs", "anchors": ["pycomlink/spatial/idw.py:Invdisttree.__call__", "pycomlink/spatial/idw.py:_numba_idw_loop"]}
{"id": "C111", "title": "Levels in wet steps have no influence on the baselines, and a baseline is its own baseline", "statement": "Changing the levels of wet steps (from step n_average_last_dry on for baseline_constant) does not change the result of baseline_constant or baseline_linear, whatever the new values are. Applying baseline_constant to its own result with the same flags returns it unchanged; so does baseline_linear in exact arithmetic if no completed wet period contains a NaN flag. With a NaN flag a second pass of baseline_linear also turns the wet period before it into NaN.", "quantifier": "all levels (NaN and infinities included), wet flags, n >= 1, both values of ignore_nan; the refutation is a concrete input", "why_tests_cant": "an equality of two runs for all values in the wet steps", "anchors": ["pycomlink/processing/baseline.py:baseline_constant", "pycomlink/processing/baseline.py:baseline_linear", "pycomlink/processing/baseline.py:_numba_baseline_constant", "pycomlink/processing/baseline.py:_numba_baseline_linear"]}
{"id": "C112", "title": "For given flags the baselines are linear and monotone in the level; the linear one can be reversed in time", "statement": "In exact arithmetic the baseline of a*t1+c*t2 is a times the baseline of t1 plus c times that of t2, for both methods, and a level that is nowhere lower never gives a lower baseline (for baseline_constant also in binary64). If no flag is NaN and the first and last steps are dry, baseline_linear of the time reversed record is the reversed baseline.", "quantifier": "all real levels, wet flags (NaN included for linearity and order), coefficients, n >= 1", "why_tests_cant": "relations between runs over continua of inputs", "anchors": ["pycomlink/processing/baseline.py:baseline_constant", "pycomlink/processing/baseline.py:baseline_linear", "pycomlink/processing/baseline.py:_numba_baseline_constant", "pycomlink/processing/baseline.py:_numba_baseline_linear"]}
{"id": "C113", "title": "The Schleiss wet antenna attenuation forgets the past at a dry step, scales with the attenuation and is monotone", "statement": "Two records that agree from a dry step on get the same attenuation from there on, bit for bit, whatever was before. In exact arithmetic, multiplying levels, baseline and waa_max by k >= 0 multiplies the attenuation by k, and with 0 <= 3*delta_t/tau <= 1 more observed attenuation or a larger waa_max never gives less wet antenna attenuation.", "quantifier": "all records, flags and parameters in range", "why_tests_cant": "relations between runs with unbounded memory", "anchors": ["pycomlink/processing/wet_antenna.py:waa_schleiss_2013", "pycomlink/processing/wet_antenna.py:_numba_waa_schleiss_2013"]}
{"id": "C114", "title": "The documented chain can be restarted at dry steps", "statement": "If n_average_last_dry steps from step t on are dry and the sample at t is not infinite (missing is fine), the chain of C100 applied to the record from t on gives exactly the rain rates that the whole record gives from t on. Cut inside a wet period it does not.", "quantifier": "all records, flags, n >= 1, waa_max >= 0, coefficients with a*L positive and finite; the refutation is a concrete input; binary64", "why_tests_cant": "an equality of two runs over all records and cuts", "anchors": ["pycomlink/processing/baseline.py:baseline_constant", "pycomlink/processing/wet_antenna.py:waa_schleiss_2013", "pycomlink/processing/k_R_relation.py:calc_R_from_A", "docs/notebooks/Basic CML processing workflow.ipynb"]}
{"id": "C115", "title": "In the wet antenna notebook missing data become zero rain, and the rain rate is a function of the attenuation", "statement": "The chain of that notebook (constant baseline, attenuation and corrected attenuation passed through where(A >= 0, 0)) never returns a missing rain rate, whichever wet antenna method is used: where the total loss is missing the rain rate is 0, unlike in the chain of C100. With the Pastorek method, in exact arithmetic, the rain rate at a step depends only on loss minus baseline at that step, is nondecreasing in it, 0 below the baseline, at most the rain rate without correction and equal to the tabulated rain rate at every table node; one sample above the end of the table makes the whole run fail with ValueError. With the Leijnse method the rain rate is that of loss minus a point of the table polygon, with the same two error and missing data rules.", "quantifier": "all records, flags, n >= 1, frequencies 1 to 100 GHz, both polarisations, positive lengths, method parameters in the documented range; the first part for every wet antenna method that keeps the length, in binary64", "why_tests_cant": "a statement over all records and parameters, composed from four functions", "anchors": ["docs/notebooks/Wet antenna attenuation.ipynb", "pycomlink/processing/baseline.py:baseline_constant", "pycomlink/processing/wet_antenna.py:waa_pastorek_2021_from_A_obs", "pycomlink/processing/wet_antenna.py:waa_leijnse_2008_from_A_obs", "pycomlink/processing/wet_antenna.py:waa_schleiss_2013", "pycomlink/processing/k_R_relation.py:calc_R_from_A"]}
{"id": "C116", "title": "Rain rates of the nearby-link chain are final two steps later; without a recent dry step they are missing", "statement": "For the whole chain of the nearby-link notebook (classification, reference level, corrected levels, retrieval): every rain rate is missing or >= 0; it is 0 or missing in steps that are not wet or have no minimum level; it is missing if none of the last n_average_dry steps is dry, therefore always in the first step and in links with at most min_links neighbours. Two records that agree in their first s steps give identical rain rates up to step s-3, whatever follows; the last two steps are not final: rain found there can vanish when more data arrive.", "quantifier": "all networks, records, parameters with windows that fit, binary64; the refutation is a concrete pair of records", "why_tests_cant": "relations over all records and all continuations of a record, through four functions", "anchors": ["docs/notebooks/Nearby link approach processing example.ipynb", "pycomlink/processing/wet_dry/nearby_wetdry.py:nearby_wetdry", "pycomlink/processing/nearby_rain_retrival.py:nearby_determine_reference_level", "pycomlink/processing/nearby_rain_retrival.py:nearby_correct_received_signals", "pycomlink/processing/nearby_rain_retrival.py:nearby_rainfall_retrival"]}
{"id": "C117", "title": "Metrics of joined records follow from the metrics of the parts", "statement": "All counts of calc_wet_dry_performance_metrics for two records joined are the sums of the counts of the parts, and each rate lies between the rates of the parts (if one part has no wet or no dry reference, the rate of the other part is unchanged). This is not so for the Matthews coefficient: it can be positive in both parts and negative in the whole. In exact arithmetic R_sum adds up, mean rain rates and mean absolute error are averages weighted with the numbers of pairs without NaN, and the root mean square error is the weighted average of the squares. In float64 the same holds up to rounding (at most 2^20 valid pairs of size up to 2^200), and both errors lie between those of the parts up to rounding only: errors of 0.1 in all pairs give a greater mean absolute error for the joined record than for either part.", "quantifier": "all records with NaN and infinities (finite or NaN for the weighted averages); rates for at most 2^53 pairs; the refutation is a concrete input", "why_tests_cant": "a relation between three runs for all records", "anchors": ["pycomlink/validation/stats.py:calc_wet_dry_performance_metrics", "pycomlink/validation/stats.py:calc_rain_error_performance_metrics"]}
{"id": "C118", "title": "Aggregating in two steps gives the same as aggregating directly, but only without gaps", "statement": "aggregate_df_onto_DatetimeIndex onto a fine index and then onto a coarse index made of some of its timestamps gives exactly the result of aggregating onto the coarse index directly, for every method for which a total of totals is the total (sum, maximum; not mean), if the coarse index begins no later than the data (label='right'; ends no earlier for 'left') and every fine bin of the common period has a sample. With a gap in the data samples can be lost in two steps; with a coarse index that starts inside the data the first value differs. In float64, for at most 2^18 non-negative samples and any order of summation, both ways give for every label the exact sum of its n samples up to n * (2^-51 * sum + 2^-1072); counts (multiples of a power of two) agree exactly, tenths do not.", "quantifier": "all data, index pairs, both labels, all such methods; the refutations are concrete", "why_tests_cant": "relation between two ways over all data and index pairs", "anchors": ["pycomlink/util/temporal.py:aggregate_df_onto_DatetimeIndex"]}
{"id": "C119", "title": "The rain rate falls with link length and depends on attenuation per length", "statement": "For the same attenuation calc_R_from_A never gives more rain for a longer link or a larger coefficient a; a and L_km enter only through their product. Raising R_min sets exactly the rates below the new R_min to 0 and leaves the others as they were. In exact arithmetic the rain rate depends only on attenuation divided by length, attenuation c^b times as large means rain c times as large (with R_min scaled too), and a larger b lowers rates whose attenuation is above a*L_km (1 mm/h) and raises those below.", "quantifier": "all attenuations, lengths and coefficients with a positive finite product, every power function that is non-negative and monotone (binary64); exact arithmetic for the scaling laws", "why_tests_cant": "relations between two calls over all inputs", "anchors": ["pycomlink/processing/k_R_relation.py:calc_R_from_A"]}
{"id": "C120", "title": "Neighbours do not depend on which end of a link is site a, and links without coordinates have none", "statement": "Exchanging the two ends of any of the links leaves the neighbour relation of nearby_wetdry unchanged, and with it the classification and the rain rates of the whole nearby-link chain. A larger radius loses no neighbour. A link with a missing coordinate is nobody's neighbour except its own. In exact arithmetic a common shift of all longitudes and full turns of 360 degrees change nothing.", "quantifier": "all networks, radii and records, every math library (binary64); missing coordinates: every math library that returns NaN for NaN", "why_tests_cant": "relations between two calls over all networks", "anchors": ["pycomlink/processing/wet_dry/nearby_wetdry.py:calc_distance_between_cml_endpoints", "pycomlink/processing/wet_dry/nearby_wetdry.py:nearby_wetdry", "docs/notebooks/Nearby link approach processing example.ipynb"]}
{"id": "C121", "title": "The documented workflow only detects rain where the whole window is measured", "statement": "From raw levels (fill values masked, gaps up to max_gap interpolated, rolling standard deviation above a threshold, baseline_constant, waa_schleiss_2013, calc_R_from_A): measured samples are kept, only gaps of at most max_gap between measured samples are filled (in exact arithmetic on the straight line). The workflow gives a non-negative rain rate or a missing value everywhere. A positive rain rate needs a complete window around the step, with every sample measured or in a short gap; all other steps are dry. If the baseline averages over at most half a window, the rain rate is missing exactly where the loss is (not so with a longer average). Later data leaves rain rates unchanged whose window ends before it, but turns zeros into rain in the last half window of a record.", "quantifier": "all records with NaN and fill values, every window, threshold and standard deviation function (binary64); the refutations are concrete", "why_tests_cant": "tests compare one processed link; gaps, ends of records and continuations of records are not varied", "anchors": ["pycomlink/processing/baseline.py:baseline_constant", "pycomlink/processing/wet_antenna.py:waa_schleiss_2013", "pycomlink/processing/k_R_relation.py:calc_R_from_A", "docs/notebooks/Basic CML processing workflow.ipynb"]}
{"id": "C122", "title": "Rain maps of the notebooks exist and are never negative; unreliable links have no influence, dead links count as dry", "statement": "From raw levels of all links to the interpolated grid (workflow, hourly means, total over time or one hour, links masked by wet_fraction, IdwKdtreeInterpolator): the map exists, and every cell is missing or >= 0. With exclude_nan it is the map of the links whose wet_fraction is below the limit. More rain at the stations never lowers a cell. The wet_fraction of the workflow notebook adds up the fractions of all channels (in exact arithmetic), so a link can be left out although each channel is below the limit. A link that measured nothing counts as 0 mm in the map of totals although it is missing in every hourly map.", "quantifier": "all networks, records, settings with nnear >= 2 and grids with finite coordinates (binary64); every search that returns distances and every pow with non-negative weights; the refutation is a concrete network", "why_tests_cant": "the notebooks are run for one data set only; the whole chain from levels to map is not tested", "anchors": ["pycomlink/processing/baseline.py:baseline_constant", "pycomlink/processing/wet_antenna.py:waa_schleiss_2013", "pycomlink/processing/k_R_relation.py:calc_R_from_A", "pycomlink/spatial/interpolator.py:IdwKdtreeInterpolator", "docs/notebooks/Basic CML processing workflow.ipynb", "docs/notebooks/Compare interpolation methods.ipynb"]}
{"id": "C123", "title": "The blackout notebook marks only gaps next to a low level, in both directions of time, and plots all but the last gap and those soon before another", "statement": "From raw levels (fill values masked, scan forwards and backwards): the mask exists, and every marked sample is missing or at most the fill value and is joined by such samples to a measured level below the threshold. Reversing the record reverses the mask (not so for a single scan). A higher threshold loses no marked sample. For the plot the notebook keeps exactly the gap times that are neither the last nor less than 60 minutes before another one; its comment (gaps less than 60 minutes after another are removed) is refuted: the earlier gap of such a pair is removed and the last gap never plotted. Without any gap the selection raises an IndexError.", "quantifier": "all records with NaN, infinities and fill values, all thresholds (binary64); all increasing lists of times; the refutations are concrete", "why_tests_cant": "the notebook is run for a few records; reversal and thresholds relate two runs over all records", "anchors": ["pycomlink/processing/blackout_gap_detection.py:get_blackout_start_and_end", "pycomlink/processing/blackout_gap_detection.py:created_blackout_gap_mask_from_start_end_markers", "docs/notebooks/Blackout gap detection examples.ipynb"]}
{"id": "C124", "title": "Wet periods shaded in the notebooks are those of the record, if it begins and ends dry", "statement": "The plots of the workflow and wet-dry notebooks pair the steps where np.roll(wet, -1) & ~wet with those where np.roll(wet, 1) & ~wet. If the first and the last step are dry, the pairs are exactly the wet periods (last dry step before, first dry step after), zip drops nothing and every wet step lies in an area. That is so for the flags of the workflow's rolling window of at least 3 steps, also when several channels are rolled as one flattened array, and for the wet-dry notebook, which clears both ends first and so loses only them. Otherwise an area can end before it begins and wet steps are not shaded, and flags of another channel show.", "quantifier": "all flags, all records, windows >= 3, thresholds and standard deviation functions (binary64), any number of channels; the refutations are concrete", "why_tests_cant": "plots are not tested; the statement is over all flag sequences", "anchors": ["docs/notebooks/Basic CML processing workflow.ipynb", "docs/notebooks/Wet-dry classification methods.ipynb"]}
{"id": "C125", "title": "MLP flags are never missing: around every gap the link counts as dry and the baseline follows the signal", "statement": "For the MLP cells of the wet-dry notebook (mlp_wet_dry, np.argmax, baseline_constant for both channels): the flags are 0 or 1 for every step: 1 if the second predicted value is larger than the first or NaN while the first is not; wherever the flag is 0 both baselines equal the levels. A wet flag of the models rg and rad needs both channels measured without gap from 20 steps before to 19 steps after and two hours of data within six hours around each of these steps; a wet flag of the online models needs the step and the 40 steps before. So missing predictions count as dry. With the online models flags and baselines up to a step depend only on the levels up to it, also when the record is continued; with the others a later level changes both. In exact arithmetic a constant offset of each channel shifts only the baselines.", "quantifier": "all records with NaN and infinities, every prediction function (total on windows without NaN for existence), binary64; the refutation is concrete; offsets in exact arithmetic", "why_tests_cant": "tests use one record and the stored models; statements over all gaps and continuations", "anchors": ["pycomlink/processing/wet_dry/mlp.py:mlp_wet_dry", "pycomlink/processing/baseline.py:baseline_constant", "docs/notebooks/Wet-dry classification methods.ipynb"]}
{"id": "C126", "title": "Validator.calc_stats compares values of the same second at best, and only once per CML", "statement": "calc_stats replaces the index of the CML it is given by formatted texts. With a pandas that compares texts and timestamps as Python objects no row of the time series finds a partner, so the result never depends on the data (it is NaN, the correlation of no pairs). With a pandas that parses the texts in a join, it is the correlation of all measured pairs in which the time of the CML, cut to full seconds, is the time of the reference. In both cases the CML is changed and a second call with it raises an AttributeError.", "quantifier": "all indexes and values with NaN (binary64), every correlation function", "why_tests_cant": "the method has no test; the claims are over all data and about the state after the call", "anchors": ["pycomlink/validation/validator.py:Validator.calc_stats"]}
{"id": "C127", "title": "PyTorch flags need a full window and are decided per link, but every sample of the record counts through the median", "statement": "For the notebook 'Use pytorch models' (fill values masked, gaps up to max_gap interpolated, median of each channel subtracted, cnn_wd, output above a threshold): every step and link gets a flag, and it is wet exactly if the network's output for the window_size samples up to 30 steps ahead, relative to the median of all measured samples of each channel, exceeds the threshold; the first window_size - 30 and the last 29 steps are never wet. With a network that passes NaN on, a wet flag needs every sample of that window in all channels measured or in a filled gap. The flags of a link do not depend on which other links are given. In exact arithmetic a constant offset of each channel changes no flag. A sample after the window can change a flag, through the median.", "quantifier": "all networks that treat samples separately, all records with NaN and fill values, windows from 30 steps to the record length (binary64); offsets in exact arithmetic; the refutation is concrete", "why_tests_cant": "the notebook is run for three links; statements over all gaps, sets of links and continuations", "anchors": ["pycomlink/processing/pytorch_utils/run_inference.py:cnn_wd", "docs/notebooks/Use pytorch models.ipynb"]}
{"id": "C128", "title": "TensorFlow values exist exactly where three hours of both channels are complete, and without any the call fails", "statement": "For the notebook 'Use tensorflow models' (fill values masked, gaps up to max_gap interpolated, both channels, wet_dry_1d_cnn with its defaults): if some link has 180 complete steps in both channels, the result has a value for a step and link exactly if the 180 steps up to it are present and finite in both channels (for a network that returns numbers), so each of them is measured or in a filled gap; the first 179 steps never have one. If no link has such a stretch, the call raises an IndexError.", "quantifier": "all networks, numbers of links and records with NaN and fill values (binary64)", "why_tests_cant": "the notebook is run for three links; the condition is over all patterns of gaps", "anchors": ["pycomlink/processing/tensorflow_utils/run_inference.py:wet_dry_1d_cnn", "docs/notebooks/Use tensorflow models.ipynb"]}
{"id": "C129", "title": "The rolling sum of the outlier score is a running sum that forgets nothing", "statement": "F_val.rolling(time=timeperiod*4).sum() runs bottleneck's move_sum, which updates one sum along the series. In exact arithmetic it returns the sum of the numbers in each window, NaN where fewer than min_periods are present, and so agrees with the window sums. One infinite value turns all later sums into NaN. In float64 NaN appears at the same steps and the error at step t is at most (t+1)*(window+4)/2^53 times the largest magnitude in the whole series; it is not a function of the window: after 2^60 the sum of a window with only 1 is 0.", "quantifier": "all series of numbers and NaN, windows and min_periods; in float64 up to 2^20 steps and values up to 2^900 in size; the refutations are concrete inputs", "why_tests_cant": "an invariant of the loop over series of any length", "anchors": ["pycomlink/processing/wet_dry/nearby_wetdry.py:nearby_wetdry"]}
{"id": "C130", "title": "The STFT classification ignores gain and units but not the level, and its scores are relative to the dry period", "statement": "With matplotlib's spectrogram (one-sided power of windowed segments, no detrending) and exact arithmetic: multiplying rsl by a non-zero constant, multiplying the window function by one, or changing the unit of f_sampling and f_divide together leaves scores and flags unchanged, and the dry period found from the standard deviation also ignores an offset; the classification itself does not: lowering a record by 3 changes a flag. A missing sample makes every score NaN, and the step dry, whose window of window_length samples contains it. A flag depends only on the samples in its own window, window_length//2 of them later, and in the windows of the dry period. The scores of the dry period average to 0, so a negative threshold flags some of it as wet and a threshold >= 0 never all of it. If no frequency is <= f_divide or none is larger, every step is dry; so is, for a threshold >= 0, every record of constant level and every record not longer than the window. The returned Pxx is a power density: each column times f_sampling/window_length adds up to the weighted mean square of the samples in its window, and an oscillation of amplitude A with q periods per (plain) window gives A^2/2 * window_length/f_sampling in the row of frequency q*f_sampling/window_length and 0 in all others. Without window the Hamming window of window_length samples is used.", "quantifier": "all records of numbers and NaN, all window lengths, window functions that are not zero everywhere, thresholds and dry periods; the offset claim is refuted by a concrete record", "why_tests_cant": "spectra of arbitrary records and windows", "anchors": ["pycomlink/processing/wet_dry/stft.py:stft_classification", "pycomlink/processing/wet_dry/stft.py:find_lowest_std_dev_period"]}
{"id": "C131", "title": "The ITU coefficients stay within fixed bounds over the whole band, and grow and fall with frequency", "statement": "With exact cubic interpolation, for every frequency from 1 to 100 GHz, both polarisations and both tables, a_b returns a between 0.00002 and 1.37 and b between 0.67 and 1.71, also between the tabulated frequencies. For the same polarisation a rises strictly with frequency from 5 GHz on, and b falls strictly from 6 GHz on (ITU_2005) or 8 GHz on (ITU_2003); below that the order fails: with ITU_2005 and H, a at 3 GHz is larger than at 4 GHz and b at 1 GHz smaller than at 2 GHz. So where calc_R_from_A gives at most 1 mm/h for an attenuation at a frequency above these limits, it gives at least as much for the same attenuation and path at any lower frequency above them.", "quantifier": "all real frequencies from 1 to 100 GHz, all attenuations, path lengths and R_min, both tables", "why_tests_cant": "a cubic interpolant can overshoot between nodes; the bounds are proved on every piece from its Bernstein coefficients", "anchors": ["pycomlink/processing/k_R_relation.py:a_b", "pycomlink/processing/k_R_relation.py:calc_R_from_A"]}
{"id": "C132", "title": "Ordinary kriging reproduces constants and stations, ignores the sill, but can return negative rain", "statement": "With pykrige's ordinary kriging in exact arithmetic (n_closest_points=None, given variogram parameters): a call of OrdinaryKrigingInterpolator on at least two valid stations either returns at each grid point the sum of the data with the weights that solve the kriging system there, and stores the variance of exactly that estimate, or the stations do not determine the weights and it raises. Equal values give that value everywhere; a grid point at a station gets its value with variance 0, whatever the nugget; the field is linear in the data and the variances do not depend on them; beyond the range of every station field and variance are constant; moving, turning or mirroring stations and grid together, or reordering the stations, changes nothing. Coordinates, grid and range in another unit of length give the same field, as long as the same grid points are within 1e-10 of a station. If no two stations are within the range - as with the default range 1 and coordinates in metres - every grid point beyond the range of all n stations gets the mean of the data, with variance sill * (1 + 1/n). With the spherical model only the range and the ratio of nugget and sill matter for the field, so the parameters of clim_var_param act through the range only. One valid station raises a ValueError, and without nugget two stations at one place raise. Non-negative data can give negative values: with the default parameters stations at 0, 0.4 and 1.1 with values 100, 0, 0 give -0.506 at 0.8.", "quantifier": "all networks, data, grids and variograms over the reals; the negative value is a concrete input", "why_tests_cant": "linear systems of any size; the tests check one grid against stored values", "anchors": ["pycomlink/spatial/interpolator.py:OrdinaryKrigingInterpolator", "pycomlink/spatial/interpolator.py:clim_var_param"]}
{"id": "C133", "title": "Kriging with the spherical variogram always has a solution, and no other weights do better", "statement": "In exact arithmetic, with a spherical variogram of positive range and 0 < nugget <= sill - which includes the default parameters and all parameters of clim_var_param for temporal resolutions of at least one minute - ordinary kriging of two or more stations always succeeds, also with several stations at one place. Without nugget (and a positive sill) it succeeds exactly if all stations are at different places. Among all weights that add up to 1, the kriging weights have the smallest error variance; other weights are worse by at least the nugget times the sum of squared differences. The kriging weights are the only best ones, with or without nugget, and the stored variance is positive at every grid point farther than 1e-10 from all stations. The stored variance is at most twice the variogram to any station, and at grid points farther than 1e-10 from all n stations it is at least nugget * (1 + 1/n), in particular never negative there.", "quantifier": "all networks in the plane, data, grids and spherical parameters over the reals", "why_tests_cant": "positive definiteness of a function on the plane, for any number of stations at any places", "anchors": ["pycomlink/spatial/interpolator.py:OrdinaryKrigingInterpolator", "pycomlink/spatial/interpolator.py:clim_var_param"]}
{"id": "C134", "title": "With n_closest_points each grid point is kriged from its nearest stations; two neighbours cannot give negative rain, three can", "statement": "In exact arithmetic, OrdinaryKrigingInterpolator(n_closest_points=k) with 2 <= k <= number of valid stations gives at each grid point the value and variance that a call without the option gives there for only the k nearest stations, or it raises and so does that call at some grid point. With the spherical variogram and 0 < nugget <= sill it always succeeds. Without nugget it succeeds if all stations are at different places. k = number of stations gives the same field as None; equal values give that value everywhere; a grid point at a station gets its value with variance 0; leaving stations out never makes the stored variance smaller. With k = 2 every value lies between the values of the two nearest stations, so non-negative data give a non-negative field; with k = 3 this is false (stations at 0, 0.4, 1.1 with 100, 0, 0 give -0.506 at 0.8). k <= 1 raises a ValueError.", "quantifier": "all networks, data, grids, neighbour counts over the reals; ties between neighbours resolved in any way; the negative value is a concrete input", "why_tests_cant": "linear systems of any size and any neighbour search that meets scipy's contract; the option is not tested at all", "anchors": ["pycomlink/spatial/interpolator.py:OrdinaryKrigingInterpolator"]}
{"id": "C135", "title": "Radar rainfall along a link is the path average for links in the grid, less for links that leave it, and double along pixel edges", "statement": "Let the intersection weights be the exact shares of the link's straight path in the pixels (closed rectangles between ascending edges). Unless the path runs along an edge between pixels, the weights add up to the share of the path inside of the grid, and GridValidator.get_time_series reports for each image strictly inside the CML's period the sum of amounts times shares over the whole grid. So uniform rain c is reported as c times that share: exactly c when both ends of the link are in the grid, less when the link leaves it. With both ends in the grid the value lies between the smallest and the largest amount on the path. A missing pixel counts as no rain: uniform rain c is reported as c times (share in the grid minus share in that pixel). A link along the edge between two columns reports 2c for uniform rain c. A link without a part in the grid raises a ValueError. Exchanging the two sites changes nothing.", "quantifier": "all grids, links, images and periods over the reals, with any weights that are the exact shares", "why_tests_cant": "all positions of a line relative to a grid, including the measure-zero position along an edge", "anchors": ["pycomlink/validation/validator.py:GridValidator.get_time_series", "pycomlink/validation/validator.py:GridValidator._get_cml_intersection_weights"]}
{"id": "C136", "title": "The correlation sees only straight lines, the coefficient of variation no offset, and RMSE and MAE are distances - without gaps", "statement": "In exact arithmetic, for calc_rain_error_performance_metrics: pearson_correlation is 1 (-1) exactly if the valid reference values vary and the predicted values are a rising (falling) straight line of them. Replacing the prediction by a * prediction + b leaves it unchanged for a > 0 and negates it for a < 0. An offset b leaves coefficient_of_variation unchanged and changes the squared RMSE from rmse^2 to rmse^2 - (mp - mr)^2 + (mp + b - mr)^2 with the two means mp, mr, so the offset that makes the means agree is the only best one. For three series without NaN, RMSE and MAE between the outer two are at most the sums over the series in the middle; with a NaN in the middle series this fails ([0,0], [0,NaN], [0,5]: 0 and 0, but RMSE 3.5). In float64, for n <= 2^20 finite rates up to 2^200, they exceed these sums by a factor of at most 1 + 24 n 2^-53 (MAE: 1 + 12 n 2^-53), apart from absolute errors of 2^-528 and 2^-1068; they can exceed them (from 0 to 0.9 by way of 0.2). In float64, constant series can get a correlation: three times 0.1 against three times 0.2 gives 1, against three times 0.7 gives -1; and a perfect prediction (1, 1, 3) gets less than 1.", "quantifier": "all series with any number of missing values, all a, b over the reals; the float64 claims are refuted by concrete series", "why_tests_cant": "equality cases of Cauchy-Schwarz and Minkowski for series of any length", "anchors": ["pycomlink/validation/stats.py:calc_rain_error_performance_metrics"]}
{"id": "C137", "title": "With exclude_nan=False one missing value makes the whole kriged field NaN, with n_closest_points only the places near it", "statement": "In float64, with OrdinaryKrigingInterpolator(exclude_nan=False) and n_closest_points=None: if any z is NaN, a call that returns gives NaN at every grid point, whatever the weights, while the stored sigma is the same as for complete data, so it does not show that anything is missing. With n_closest_points=k a grid point is NaN if one of its k nearest stations is missing, and its value depends on no other data.", "quantifier": "all stations, data, grids and variograms; any matrix inverse, solver and neighbour search that return arrays of the right size", "why_tests_cant": "NaN times any weight, for weights that come from an arbitrary solver; the option is not tested", "anchors": ["pycomlink/spatial/interpolator.py:OrdinaryKrigingInterpolator"]}
{"id": "C138", "title": "In float64 the documented chain is the exact chain with a tiny error of the attenuation", "statement": "baseline_constant, waa_schleiss_2013, A = trsl - baseline - waa and calc_R_from_A in a row, on a record of finite losses of at most M dB with 1 <= M <= 2^100 (n * length <= 2^30, waa_max in [0, M], 3 * delta_t <= tau, R_min >= 2^-18, b in [1/2, 2], a and L in [2^-60, 2^60], losses below those of 2^20 mm/h): let A_i be the attenuation in exact arithmetic (there is exactly one) and d_i = (i + 1) * n * M / 2^47 dB. Then the computed rain rate of step i is at most (1 + eta) * (rain rate of A_i + d_i), and is 0 or at least (1 - eta) * (rain rate of A_i - d_i), where eta is the error of the power function plus 2^-48. It is not 0 if the lower bound reaches R_min, and is 0 if the upper bound is below R_min. So rounding in the loops over the record is not amplified: the error grows at most linearly with the number of steps.", "quantifier": "all complete records, wet flags (also NaN), n, waa parameters and coefficients in these ranges", "why_tests_cant": "the recursions feed rounded results back for the whole length of the record", "anchors": ["pycomlink/processing/baseline.py:baseline_constant", "pycomlink/processing/wet_antenna.py:waa_schleiss_2013", "pycomlink/processing/k_R_relation.py:calc_R_from_A", "docs/notebooks/Basic CML processing workflow.ipynb"]}
{"id": "C139", "title": "Errors of the measured levels are at most doubled on the way to the attenuation and not enlarged by baselines or rain maps", "statement": "Let two records of losses differ by at most q dB in each sample, for example a record and its quantised version, and let the wet flags be the same. In exact arithmetic baseline_constant and baseline_linear of the two differ by at most q (or are missing at the same steps), and the attenuation A = trsl - baseline - waa after waa_schleiss_2013 by at most 2q; no smaller bound holds. In float64, the documented chain on the measured losses gives rain rates between the exact rain rates of the true losses for an attenuation 2q + d_i lower and higher, up to the factor 1 -+ eta, with d_i and eta as in C138; rain certainly below R_min is 0 and rain certainly above is kept. In exact arithmetic an IdwKdtreeInterpolator map of data that differ by at most q differs by at most q.", "quantifier": "all pairs of records, flags, parameters in the ranges of C138; all stations, data, grids", "why_tests_cant": "a bound for all disturbances of all records, where errors of earlier samples enter through baseline and wet antenna attenuation", "anchors": ["pycomlink/processing/baseline.py:baseline_constant", "pycomlink/processing/baseline.py:baseline_linear", "pycomlink/processing/wet_antenna.py:waa_schleiss_2013", "pycomlink/processing/k_R_relation.py:calc_R_from_A", "docs/notebooks/Basic CML processing workflow.ipynb", "pycomlink/spatial/interpolator.py:IdwKdtreeInterpolator"]}
{"id": "C140", "title": "The nearby-link notebook from raw levels: 15-minute extremes enclose all samples, bins without samples give no rain, and rain is final after two bins and a gap", "statement": "In the nearby-link notebook (fill values masked, rsl and tsl each interpolated over gaps of at most g, rstl = rsl - tsl, 15-minute minimum and maximum, then the nearby-link chain), for ascending times in whole seconds: the bins are the uniquely determined ones aligned to the midnight before the first time, and every sample lies in exactly one. rstl is rsl - tsl where both are measured and missing unless both are measured or in gaps of at most g. Minimum and maximum of a bin are missing if no sample of it has a level; otherwise both are levels of the bin and all its levels lie between them. So the corrected levels satisfy p_c_min <= p_c_max <= pref wherever pref is a number. The rain rate is missing or not negative, and missing or 0 for bins without usable samples. Two records with the same samples before time E give the same rain rate for each bin that ends at least two bin widths plus g before E, if both have these bins. In exact arithmetic a gap of rsl is filled by the straight line between its ends, minus tsl at that time.", "quantifier": "all records, time axes in whole seconds between 1970 and 2116, networks, bin widths and parameters", "why_tests_cant": "irregular time axes, gaps across bin limits and records of any length; the notebook has no tests", "anchors": ["docs/notebooks/Nearby link approach processing example.ipynb", "pycomlink/processing/nearby_rain_retrival.py:nearby_correct_received_signals", "pycomlink/processing/wet_dry/nearby_wetdry.py:nearby_wetdry"]}
{"id": "C141", "title": "A minority of wrong levels does not move the nearby-link reference level out of the range of the others, and errors of the levels are at most doubled", "statement": "In float64, nearby_determine_reference_level: if fewer than half of the mean levels of the dry steps in the window lie outside [lo, hi] (finite, at most 2^900 in absolute value), however wrong they are, also infinite, then pref lies in [lo, hi]; with exactly half of them outside it need not. In exact arithmetic, for pmin and pmax that differ by at most q from others missing at the same steps, and the same wet flags: the two pref differ by at most q and are missing at the same steps. At every step not removed by the outlier filter where pref is a number, the two nearby_rainfall_retrival results are numbers and the second lies between the results for the first levels with waa_max larger and smaller by 2q, provided pmin <= pmax in both. For no parameters is a bound smaller than 2q possible.", "quantifier": "all records, wet flags, window lengths, min_periods and parameters", "why_tests_cant": "a statement about arbitrarily wrong values at arbitrary positions in every window", "anchors": ["pycomlink/processing/nearby_rain_retrival.py:nearby_determine_reference_level", "pycomlink/processing/nearby_rain_retrival.py:nearby_correct_received_signals", "pycomlink/processing/nearby_rain_retrival.py:nearby_rainfall_retrival"]}
{"id": "C142", "title": "Thresholds and correction parameters act in one direction, but more wet steps need not mean more rain", "statement": "In float64: nearby_wetdry with larger thresh_median_P and thresh_median_PL returns the same F, missing flags at the same places and a 1 wherever there was a 1 (or fails with the same error). A larger rsl_threshold never unmarks a blackout gap, with one scan or with both as in the notebook. A larger F_value_threshold makes exactly the rain rates with a score up to it missing and changes no other. In exact arithmetic: a larger waa_max or a larger delta_t / tau (3 * delta_t <= tau) never lowers the waa_schleiss_2013 attenuation and never raises a rain rate of the documented chain, which is missing at the same steps. A larger waa_max or a smaller alpha never raises a nearby_rainfall_retrival rain rate where p_c_min <= p_c_max. But with more wet flags the nearby-link rain rate can fall, because the reference level loses a dry step.", "quantifier": "all records (also with missing values), networks, thresholds and parameters in these ranges", "why_tests_cant": "compares two runs for every input; the recursion of the wet antenna attenuation and the shifts of the wet flags carry changes along the record", "anchors": ["pycomlink/processing/wet_dry/nearby_wetdry.py:nearby_wetdry", "pycomlink/processing/blackout_gap_detection.py:get_blackout_start_and_end", "pycomlink/processing/blackout_gap_detection.py:created_blackout_gap_mask_from_start_end_markers", "pycomlink/processing/wet_antenna.py:waa_schleiss_2013", "pycomlink/processing/nearby_rain_retrival.py:nearby_rainfall_retrival", "pycomlink/processing/nearby_rain_retrival.py:nearby_determine_reference_level", "docs/notebooks/Basic CML processing workflow.ipynb"]}
{"id": "C143", "title": "Validation errors follow errors of the series one to one, wet and dry rates only through values near the threshold, and the correlation not at all", "statement": "In exact arithmetic, for calc_rain_error_performance_metrics: if reference and predicted rain are off by at most qr and qp at each step, with the same steps missing, then root_mean_square_error and mean_absolute_error are off by at most qr + qp, R_mean_reference and R_mean_predicted by at most qr and qp, the sums by that times the number of valid pairs, and the counts of pairs and missing values are the same. In binary64 the bounds for errors and means hold up to rounding. A constant shift of a perfect prediction reaches the bound. If only the prediction is off, by at most d, false_wet_rate changes by at most the share of the dry references whose prediction is within d of rainfall_threshold_wet, missed_wet_rate by at most that share of the wet references; if no prediction is that close to the threshold, both rates and missed_wet_precipitation_rate stay exactly the same. There is no such bound for pearson_correlation: errors of any size, however small, can turn 1 into -1.", "quantifier": "all reference and predicted series of any length with finite or missing values, all thresholds, all error sizes", "why_tests_cant": "a bound for all disturbances of all series", "anchors": ["pycomlink/validation/stats.py:calc_rain_error_performance_metrics"]}
{"id": "C144", "title": "The exponent p of inverse distance weighting leads from the mean of the neighbours to the nearest neighbour, and bounds the influence of every station", "statement": "In exact arithmetic, for Invdisttree (IdwKdtreeInterpolator) at a place at least 1e-10 from all stations: with p = 0 the value is the plain mean of the used neighbours. For p >= 0, changing the value of station i by c changes the interpolated value by at most |c| * (d_m / d_i)^p for every station m within max_distance, where d are the distances to the place. If station 0 is the nearest and all others are at least d1 away, the value differs from z_0 by at most (nnear - 1) * (d_0 / d1)^p * D, where D bounds the differences of the values from z_0, so for p to infinity the map becomes that of the nearest station. In binary64 the statements for p = 0, the influence and the nearest station hold with an additional rounding error, for p up to 4 and places that see no near ties (as in C152). The maps are not continuous in the place: with nnear = 2 and p = 2 there are three stations and places arbitrarily close to each other, far from the stations, with the values 0 and at least 1.", "quantifier": "all stations, values, places, p >= 0, nnear >= 2 and max_distance", "why_tests_cant": "relations between runs over continua of inputs", "anchors": ["pycomlink/spatial/idw.py:Invdisttree", "pycomlink/spatial/interpolator.py:IdwKdtreeInterpolator"]}
{"id": "C145", "title": "The rain sums, mean rates and accumulations of the notebooks count every measured sample once; a gap counts as dry in the sums only", "statement": "R.resample(time=w).sum() / c of the workflow notebook (rainfall_amount.resample(time=w).sum() * c of the nearby-link notebook): there is one value per bin, in exact arithmetic the sum of the samples measured in the bin over (times) c, and the values add up to the sum of all measured samples over (times) c. R.resample(time=w).mean() is missing exactly where nothing was measured, else the sum over the number measured; for rates that are not negative the sum is at most mean times duration, k/m of it if k of m samples were measured, so equal only for a complete bin or a mean of 0. In binary64 a bin without measured samples has the sum 0, like a dry one, and a missing mean. Sums over w, summed again over k*w, are the sums over k*w; means of means are not the means if samples are missing. The accumulation (R / c).cumsum() at each time is the exact sum of the samples up to it; in binary64 it is never missing, never negative and never decreases. For c >= 1 and at most 2^18 samples, whatever the order of summation, the binary64 sum over c and the binary64 mean of a bin with n measured samples lie within (n + 1) * (2^-51 |x| + 2^-1072) of their exact values x, and the accumulation after n measured samples within 2 n * (2^-51 |x| + 2^-1072). np.sort(R / c).cumsum() is, in exact arithmetic, the partial sums of the sorted numbers, then missing values, one for each missing sample, and does not depend on the order of the samples in time.", "quantifier": "all ascending times, widths, factors and series, finite or missing values, in binary64 rates missing or not negative", "why_tests_cant": "sums over arbitrary gaps, bins and orders; conservation needs an exchange of sums", "anchors": ["docs/notebooks/Basic CML processing workflow.ipynb", "docs/notebooks/Nearby link approach processing example.ipynb", "docs/notebooks/Wet antenna attenuation.ipynb"]}
{"id": "C146", "title": "In binary64, level offsets of quantised data leave wet flags and rain rates unchanged bit by bit; of decimal data they do not", "statement": "Let the levels and the offset be missing or multiples of one power of two, 2^-q dB, at most 2^48 such units (whole dB, half dB ...). Then adding the offset to trsl leaves the rain rate of the documented chain (baseline_constant with n_average_last_dry = 1, waa_schleiss_2013, clipping or not, calc_R_from_A) unchanged bit by bit; adding another offset to pmin of each link leaves the wet flags and the F score of nearby_wetdry unchanged; and adding one to pmin and pmax leaves the result of the nearby-link retrieval unchanged. baseline_constant with n_average_last_dry = 1 follows any offset bit by bit, quantised or not. nearby_determine_reference_level follows the offset bit by bit. With n_average_last_dry = 3 the baseline of whole dB can be off by a rounding error after an offset of 1 dB. With levels in tenths of dB, an offset of a tenth changes the rain rate of the chain, and an offset of -3 dB wet flags of nearby_wetdry.", "quantifier": "all series, wet flags, units 2^-q with |q| <= 700, offsets, networks, thresholds, windows, math libraries", "why_tests_cant": "a bit by bit equality of two runs over all series and offsets", "anchors": ["pycomlink/processing/baseline.py:baseline_constant", "pycomlink/processing/wet_antenna.py:waa_schleiss_2013", "pycomlink/processing/wet_dry/nearby_wetdry.py:nearby_wetdry", "pycomlink/processing/nearby_rain_retrival.py:nearby_determine_reference_level", "pycomlink/processing/nearby_rain_retrival.py:nearby_correct_received_signals", "pycomlink/processing/nearby_rain_retrival.py:nearby_rainfall_retrival", "docs/notebooks/Basic CML processing workflow.ipynb"]}
{"id": "C147", "title": "The notebooks prepare levels in different ways: their fill value rules agree on plausible levels only, and filling gaps before or after the difference differs unless both levels are missing together", "statement": "The radar notebook removes levels with tsl < hi and rsl > lo, the others the fill values by !=. If every level is missing, a fill value or in range, both give the same loss bit by bit; for all levels the range rule gives a missing value or the same loss, and a finite level out of range that is not the fill value passes the != rule only. The workflow notebook fills short gaps of trsl = tsl - rsl, the nearby-link notebook those of rsl and tsl before taking rsl - tsl. In exact arithmetic, on such levels: a step available in the first way is available in the second; if both levels are missing at the same steps the results are negatives of each other at every step; where both were measured they always are; in a gap of the loss they are up to d + e, where d and e are the ranges of the measured tsl and rsl from one end of the gap to the other. With different gaps the second way can fill steps the first does not, and the values can differ (by d + e).", "quantifier": "all level series, fill values, limits, ascending times, gap lengths; rules in binary64", "why_tests_cant": "a relation between two programs over all patterns of missing values", "anchors": ["docs/notebooks/Basic CML processing workflow.ipynb", "docs/notebooks/Nearby link approach processing example.ipynb", "docs/notebooks/Get radar rainfall along CML paths.ipynb"]}
{"id": "C148", "title": "The nearby-link chain forgets where the record starts: pieces of a record can be processed on their own after a warm-up time", "statement": "Let K = timeperiod * 60 / interval be the steps of the maximum window, W = timeperiod * 4 those of the F window and n = n_average_dry. If one record is another without its first steps, nearby_wetdry gives bit by bit the same wet flags from step K of the shorter record on and the same F scores from step K + W - 2 on, and the chain up to nearby_rainfall_retrival the same rain rates from step max(K + n - 1, K + W - 2) on (191 steps of 15 minutes with the defaults). If two records only share a stretch of steps, the rain rates are the same within it apart from that many steps at its start and two at its end. One step earlier wet flags and rain rates can differ. F scores are taken as sums over their window; the running sum of bottleneck keeps a rounding error for ever (C129).", "quantifier": "all networks, records, parameters with windows that fit, and stretches; binary64", "why_tests_cant": "a relation between runs of different lengths, for every split of every record", "anchors": ["docs/notebooks/Nearby link approach processing example.ipynb", "pycomlink/processing/wet_dry/nearby_wetdry.py:nearby_wetdry", "pycomlink/processing/nearby_rain_retrival.py:nearby_determine_reference_level", "pycomlink/processing/nearby_rain_retrival.py:nearby_rainfall_retrival"]}
{"id": "C149", "title": "The min/max attenuation and rain rate of a step depend on its window alone, unless values are missing", "statement": "If the levels of a step and of the `window` steps before it are there, the attenuation of _calc_A_min_max at that step and the rain rate calc_R_from_A_min_max makes of it are, bit by bit, a function of these levels: any other record that contains the same window has the same values there, whatever its length and its other gaps. If the step itself is missing this fails: its attenuation is made up from the mean of the whole record and changes with later steps. The attenuation is zero exactly if the bias-corrected maximum attenuation of the step is not above the bias-corrected minimum attenuation of any step in the window, and the rain rate is zero then. A larger transmit maximum or smaller received minimum in the step, and a smaller transmit minimum or larger received maximum in the window, never lower attenuation or rain rate. In exact arithmetic the attenuation is the amount by which the largest difference between the two exceeds gT + gR.", "quantifier": "all records, windows, gains, coefficients and steps; binary64 (last part: exact arithmetic); power function zero at zero, non-negative and monotone", "why_tests_cant": "relations between pairs of records that differ outside the window or in order; an exact characterisation of zero in floating point", "anchors": ["pycomlink/processing/min_max.py:_calc_A_min_max", "pycomlink/processing/k_R_relation.py:calc_R_from_A_min_max"]}
{"id": "C150", "title": "With levels in whole, half or quarter dB the min/max attenuation has no rounding error in double precision, missing levels included", "statement": "Let the levels given to _calc_A_min_max and the quantisation steps gT and gR be missing or multiples of 2^-q dB (q from 0 to 40) with at most 2^24 steps, and the arrays have at most 2^24 values. Then the float64 code returns exactly the numbers, missing values and errors that real arithmetic gives: differences, bias, the mean that replaces missing levels and its rounding to whole dB, window minima and clipping. Hence adding d to the transmit and e to the received levels (multiples of 2^-q as well) changes nothing if d - e is an even number of dB, missing levels or not, and for any d and e if no level is missing. With levels in tenths of a dB the result is not the decimal number meant.", "quantifier": "all series and lengths, quantisation steps, windows, step sizes and offsets in the stated ranges; binary64", "why_tests_cant": "equality of two computations, one of them with real numbers, for all series; a mean rounded twice could end at another whole dB for rare sums only", "anchors": ["pycomlink/processing/min_max.py:_calc_A_min_max"]}
{"id": "C151", "title": "In double precision inverse distance weighting sees only the computed distances: station order, reflections and moves in whole units change no bit, moves in tenths can", "statement": "Let no two stations have the same computed squared distance (dx*dx + dy*dy in float64, without overflow) from a grid point. Then the value of Invdisttree (IdwKdtreeInterpolator) at that point depends only on the set of pairs (computed squared distance, station value), bit by bit and for every power function, also with max_distance. So it does not change when the stations are listed in another order, when the map is mirrored or its axes are exchanged, and when stations and grid are moved together by a multiple of 2^-q if all coordinates are multiples of 2^-q with at most 2^50 steps (whole metres, half metres ...). With coordinates in tenths of a unit a move by one unit can change a value from 12 to 18 with three stations at distance 0.1.", "quantifier": "all stations, values (NaN included), grid points, exponents, nnear, max_distance and power functions, for every neighbour search meeting scipy's contract in float64; the refutation is concrete", "why_tests_cant": "bitwise equality over all networks and orders needs that the selected neighbours and their order are determined by the distances; tests with a few maps and a tolerance show neither", "anchors": ["pycomlink/spatial/idw.py:Invdisttree.__call__", "pycomlink/spatial/idw.py:_numba_idw_loop", "pycomlink/spatial/interpolator.py:IdwKdtreeInterpolator"]}
{"id": "C152", "title": "In double precision a map by inverse distance weighting is the map of exact arithmetic up to rounding, if no two stations are almost equally far from a grid point", "statement": "Let every station be at the grid point or between 2^-30 and 2^40 away, let the distances of two stations differ by more than 2^-40 of their size, and let no station be that close to max_distance. Then Invdisttree (IdwKdtreeInterpolator) in float64 uses the same nearest stations as exact arithmetic. For an exponent p from 0 to 4 and finite values of size at most M both maps are NaN at the same grid points and differ elsewhere by at most M * (3 e + (21 p + 13 nnear) / 2^53) + 4 nnear / 2^1074, where e is the relative error of the power function.", "quantifier": "all stations, values, grid points, exponents, nnear, max_distance within the stated ranges, for every neighbour search meeting scipy's contract and every power function of accuracy e", "why_tests_cant": "a rounding bound and the equality of the selected neighbours for all maps need an error analysis from the coordinates to the weighted sum; tests compare a few maps with a tolerance", "anchors": ["pycomlink/spatial/idw.py:Invdisttree.__call__", "pycomlink/spatial/idw.py:_numba_idw_loop", "pycomlink/spatial/interpolator.py:IdwKdtreeInterpolator"]}
