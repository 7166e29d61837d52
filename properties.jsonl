{"id": "C01", "title": "Rejecting runs are reported exactly", "statement": "For any boolean sequence of per-point rejections, the list of runs an interval detector extracts is exactly the list of maximal runs of consecutive True values: each reported (start,end) pair has start<=end, every index inside is True, the neighbours just outside are False or out of range, pairs appear in increasing order with a gap between them, and every True index lies in exactly one pair.", "quantifier": "every boolean sequence of every length", "why_tests_cant": "The number of boolean sequences is exponential in the length; the boundary cases (run touching either end, empty series, single point) interact.", "anchors": ["kats/detectors/interval_detector.py: _get_true_run_indices"]}
{"id": "C02", "title": "Anomaly flags follow the run-length rule", "statement": "With a duration m, the predicted flag at index i is True iff i lies in a maximal run of rejecting points of length at least m; the anomaly intervals are exactly the runs of length >= m, the caution intervals exactly the shorter ones, and together they list every run once in order.", "quantifier": "every rejection sequence and every duration m", "why_tests_cant": "Depends on the joint position and length of all runs in sequences of arbitrary length.", "anchors": ["kats/detectors/interval_detector.py: IntervalDetectorModel._convert_intervals_to_predictions, anomaly_intervals, caution_intervals"]}
{"id": "C03", "title": "The m-run probability is the true probability", "statement": "The routine that computes the probability of at least one run of m consecutive rejections in n independent trials with per-trial probability p returns exactly the sum, over all 2^n outcome sequences that contain m consecutive successes, of p^(#successes)(1-p)^(#failures).", "quantifier": "every n, m >= 1 (m <= n) and every rational p in [0,1]", "why_tests_cant": "The reference value is a sum over 2^n outcomes and the code uses a matrix power; agreement on a few (n,m,p) says nothing about the recurrence in general.", "anchors": ["kats/detectors/interval_detector.py: _w_independent, _probability_of_at_least_one_m_run_in_n_trials"]}
{"id": "C04", "title": "The m-run probability is a monotone probability bracketed by the search bounds", "statement": "The m-run probability lies in [0,1], is nondecreasing in p, nonincreasing in m, nondecreasing in n, and at the two end points used by the critical-value search it lies below and above the target: at most n*p^m (union bound) and at least 1-(1-p^m)^(n//m) (independent blocks).", "quantifier": "every n, m and p in [0,1]", "why_tests_cant": "Inequalities between polynomials of unbounded degree.", "anchors": ["kats/detectors/interval_detector.py: _get_lowest_p, _probability_of_at_least_one_m_run_in_n_trials"]}
{"id": "C05", "title": "Critical value searches return only values that meet their target", "statement": "The search for the smallest duration returns an m whose global false-positive probability is within the tolerated target and such that every smaller duration exceeds it, otherwise it raises; the bisection for the per-point level keeps a bracket around the target at every step and any value it returns has a global probability within the requested relative tolerance, otherwise it raises.", "quantifier": "every n, alpha, tolerance, iteration limit", "why_tests_cant": "Termination and bracket invariants of a loop with an unbounded number of steps.", "anchors": ["kats/detectors/interval_detector.py: _get_lowest_m, _get_lowest_p"]}
{"id": "C06", "title": "Test decision agrees with the reported confidence interval", "statement": "For the difference tests, a point is flagged rejecting exactly when its confidence interval at the same level excludes the hypothesised effect size (one sided lower, one sided upper and two sided), and the two-sided decision is the disjunction of the one-sided ones.", "quantifier": "every estimate, standard error > 0, effect size and critical values", "why_tests_cant": "An equivalence between two separately coded computations for all reals.", "anchors": ["kats/detectors/interval_detector.py: _get_test_decision, _absolute_difference_test_statistic"]}
{"id": "C07", "title": "Backtest folds never leak the future", "statement": "For every backtester configuration accepted by the constructor and every series long enough, each fold's training slice and test slice are contiguous, lie inside the series, the test slice starts exactly where the training slice (plus the configured gap) ends, the test slice has the configured length, and in a fixed-size rolling scheme every fold trains on the same number of points.", "quantifier": "every series length, percentages, number of folds, window size", "why_tests_cant": "Depends on integer rounding of percentages for every series length and on the offsets of every fold.", "anchors": ["kats/utils/backtesters.py: BackTesterSimple, BackTesterRollingOrigin, BackTesterFixedWindow, _get_absolute_size"]}
{"id": "C08", "title": "Fold offsets are evenly spread", "statement": "The rolling offsets for k folds start at 0, end at the last admissible position, never decrease, and consecutive gaps differ by at most one.", "quantifier": "every range length and every number of folds", "why_tests_cant": "array_split distributes remainders; all lengths and counts must agree.", "anchors": ["kats/utils/backtesters.py: _return_fold_offsets", "kats/utils/datapartition.py: RollingOriginDataParition"]}
{"id": "C09", "title": "A failing fold is accounted for", "statement": "Running a generic backtest returns one score per fold; a fold whose training, forecasting or scoring raises contributes the configured error score and does not change the other folds' scores; if every fold fails an exception is raised.", "quantifier": "every sequence of fold outcomes (success or exception in each stage)", "why_tests_cant": "Every pattern of failures over every number of folds.", "anchors": ["kats/utils/backtesters.py: GenericBacktester"]}
{"id": "C10", "title": "Train/test partitions conserve the data", "statement": "A simple partition with a training fraction and no explicit test size splits the series into a prefix and the remaining suffix: concatenating them gives the original series, and no observation appears in both.", "quantifier": "every series and every fraction", "why_tests_cant": "Truncation of size*fraction for every size.", "anchors": ["kats/utils/datapartition.py: SimpleDataPartition, RollingOriginDataParition"]}
{"id": "C11", "title": "Re-running a backtest gives the same errors", "statement": "Calling run_backtest twice on the same backtester object leaves the error list of the second call equal to the one of the first call.", "quantifier": "every data set and number of folds", "why_tests_cant": "State carried across calls; a test must guess the second call.", "anchors": ["kats/utils/backtesters.py: BackTesterParent.run_backtest, calc_error"]}
{"id": "C12", "title": "A CUSUM change point always splits the series", "statement": "For every series with at least two points the change point returned by the CUSUM search is an index that leaves at least one point on each side, and when the search reports itself stable the reported point is a fixed point of the update; mean before and after are the means of exactly these two parts.", "quantifier": "every numeric series of length >= 3 and every iteration limit", "why_tests_cant": "Iterative search whose number of iterations and argmax ties depend on the data.", "anchors": ["kats/detectors/cusum_detection.py: CUSUMDetector._get_change_point"]}
{"id": "C13", "title": "CUSUM alert state machine invariants", "statement": "Over any sequence of scans (change detected or not, in any direction, with any timing) the online CUSUM model keeps at most ten change points, never fires an alert without a stored change point and a direction, and resets its normal-scan counter whenever the alert goes off; an alert goes off only when the change point expired or the data is back to normal for more than the tolerated number of scans.", "quantifier": "every history of scan results and timestamps", "why_tests_cant": "Invariants over histories of unbounded length.", "anchors": ["kats/detectors/cusum_model.py: CUSUMDetectorModel._set_alert_on, _set_alert_off, run_univariate_cusumdetector, _if_normal"]}
{"id": "C14", "title": "CUSUM block processing scores every point once", "statement": "When the vectorised CUSUM path cuts a long series into overlapping columns and flattens the per-step results back, every step of the original series appears exactly once and in time order.", "quantifier": "every series length, window and step", "why_tests_cant": "Index arithmetic with remainder handling for every length/step combination.", "anchors": ["kats/detectors/cusum_model.py: CUSUMDetectorModel._reorganize_big_data / _reorganize_back"]}
{"id": "C15", "title": "Statistical-significance windows do not overlap and do not look ahead", "statement": "For every time stamp the test window and the control window used for the score are adjacent half-open intervals with the configured lengths, the test window ends right after the current point, the control window precedes it, and the score is zero when history is insufficient.", "quantifier": "every time stamp, window lengths and time unit", "why_tests_cant": "All offsets and units.", "anchors": ["kats/detectors/stat_sig_detector.py: StatSigDetectorModel._get_start_end_dates, _should_update, _get_anomaly_scores_only"]}
{"id": "C16", "title": "Splitting a long series does not change its scores", "statement": "For every regularly spaced univariate series longer than the split length, the scores produced after splitting the series into columns, scoring the columns and gluing them back are those of the point-by-point detector with the same settings.", "quantifier": "every series length, split length and history length", "why_tests_cant": "The defect only shows for lengths that are multiples of the split length.", "anchors": ["kats/detectors/stat_sig_detector.py: StatSigDetectorModel._reorganize_big_data, _reorganize_back"]}
{"id": "C17", "title": "History padding conserves observations", "statement": "When history is missing or too short the detector moves points from data to history: the concatenation of history and data before and after is the same, the moved points are exactly those earlier than the required start, and the response covers exactly the points passed as data.", "quantifier": "every pair of history and data series", "why_tests_cant": "All positions of the boundary relative to both series.", "anchors": ["kats/detectors/stat_sig_detector.py: StatSigDetectorModel._handle_not_enough_history, fit_predict"]}
{"id": "C18", "title": "Serialising a detector preserves its parameters", "statement": "Loading a detector from its own serialised form yields a detector with the same parameters, for the statistical significance, interval, CUSUM, BOCPD, rolling statistics, distribution distance, outlier, multivariate anomaly, Prophet and static threshold detector models; a CUSUM detector also keeps its detection state.", "quantifier": "every parameter assignment accepted by the constructor", "why_tests_cant": "Each field must be written and read back for all values; omitted fields fall back to defaults silently.", "anchors": ["kats/detectors/stat_sig_detector.py: serialize/__init__", "kats/detectors/interval_detector.py: serialize/__init__", "kats/detectors/cusum_model.py: serialize/__init__", "kats/detectors/bocpd_model.py: BocpdDetectorModel.serialize", "kats/detectors/rolling_stats_model.py: RollingStatsModel.serialize/__init__"]}
{"id": "C19", "title": "Anomaly intervals tile the alerting points", "statement": "Turning a score series into anomaly intervals yields intervals in increasing order that do not overlap, each starts at an alerting point whose predecessor is not alerting and ends at the first following non-alerting time (or the last time stamp), and every alerting point is covered by exactly one interval.", "quantifier": "every score series and every threshold crossing pattern", "why_tests_cant": "All alternations of alert state; trailing alerts are the hard case.", "anchors": ["kats/detectors/anomaly_postprocessing.py: AnomalyDetectionPostProcessing interval extraction"]}
{"id": "C20", "title": "Banded DTW equals the best warping path", "statement": "The banded dynamic time warping distance equals the minimum, over all monotone warping paths that stay in the band, of the summed squared differences (infinite when no such path exists).", "quantifier": "every pair of series and every band width", "why_tests_cant": "The set of warping paths is exponential.", "anchors": ["kats/detectors/dtwcpd.py: DTWCPDDetector.DTWDistance"]}
{"id": "C21", "title": "LB_Keogh never exceeds the DTW distance", "statement": "For two series of equal length and a band width of at least one, the LB_Keogh bound is at most the banded DTW distance.", "quantifier": "every pair of equal-length series and every band width >= 1", "why_tests_cant": "Inequality over all inputs.", "anchors": ["kats/detectors/dtwcpd.py: DTWCPDDetector.LB_Keogh, DTWDistance"]}
{"id": "C22", "title": "Pruning does not change the nearest neighbour", "statement": "Skipping candidates whose lower bound is not below the best distance so far returns the same nearest distance and the same matching subsequence as computing every distance.", "quantifier": "every collection of subsequences", "why_tests_cant": "All orders and ties.", "anchors": ["kats/detectors/dtwcpd.py: DTWCPDDetector._calculate_distances_for_all_subsequences"]}
{"id": "C23", "title": "DTW is a sensible dissimilarity", "statement": "The DTW distance of a series to itself is zero and the distance does not depend on the order of its two arguments.", "quantifier": "every series and band width", "why_tests_cant": "Asymmetry of the band only shows on particular inputs.", "anchors": ["kats/detectors/dtwcpd.py: DTWCPDDetector.DTWDistance"]}
{"id": "C24", "title": "TimeSeriesData is sorted and keeps the rows", "statement": "Constructing a time series with sorting enabled yields time stamps in nondecreasing order, the rows are a permutation of the input rows (each time keeps its value), and with duplicate removal each time stamp occurs once, with the first occurrence kept.", "quantifier": "every list of (time,value) rows", "why_tests_cant": "All input orders and duplicates.", "anchors": ["kats/consts.py: TimeSeriesData.__init__, _sort_by_time, _extract_from_df"]}
{"id": "C25", "title": "extend concatenates without loss", "statement": "Extending a series with another one yields exactly the rows of both in order, every cell unchanged and cells of columns the other series lacks missing; with validation it is rejected exactly when no frequency can be inferred from the joint time stamps, and a rejected extension leaves the series as it was.", "quantifier": "every pair of series", "why_tests_cant": "All interleavings of the two time ranges.", "anchors": ["kats/consts.py: TimeSeriesData.extend, validate_data"]}
{"id": "C26", "title": "Slicing and excluding select by time exactly", "statement": "Excluding a range removes exactly the rows with start <= time <= end and keeps the order of the rest; slicing returns the rows at the given positions in the stored order; slicing at k and concatenating gives back the series.", "quantifier": "every series and range", "why_tests_cant": "All boundary coincidences.", "anchors": ["kats/consts.py: TimeSeriesData.__getitem__, _exclude / exclude helpers, to_dataframe"]}
{"id": "C27", "title": "Series arithmetic aligns by time", "statement": "Adding, subtracting, multiplying or dividing a series by a number or by a series with the same time stamps gives a series with exactly those time stamps, one row each, whose value is the operation applied to both values at that time (missing if either is missing); a series with other time stamps is rejected.", "quantifier": "every pair of series, every number and operation", "why_tests_cant": "All time stamp lists, repeated time stamps and column names.", "anchors": ["kats/consts.py: TimeSeriesData._perform_op and arithmetic dunders"]}
{"id": "C28", "title": "Robust frequency is the most common gap", "statement": "The robust frequency inference returns a gap that occurs at least as often as any other gap between consecutive time stamps in time order (the smallest such gap on ties), and raises exactly for series with fewer than two points; a gap that makes up more than half of all gaps is always found.", "quantifier": "every time stamp list", "why_tests_cant": "All multisets of gaps, ties.", "anchors": ["kats/consts.py: TimeSeriesData.infer_freq_robust, is_data_missing"]}
{"id": "C29", "title": "AnomalyResponse is a sliding window", "statement": "Updating a non-empty response with a new point drops the oldest and appends the new point in every component, so after any number of updates every component has the original length and holds the most recent points.", "quantifier": "every response and every sequence of updates", "why_tests_cant": "Unbounded update histories.", "anchors": ["kats/detectors/detector_consts.py: AnomalyResponse.update, extend"]}
{"id": "C30", "title": "get_last_n returns the last n points", "statement": "Asking for the last n points returns a response with min(n,length) points, being the final ones.", "quantifier": "every response and n", "why_tests_cant": "n = 0 is a corner case of negative slicing.", "anchors": ["kats/detectors/detector_consts.py: AnomalyResponse.get_last_n"]}
{"id": "C31", "title": "Change point interval statistics follow the data", "statement": "A change point interval holds exactly the points with start <= time < end of what was supplied, extending it appends only points in range, and mean/variance are those of the held points; after extending, derived statistics reflect the new data.", "quantifier": "every interval, data and extension sequence", "why_tests_cant": "Caching interacts with call order.", "anchors": ["kats/detectors/detector_consts.py: ChangePointInterval"]}
{"id": "C32", "title": "Error metrics respect their ranges", "statement": "Mean absolute, squared, and absolute scaled errors are non-negative and zero exactly when all errors vanish; scaled sMAPE lies in [0,1]; coverage style metrics lie in [0,1]; pinball losses are non-negative; the tracking signal lies in [-n,n].", "quantifier": "every pair of equal-length vectors", "why_tests_cant": "Universal inequalities over vectors of any length.", "anchors": ["kats/metrics/metrics.py: mean_absolute_error, mean_squared_error, scaled_symmetric_mean_absolute_percentage_error, coverage, mult_coverage, pinball_loss, tracking_signal"]}
{"id": "C33", "title": "Published metric metadata is valid", "statement": "Every value a metric can return lies between the lower and upper bound published in the metadata for that metric, and every public metric has metadata under its own name.", "quantifier": "every metric and every input", "why_tests_cant": "Bounds must hold for all inputs.", "anchors": ["kats/metrics/metadata.py: METADATA", "kats/metrics/metrics.py: smape, mape"]}
{"id": "C34", "title": "Coverage and interval scores behave monotonically", "statement": "Widening every prediction interval never decreases coverage; the pinball loss of a constant is minimised by a quantile; the interval score equals the width when the observation is inside and is larger outside.", "quantifier": "every vectors of observations and intervals", "why_tests_cant": "All vectors.", "anchors": ["kats/metrics/metrics.py: coverage, mult_coverage, pinball_loss, interval_score"]}
{"id": "C35", "title": "Rolling statistics use exactly the trailing window", "statement": "The score of a point depends on, and only on, the configured number of points that immediately precede it (history included), one score is returned per data point, and insufficient history raises unless an expanding window is allowed.", "quantifier": "every data, history and window size", "why_tests_cant": "All lengths.", "anchors": ["kats/detectors/rolling_stats_model.py: RollingStatsModel fit_predict, window construction"]}
{"id": "C36", "title": "Rolling statistics calls are repeatable", "statement": "Calling fit_predict twice with the same arguments gives the same scores.", "quantifier": "every model configuration and inputs", "why_tests_cant": "Hidden state mutated by the first call.", "anchors": ["kats/detectors/rolling_stats_model.py: RollingStatsModel.fit_predict (rolling_window update)"]}
{"id": "C37", "title": "Percentile merging yields a distribution", "statement": "Merging equal percentiles yields strictly increasing support points with positive probabilities that sum to one.", "quantifier": "every nonempty sorted percentile list", "why_tests_cant": "All tie patterns.", "anchors": ["kats/detectors/distribution_distance_model.py: _merge_percentile"]}
{"id": "C38", "title": "Percentile projection yields comparable distributions", "statement": "Projecting two percentile lists on a common support yields two non-negative vectors of equal length that each sum to one.", "quantifier": "every two sorted percentile lists", "why_tests_cant": "Relative positions of the lists.", "anchors": ["kats/detectors/distribution_distance_model.py: _percentile_to_prob"]}
{"id": "C39", "title": "Reported seasonality lengths are irredundant and complete", "statement": "From the list of candidate lags the detector keeps lags such that none is a multiple of another kept one and every candidate is a multiple of some kept lag; kept lags appear among the candidates.", "quantifier": "every ascending list of positive lags", "why_tests_cant": "All divisibility patterns.", "anchors": ["kats/detectors/seasonality.py: ACFDetector._get_seasonality_length"]}
{"id": "C40", "title": "Robust-stat change points are spread and complete", "statement": "Reported change points are pairwise at least the smoothing window apart and every significant index lies within one window of a reported one.", "quantifier": "every list of significant indices", "why_tests_cant": "Greedy selection over arbitrary lists.", "anchors": ["kats/detectors/robust_stat_detection.py: RobustStatDetector.detector"]}
{"id": "C41", "title": "Outliers are exactly the residuals beyond the fences", "statement": "A point is reported as an outlier iff its residual lies outside [Q1 - k*IQR, Q3 + k*IQR], with a score outside [0,1]; one list per column is returned even when decomposition fails.", "quantifier": "every residual vector", "why_tests_cant": "All vectors.", "anchors": ["kats/detectors/outlier.py: OutlierDetector"]}
{"id": "C42", "title": "Hourly ratios are per-day distributions", "statement": "Every kept day contributes 24 ratios which sum to one; incomplete days are dropped and never influence other days.", "quantifier": "every hourly series", "why_tests_cant": "All patterns of missing hours.", "anchors": ["kats/detectors/hourly_ratio_detection.py: HourlyRatioDetector._preprocess"]}
{"id": "C43", "title": "Mann-Kendall scan visits every full window", "statement": "Scanning a whole series tests the window ending at each time index from the first full window on.", "quantifier": "every series length and window size", "why_tests_cant": "Boundary of iteration.", "anchors": ["kats/detectors/trend_mk.py: MKDetector.runDetector/detector"]}
{"id": "C44", "title": "The run-length posterior is the exact Bayesian posterior", "statement": "At every step the run-length probabilities are non-negative, sum to one, and equal the normalised total weight of all segmentations of the data consistent with that run length under the change point prior.", "quantifier": "every data set length, prior in (0,1) and predictive model with positive densities", "why_tests_cant": "The posterior sums over 2^t segmentations.", "anchors": ["kats/detectors/bocpd.py: _BayesOnlineChangePoint._find_posterior"]}
{"id": "C45", "title": "Aggregated change probabilities are posterior maxima", "statement": "With aggregation the change probability at i is the largest posterior probability, over all later times, that a run started at i; values lie in [0,1] and the first point is never a change point; change points are exactly the indices above the threshold.", "quantifier": "every posterior matrix and threshold", "why_tests_cant": "All matrices.", "anchors": ["kats/detectors/bocpd.py: _calc_agg_cppprob, _construct_output"]}
{"id": "C46", "title": "The returned run-length matrix is the posterior", "statement": "get_run_length_matrix returns the posterior computed by the run: each row still sums to one.", "quantifier": "every run with aggregation on or off", "why_tests_cant": "Aliasing of arrays.", "anchors": ["kats/detectors/bocpd.py: _calc_agg_cppprob (fill_diagonal on a view), get_run_length_matrix"]}
{"id": "C47", "title": "Ensemble weights form a convex combination", "statement": "Given non-negative backtest errors the weights are positive, sum to one, and a smaller error never gets a smaller weight; the weighted forecast lies between the smallest and largest base forecasts.", "quantifier": "every set of base models and errors", "why_tests_cant": "All error vectors.", "anchors": ["kats/models/ensemble/weighted_avg_ensemble.py: _backtester_all, predict", "kats/models/ensemble/kats_ensemble.py: forecast, aggregate"]}
{"id": "C48", "title": "Median ensemble lies between base forecasts", "statement": "The median forecast at each step has at least half of the base forecasts on each side and lies between the extremes; it does not depend on the order of models.", "quantifier": "every set of base forecasts", "why_tests_cant": "All vectors.", "anchors": ["kats/models/ensemble/median_ensemble.py: predict", "kats/models/ensemble/kats_ensemble.py: aggregate"]}
{"id": "C49", "title": "Seasonal models are trained on seasonal data", "statement": "When seasonality is detected the extra seasonal models are fitted on the original series and the other models on the deseasonalised series, for fit/predict as for forecast.", "quantifier": "every parameter set and both entry points", "why_tests_cant": "Two code paths must agree.", "anchors": ["kats/models/ensemble/kats_ensemble.py: fit, predict, forecast"]}
{"id": "C50", "title": "Reconciled forecasts are coherent across levels", "statement": "For every reconciliation method the forecasts returned for level k are the sums of k consecutive level-1 forecasts, and have floor(steps/k) entries.", "quantifier": "every level set, method and base forecasts", "why_tests_cant": "All level sets and horizons.", "anchors": ["kats/models/reconciliation/thm.py: TemporalHierarchicalModel._predict, _aggregate_data"]}
{"id": "C51", "title": "Summation matrix and common multiple are right", "statement": "The hierarchy period is the least common multiple of the levels and multiplying the summation matrix with a period of level-1 values yields exactly the block sums of every level.", "quantifier": "every set of positive levels", "why_tests_cant": "All level sets.", "anchors": ["kats/models/reconciliation/thm.py: _get_m, get_S, get_W"]}
{"id": "C52", "title": "Reconciliation leaves coherent forecasts unchanged", "statement": "If the base forecasts are already coherent, the bottom-up method and every weighted reconciliation (structural, variance or covariance weights) return them unchanged on all levels.", "quantifier": "every coherent forecasts and weights", "why_tests_cant": "Linear algebra identity in all dimensions.", "anchors": ["kats/models/reconciliation/thm.py: _predict"]}
{"id": "C53", "title": "Calendar features describe the calendar", "statement": "is_quarter_end is True exactly on the last day of March, June, September and December; week of month is the index of the Monday-based calendar row; season and daytime maps are applied simultaneously to every value.", "quantifier": "every date", "why_tests_cant": "Every date of an unbounded calendar.", "anchors": ["kats/utils/feature_engineering.py: date_features, time_features, _map"]}
{"id": "C54", "title": "A pipeline returns one result per series", "statement": "Fitting a pipeline on a list of series returns, for a model step, one fitted model per series, each fitted on its own series.", "quantifier": "every list of series and steps", "why_tests_cant": "Aliasing only visible with several series.", "anchors": ["kats/utils/cupik.py: Pipeline.__fit__, __model__"]}
{"id": "C55", "title": "Empirical prediction intervals contain the forecast", "statement": "The empirical interval satisfies lower <= forecast <= upper at each horizon.", "quantifier": "every error history and horizon", "why_tests_cant": "Linear extrapolation may go negative.", "anchors": ["kats/utils/emp_confidence_int.py: EmpConfidenceInt.get_eci"]}
{"id": "C56", "title": "Block scheme of the ensemble interval is well formed", "statement": "Accepted (block_size, n_block) settings cut the tail of the series in n_block+1 full contiguous blocks, error row i compares the forecast from block i with block i+1, and the projection has exactly the requested number of steps.", "quantifier": "every series length and setting", "why_tests_cant": "Integer division cases.", "anchors": ["kats/utils/ensemble_predict_interval.py: __init__, _get_error_matrix_single, _projection_single"]}
{"id": "C57", "title": "Simple heuristic forecasts have the requested horizon", "statement": "With at least `steps` observations the forecast has exactly `steps` values, `last` repeats the last `steps` observations in order, and mean/median/percentile values at offset j are computed from the observations whose distance to the end is congruent to j; with fewer observations it raises.", "quantifier": "every series length and horizon", "why_tests_cant": "Reshape arithmetic, negative zero slicing.", "anchors": ["kats/models/simple_heuristic_model.py: predict"]}
{"id": "C58", "title": "Renaming columns by prefix is unambiguous", "statement": "Renaming picks for every rule the unique column with the given prefix and raises otherwise; all other columns are untouched and order is kept.", "quantifier": "every column list and rule set", "why_tests_cant": "All overlaps of prefixes.", "anchors": ["kats/utils/dataframe_utils.py: rename_columns_by_prefix"]}
{"id": "C59", "title": "Version comparison is a total order", "statement": "Comparison of library versions is a total preorder consistent with equality, for every pair of version strings.", "quantifier": "every pair/triple of versions", "why_tests_cant": "Transitivity over all triples.", "anchors": ["kats/compat/compat.py: Version"]}
{"id": "C60", "title": "Interval detection calls are repeatable", "statement": "Calling fit_predict twice on the same interval detector with the same data returns the same critical values.", "quantifier": "every configuration", "why_tests_cant": "State written by the first call.", "anchors": ["kats/detectors/interval_detector.py: IntervalDetectorModel._get_critical_value, fit_predict"]}
{"id": "C61", "title": "Automatic duration keeps the global error within tolerance", "statement": "When no duration is given, the per-point level and duration the interval detector chooses give a global false-positive probability (under independence) of at most alpha*(1+r_tol).", "quantifier": "every alpha, series length and tolerance", "why_tests_cant": "The error is a probability over all 2^n rejection patterns.", "anchors": ["kats/detectors/interval_detector.py: IntervalDetectorModel._get_critical_value, _get_lowest_m"]}
{"id": "C62", "title": "Backtests compare each truth with the forecast for the same time step", "statement": "In every backtest fold, the j-th true value is compared with the value the model forecast for that same time step.", "quantifier": "every series, fold geometry, gap/offset and forecaster", "why_tests_cant": "An off-by-gap comparison is invisible unless the truth is known for every step; tests with smooth data accept shifted forecasts.", "anchors": ["kats/utils/backtesters.py: BackTesterParent._create_model, BackTesterSimple, BackTesterRollingOrigin, BackTesterFixedWindow"]}
{"id": "C64", "title": "Timestamp partition selects exactly the rows of the closed intervals", "statement": "For a time-sorted series, the training part is exactly the rows whose time lies in [train_start, train_end] and the test part exactly those in [test_start, test_end], in order, whatever ties or missing bounds.", "quantifier": "every sorted series and all four bounds", "why_tests_cant": "Boundary rows and ties depend on the side argument of two binary searches; examples cover few.", "anchors": ["kats/utils/datapartition.py: SimpleTimestampDataPartition._single_train_test_split"]}
{"id": "C65", "title": "A converged CUSUM change point is the best two-level split", "statement": "When the CUSUM search reports itself stable at a point strictly inside the search range, no other split point describes the series better (in squared error) with the reported mean before and mean after, and for an increase the mean after is at least the mean before (reversed for a decrease). A reported regression has a mean shift larger than the required minimum in the searched direction.", "quantifier": "every series, direction, start and iteration limit", "why_tests_cant": "Optimality quantifies over all split points of all series.", "anchors": ["kats/detectors/cusum_detection.py: CUSUMDetector._get_change_point, detector"]}
{"id": "C66", "title": "Online CUSUM scores every data point exactly once", "statement": "fit_predict returns one score per given data point, computed from consecutive, non-overlapping, non-empty step windows that cover all points from the end of the historical window on; earlier points get score zero. It does not raise on valid data.", "quantifier": "every increasing time index, history length, window, scan and step size (the path that is not vectorised)", "why_tests_cant": "Index arithmetic over irregular timestamps for every combination of windows.", "anchors": ["kats/detectors/cusum_model.py: CUSUMDetectorModel.fit_predict, _time2idx"]}
{"id": "C67", "title": "A CUSUM alert ends when the data is back at the baseline", "statement": "While an alert is active, a scan whose mean equals the stored baseline mean is treated as back to normal, for every watched direction.", "quantifier": "every state with an alert, every baseline and direction", "why_tests_cant": "Depends on the interplay of direction, infinite tolerance and zero standard deviation.", "anchors": ["kats/detectors/cusum_model.py: CUSUMDetectorModel._if_normal"]}
{"id": "C68", "title": "Detection does not change the caller's series", "statement": "Running the statistical significance detector leaves the history passed by the caller unchanged, so that a second identical call gives the same scores.", "quantifier": "every history and data series", "why_tests_cant": "Aliasing shows only for some relations between history length and window lengths, and only on a second use.", "anchors": ["kats/detectors/stat_sig_detector.py: StatSigDetectorModel._handle_not_enough_history, _get_anomaly_scores_only, fit_predict"]}
{"id": "C69", "title": "In-place updates touch exactly the addressed time", "statement": "inplace_update sets, in every component that is present, the value at the given time stamp to the given value for that component, and changes no other value and no time stamp; updates at different times commute, the later of two at the same time wins.", "quantifier": "every response and every pair of updates", "why_tests_cant": "Each of the six components must get its own argument at every index.", "anchors": ["kats/detectors/detector_consts.py: AnomalyResponse.inplace_update, _inplace_update_ts"]}
{"id": "C70", "title": "Extending a response is all or nothing", "statement": "extend appends the other response in every component, or raises and leaves the receiver unchanged.", "quantifier": "every pair of responses, with and without validation", "why_tests_cant": "Needs every combination of absent components and every component whose validation fails.", "anchors": ["kats/detectors/detector_consts.py: AnomalyResponse.extend"]}
{"id": "C71", "title": "The significance score is the pooled t statistic", "statement": "The score of a test window against a control window is the difference of the means divided by the pooled standard deviation (times sqrt(1/n+1/m) with corrected scores), undefined when both are constant. It does not change when a constant is added to, or a positive factor multiplies, all values; swapping the windows negates it; changes smaller than min_perc_change score 0.", "quantifier": "every pair of windows of at least one point, not both of one point", "why_tests_cant": "Invariance laws quantify over all data and all constants.", "anchors": ["kats/detectors/detector_consts.py: PercentageChange.score, _ttest_manual, _pooled_stddev"]}
{"id": "C72", "title": "Score sign and direction agree with the change", "statement": "The score is positive exactly when the test mean exceeds the control mean, and the direction is reported as up exactly then.", "quantifier": "every pair of windows", "why_tests_cant": "Depends on the sign of a ratio for every combination of signs.", "anchors": ["kats/detectors/detector_consts.py: PercentageChange.direction, perc_change, score"]}
{"id": "C73", "title": "Intervals contain the estimate and significance means excluding no change", "statement": "The confidence bands contain their centre symmetrically, the interval of the percentage change contains the percentage change, and stat_sig is false exactly when 0 percent lies strictly inside the interval; identical data are not reported as significantly different.", "quantifier": "every pair of windows and every quantile at or below zero", "why_tests_cant": "Degenerate variances and NaN bounds appear only for special data.", "anchors": ["kats/detectors/detector_consts.py: PercentageChange.ci_lower, ci_upper, perc_change_lower, perc_change_upper, stat_sig, _delta_method"]}
{"id": "C74", "title": "Rescaled multivariate scores carry the corrected p value", "statement": "After multiple-testing correction, each score has the sign of the uncorrected score, a magnitude not above it, and exactly the corrected two-sided p value.", "quantifier": "every symmetric distribution, every uncorrected score and every corrected p value at or above the uncorrected one", "why_tests_cant": "A statement about a quantile function and all p values.", "anchors": ["kats/detectors/detector_consts.py: PercentageChange._ttest_multivariate"]}
{"id": "C75", "title": "A column scores the same alone and in a multivariate series", "statement": "Without rescaling, the score of a column of a multivariate series equals the score of that column as a univariate series.", "quantifier": "every pair of windows and both score variants", "why_tests_cant": "Two code paths (scipy's test and a manual one) must agree for all data.", "anchors": ["kats/detectors/detector_consts.py: PercentageChange._ttest, _ttest_multivariate"]}
{"id": "C76", "title": "Spikes are the points far above the mean", "statement": "The spikes of an interval are exactly its points at least threshold standard deviations above the mean; there are at most (n-1)/threshold^2 of them.", "quantifier": "every data set of at least two points and every positive threshold", "why_tests_cant": "Chebyshev's bound over all data.", "anchors": ["kats/detectors/detector_consts.py: ChangePointInterval._detect_spikes"]}
{"id": "C77", "title": "DTW compares exactly the active windows", "statement": "The windows compared are exactly the runs of sliding_window_size consecutive values that start at a multiple of skip_size and contain a value above min_value; each is considered once and series without one are left out.", "quantifier": "every set of series at least as long as the window, every window length and step of at least one, every min_value", "why_tests_cant": "The last window and the step have to line up for every length.", "anchors": ["kats/detectors/dtwcpd.py: DTWCPDDetector._get_nonzero_subsequences, _get_all_nonzero_subsequences"]}
{"id": "C78", "title": "DTW reports only a minority of outlying series", "statement": "If k of n series are reported with threshold c then k*c < n; so with a threshold of at least one not every series is reported, and none when all distances equal the median.", "quantifier": "every list of distances and every non-negative threshold", "why_tests_cant": "A Markov inequality over all data.", "anchors": ["kats/detectors/dtwcpd.py: DTWCPDDetector._find_subsequences_anomalies"]}
{"id": "C79", "title": "DTW detection is repeatable", "statement": "Calling detector twice on the same object returns the same change points.", "quantifier": "every data set", "why_tests_cant": "Needs a second call with state left by the first.", "anchors": ["kats/detectors/dtwcpd.py: DTWCPDDetector.detector"]}
{"id": "C80", "title": "Missing values do not influence a metric", "statement": "A metric computed on vectors with missing entries equals the metric computed on the complete pairs only.", "quantifier": "every pair of equal-length vectors with any entries missing", "why_tests_cant": "The treatment of NaN is spread over masking, nan-functions and division helpers and must agree for every pattern of gaps.", "anchors": ["kats/metrics/metrics.py: mean_absolute_error, mean_squared_error, mean_error, median_absolute_error, symmetric metrics, pinball_loss, mean_absolute_percentage_error, coverage, tracking_signal"]}
{"id": "C81", "title": "Exceedance rates count what they are documented to count", "statement": "exceed returns the share of predictions below the actual value for thresholds up to 1/2 and above it otherwise; mult_exceed returns the same rates for several thresholds, block by block.", "quantifier": "every pair of vectors and every threshold or list of thresholds", "why_tests_cant": "All block layouts.", "anchors": ["kats/metrics/metrics.py: exceed, mult_exceed"]}
{"id": "C82", "title": "Rolling coverage is the coverage of a window", "statement": "mult_coverage returns one rate per point, each in [0,1], equal to the share of covered points in the window around the point.", "quantifier": "every vector and every window not longer than it", "why_tests_cant": "Off-by-one at either end of the window for even and odd lengths.", "anchors": ["kats/metrics/metrics.py: mult_coverage"]}
{"id": "C83", "title": "Weighted errors are weighted means", "statement": "The weighted mean absolute and squared errors are the weighted means of the errors over the complete pairs, and the weighted error vector adds up to the weighted mean error.", "quantifier": "every pair of vectors and every weight vector with non-zero total", "why_tests_cant": "All weights and all patterns of missing data.", "anchors": ["kats/metrics/metrics.py: mean_absolute_error, mean_squared_error, error (with sample_weight)"]}
{"id": "C84", "title": "Relative metrics do not depend on the unit", "statement": "Multiplying actuals and predictions by the same positive factor leaves the relative metrics unchanged.", "quantifier": "every pair of vectors (missing values included) and every positive factor", "why_tests_cant": "All factors.", "anchors": ["kats/metrics/metrics.py: mean_absolute_percentage_error, mean_percentage_error, symmetric metrics, mean_absolute_scaled_error"]}
{"id": "C85", "title": "Normal segments use the conjugate posterior", "statement": "With the normal model of known precision, the predictive mean and variance for a run of the last m points are those of the conjugate posterior given the configured prior mean and precision.", "quantifier": "every data set, prior mean, prior precision and known precision", "why_tests_cant": "Running sums over growing arrays for every run length at once.", "anchors": ["kats/detectors/bocpd.py: _NormalKnownPrec.__init__, update_sufficient_stats, pred_mean, pred_std"]}
{"id": "C86", "title": "Poisson segments use the conjugate posterior", "statement": "With the Poisson model, the predictive distribution for a run of the last m counts is the negative binomial of the Gamma posterior given those counts.", "quantifier": "every list of counts and Gamma prior", "why_tests_cant": "All run lengths and histories.", "anchors": ["kats/detectors/bocpd.py: _PoissonProcessModel.update_sufficient_stats"]}
{"id": "C87", "title": "The prior search maximises the marginal likelihood", "statement": "The score used to choose priors is the marginal likelihood of the data under the change point model.", "quantifier": "every data set and predictive model", "why_tests_cant": "A product over time of mixtures over run lengths equals a sum over all change point histories.", "anchors": ["kats/detectors/bocpd.py: _find_posterior (posterior_predictive), _get_eval_function"]}
{"id": "C88", "title": "Evidence decides about a change, not the prior alone", "statement": "For every lag the reported probability of a change depends on the data.", "quantifier": "every data set and predictive model", "why_tests_cant": "Needs an identity over all histories.", "anchors": ["kats/detectors/bocpd.py: _find_posterior, _construct_output"]}
{"id": "C89", "title": "More data never revises the past", "statement": "Adding points leaves the run length probabilities of earlier points unchanged, leaves available lagged probabilities unchanged, and never lowers aggregated ones; multiplying the densities of a point by a constant changes nothing.", "quantifier": "every data set and every continuation of it", "why_tests_cant": "All prefixes and continuations.", "anchors": ["kats/detectors/bocpd.py: _find_posterior, _calc_agg_cppprob, _construct_output"]}
{"id": "C90", "title": "Supplied forecasts beyond the needed ones are ignored", "statement": "The model needs steps // m whole periods of supplied forecasts on each level; the values it pads with are ignored in the final output, and too few forecasts are refused.", "quantifier": "every hierarchy, horizon, method and supplied forecasts", "why_tests_cant": "All lengths of supplied forecasts and horizons.", "anchors": ["kats/models/reconciliation/thm.py: _predict_origin, _predict"]}
{"id": "C91", "title": "Reconciliation is the weighted least squares adjustment", "statement": "With diagonal weights the reconciled forecasts are, period by period, the coherent vector closest to the base forecasts in the weighted squared distance; the weights of the struc, svar and hvar methods are positive and the linear system is then always solvable.", "quantifier": "every hierarchy, base forecasts and positive weights", "why_tests_cant": "A minimum over all coherent vectors.", "anchors": ["kats/models/reconciliation/thm.py: get_W, _predict"]}
{"id": "C92", "title": "Training series of a level are sums of complete trailing blocks", "statement": "The level-k training series consists of the sums of the complete blocks of k values counted from the end, each stamped with the time of its last value; levels longer than the series are refused; aggregating by a and then by b is aggregating by a*b.", "quantifier": "every series and levels", "why_tests_cant": "All lengths and remainders.", "anchors": ["kats/models/reconciliation/base_models.py: GetAggregateTS._aggregate_single"]}
{"id": "C93", "title": "The median method respects coherent forecasts", "statement": "The median method also returns coherent base forecasts unchanged, and its forecasts lie within the spread of the base forecasts.", "quantifier": "every hierarchy and base forecasts", "why_tests_cant": "All hierarchies.", "anchors": ["kats/models/reconciliation/thm.py: _predict"]}
{"id": "C94", "title": "Ensemble intervals contain the ensemble forecast", "statement": "If every base interval contains its base forecast, the aggregated interval contains the aggregated forecast, for the weighted mean and for the median.", "quantifier": "every set of base forecasts, intervals and weights", "why_tests_cant": "All numbers of learners, including learners without intervals and zero bounds.", "anchors": ["kats/models/ensemble/kats_ensemble.py: KatsEnsemble.aggregate, clean_dummy_CI, reseasonalize"]}
{"id": "C95", "title": "Ensemble forecasts are dated with the requested number of following dates", "statement": "The forecast table has exactly the requested number of rows, dated with the calendar dates that follow the last observation.", "quantifier": "every horizon, last date and calendar", "why_tests_cant": "All calendars, including those the last observation is not on.", "anchors": ["kats/models/ensemble/median_ensemble.py: predict", "kats/models/ensemble/weighted_avg_ensemble.py: predict", "kats/models/ensemble/kats_ensemble.py: aggregate"]}
{"id": "C96", "title": "Reseasonalising continues the last season", "statement": "Step j of a deseasonalised forecast gets the seasonal value of the same position in the last cycle, also in native intervals, so an exact deseasonalised forecast becomes an exact forecast.", "quantifier": "every horizon, season length, seasonal component and forecast", "why_tests_cant": "All horizons relative to the season length.", "anchors": ["kats/models/ensemble/kats_ensemble.py: KatsEnsemble.reseasonalize, deseasonalize"]}
{"id": "C97", "title": "Ensemble weights use the requested error metric", "statement": "The weights are computed from back-test errors in the metric passed to fit.", "quantifier": "every metric, series and parameter set", "why_tests_cant": "All metrics and both branches.", "anchors": ["kats/models/ensemble/kats_ensemble.py: KatsEnsemble.fit, fitExecutor"]}
{"id": "C98", "title": "The configured IQR multiple is the one applied", "statement": "The IQR based median deviation uses the fences Q1 - iqr_base*IQR and Q3 + iqr_base*IQR with the iqr_base given to the model.", "quantifier": "every configuration, series and window", "why_tests_cant": "Both ways of windowing.", "anchors": ["kats/detectors/rolling_stats_model.py: RollingStatsModel.fit_predict, calculate_iqr_median_deviation"]}
{"id": "C99", "title": "Rolling scores do not depend on units", "statement": "Changing the unit and origin of the data leaves z-scores and modified z-scores unchanged and multiplies IQR and MAD by the unit; the relative median deviation is unchanged by the unit.", "quantifier": "every series, history, window and positive unit", "why_tests_cant": "All affine maps.", "anchors": ["kats/detectors/rolling_stats_model.py: calculate_iqr, calculate_mad, calculate_z_scores, calculate_modified_z_scores_mad, calculate_modified_z_scores_iqr, calculate_iqr_median_deviation"]}
{"id": "C100", "title": "Rolling scores point in the direction of the deviation", "statement": "A point above the centre of its window gets a positive score and one below it a negative score.", "quantifier": "every window, score base and statistic", "why_tests_cant": "All windows, including constant and negative ones.", "anchors": ["kats/detectors/rolling_stats_model.py: calculate_z_scores, calculate_modified_z_scores_mad, calculate_modified_z_scores_iqr, calculate_iqr_median_deviation"]}
{"id": "C101", "title": "Each point is compared with the row one window earlier", "statement": "With rows in time order, every data point gets one score at its own time: the distance to the oldest row of the closed window ending at it, which must be older than nine tenths of the window; leading points for which no row can be compared yet get 0. The call raises exactly when the rows span less than the window, a row is not sorted, nothing can be compared, or a later point cannot be.", "quantifier": "every series, history, window and distance", "why_tests_cant": "All spacings and gaps of the rows.", "anchors": ["kats/detectors/distribution_distance_model.py: DistributionDistanceModel.fit_predict, _validate_monotonic, _validate_data_granularity"]}
{"id": "C102", "title": "Comparing two percentile lists does not depend on their order", "statement": "Exchanging the two lists exchanges the two probability vectors.", "quantifier": "every pair of percentile lists of the same length", "why_tests_cant": "All lists, including those with ties.", "anchors": ["kats/detectors/distribution_distance_model.py: _percentile_to_prob"]}
{"id": "C103", "title": "A polynomial trend does not change the detected seasonality", "statement": "With differencing of order d, adding to the series a trend whose d-th differences are constant leaves the result of the autocorrelation detector unchanged.", "quantifier": "every series, order and trend, for every autocorrelation estimate that ignores a constant offset", "why_tests_cant": "All polynomials and orders.", "anchors": ["kats/detectors/seasonality.py: ACFDetector.detector"]}
{"id": "C104", "title": "Reported spectral cycles are the peaks that are not harmonics", "statement": "The reported cycles are those of the spectral peaks above the bar that are not near a multiple of a stronger claim: every peak above the bar is either reported or near a multiple of a reported one.", "quantifier": "every spectrum, peak finder and bar", "why_tests_cant": "All patterns of near multiples.", "anchors": ["kats/detectors/seasonality.py: FFTDetector.detector, get_fft_peaks"]}
{"id": "C105", "title": "Robust-stat change points do not depend on units", "statement": "Rescaling (even with a change of sign) and shifting the series keeps the change points and scales their metrics; a constant series has none.", "quantifier": "every series, window, comparison offset and cut-off", "why_tests_cant": "All affine maps.", "anchors": ["kats/detectors/robust_stat_detection.py: RobustStatDetector.detector"]}
{"id": "C106", "title": "Every observation is examined for outliers", "statement": "Every observation of a column that is processed gets a score, at its own time.", "quantifier": "every series, regular or not", "why_tests_cant": "All spacings of the observations.", "anchors": ["kats/detectors/outlier.py: OutlierDetector.__clean_ts__"]}
{"id": "C107", "title": "Removing outliers removes exactly the outliers", "statement": "The returned series has the same times and columns; the values of the outliers of a column are missing, or with interpolation lie on the line through the neighbouring remaining values, and all other values are unchanged. The outliers found by the detector can be removed from the series they were found in.", "quantifier": "every series, outlier lists and interpolation setting", "why_tests_cant": "All patterns of outliers and missing values.", "anchors": ["kats/detectors/detector.py: Detector.remover", "kats/detectors/outlier.py: OutlierDetector.detector"]}
{"id": "C108", "title": "Outliers do not depend on units", "statement": "Changing the unit (and, additively, the origin) of the data does not change the outliers.", "quantifier": "every series, multiple and decomposition that commutes with units", "why_tests_cant": "All affine maps.", "anchors": ["kats/detectors/outlier.py: OutlierDetector.__clean_ts__"]}
{"id": "C109", "title": "Each observation after the training period is scored once, from the past", "statement": "On a regular series every observation after the training period gets one score at its own time, computed from its own value and a model fitted to the training period that ends one step earlier.", "quantifier": "every regular series, step and training length, and every forecasting model", "why_tests_cant": "All lengths; independence of later data.", "anchors": ["kats/detectors/outlier.py: MultivariateAnomalyDetector.detector, _generate_forecast, _calc_anomaly_scores"]}
{"id": "C110", "title": "Cleaning training data removes the values far from the mean", "statement": "Training values three or more standard deviations from the mean, on either side, are replaced by interpolation and all others are kept.", "quantifier": "every training window", "why_tests_cant": "All values, including constant columns.", "anchors": ["kats/detectors/outlier.py: MultivariateAnomalyDetector._clean_data"]}
{"id": "C111", "title": "Anomalies are the points significant at the requested level", "statement": "A time is reported at level alpha iff the chi-square tail of the squared Mahalanobis distance of its error is below alpha.", "quantifier": "every level, tail and scored point", "why_tests_cant": "All distances and levels.", "anchors": ["kats/detectors/outlier.py: MultivariateAnomalyDetector._calc_anomaly_scores, get_anomaly_timepoints"]}
{"id": "C112", "title": "The most anomalous metrics are metrics, in order", "statement": "The anomalous metrics at a time are metrics of the data, in descending order of their scores.", "quantifier": "every set of metrics, scores and limit", "why_tests_cant": "All score vectors.", "anchors": ["kats/detectors/outlier.py: MultivariateAnomalyDetector.get_anomalous_metrics"]}
{"id": "C113", "title": "Every observed date is either compared or reported as incomplete", "statement": "Each date with observations is either reported as incomplete or contributes exactly one row per hour 0..23, never both.", "quantifier": "every series, frequency and aggregation", "why_tests_cant": "All layouts of the observations over a day.", "anchors": ["kats/detectors/hourly_ratio_detection.py: HourlyRatioDetector._preprocess"]}
{"id": "C114", "title": "The abnormal days are those whose pattern is far from the weekday's", "statement": "A kept day is reported iff the tail of its squared distance from the rescaled median pattern of its weekday is at most 0.01, with confidence one minus that tail; no day is reported twice.", "quantifier": "every series, covariance estimate and tail function", "why_tests_cant": "All tables of hourly ratios.", "anchors": ["kats/detectors/hourly_ratio_detection.py: HourlyRatioDetector.detector, _mahalanobis_test"]}
{"id": "C115", "title": "A day with exactly the typical pattern is at distance zero", "statement": "The distance of a day whose hourly ratios are the medians of its weekday is zero.", "quantifier": "every series and covariance estimate", "why_tests_cant": "All patterns.", "anchors": ["kats/detectors/hourly_ratio_detection.py: HourlyRatioDetector.detector"]}
{"id": "C116", "title": "Detection runs whenever there is a complete day", "statement": "The detector returns a result for every hourly series with at least one complete day.", "quantifier": "every series accepted by the constructor", "why_tests_cant": "All combinations of missing weekdays and zero days.", "anchors": ["kats/detectors/hourly_ratio_detection.py: HourlyRatioDetector.detector"]}
{"id": "C117", "title": "Hourly ratios do not depend on the unit", "statement": "Multiplying all values by a positive constant changes neither the dates kept or reported as incomplete nor any ratio.", "quantifier": "every series, frequency and aggregation", "why_tests_cant": "All scales.", "anchors": ["kats/detectors/hourly_ratio_detection.py: HourlyRatioDetector._preprocess"]}
{"id": "C118", "title": "The significance level given is the level of the test", "statement": "A trend is reported only when its p-value is below the level alpha passed to the constructor.", "quantifier": "every level, series and mode", "why_tests_cant": "All levels and series.", "anchors": ["kats/detectors/trend_mk.py: MKDetector.__init__, MKtest"]}
{"id": "C119", "title": "Reported trend points have the requested direction and a Tau beyond the threshold", "statement": "The reported points are exactly the tested times whose trend has a requested direction, in order, each with confidence one minus its p-value, and its Tau is beyond the threshold in that direction.", "quantifier": "every series, direction, threshold and mode", "why_tests_cant": "All series.", "anchors": ["kats/detectors/trend_mk.py: MKDetector.get_MK_results, _convert_detected_tps"]}
{"id": "C120", "title": "Tau measures monotonicity and does not depend on units", "statement": "Tau lies in [-1,1], is 1 (-1) exactly for strictly rising (falling) windows, the overall Tau is the mean of the metrics' Taus, and changing units (even per metric) changes nothing; reversing signs reverses trends and Tau.", "quantifier": "every series, window and rescaling", "why_tests_cant": "All pairs in all windows.", "anchors": ["kats/detectors/trend_mk.py: MKDetector.MKtest, multivariate_MKtest"]}
{"id": "C121", "title": "A trend test uses the data up to and including its time", "statement": "The result at a time depends on no later observation, and the latest observation contributes to it.", "quantifier": "every series and replacement of later values", "why_tests_cant": "All continuations.", "anchors": ["kats/detectors/trend_mk.py: MKDetector._smoothing, runDetector"]}
{"id": "C122", "title": "Anchor mode tests the last window before the anchor date", "statement": "With training days given, one test is made, at the last time, on the last window_size observations.", "quantifier": "every series, window, number of training days and spacing", "why_tests_cant": "All spacings of observations.", "anchors": ["kats/detectors/trend_mk.py: MKDetector._get_start_date, detector"]}
{"id": "C123", "title": "Top metrics are ranked by Tau", "statement": "The top metrics at a tested time are the metrics tested then, strongest first in the chosen direction, cut to the number asked for; in anchor mode the anchor date is used.", "quantifier": "every multivariate series, direction and number", "why_tests_cant": "All Tau vectors, ties included.", "anchors": ["kats/detectors/trend_mk.py: MKDetector.get_top_k_metrics"]}
{"id": "C124", "title": "Every metric is tested", "statement": "Each metric of the data is tested and reported.", "quantifier": "every series, with or without missing values", "why_tests_cant": "All patterns of missing values.", "anchors": ["kats/detectors/trend_mk.py: MKDetector.detector"]}
{"id": "C125", "title": "Circular encoding identifies values exactly modulo the period", "statement": "The encoded points lie on the unit circle, reducing modulo the period first changes nothing, and two values get the same point iff they differ by a multiple of the period.", "quantifier": "every list of integer features and period", "why_tests_cant": "All integers and periods.", "anchors": ["kats/utils/feature_engineering.py: circle_encode"]}
{"id": "C126", "title": "Fitting a pipeline leaves the caller's arguments unchanged", "statement": "After fit, the list of series and the parameters passed in are what they were.", "quantifier": "every list of series, parameters and steps", "why_tests_cant": "All step sequences; in-place assignment.", "anchors": ["kats/utils/cupik.py: Pipeline.fit, __detect__"]}
{"id": "C127", "title": "Every detector and model of the library can be a pipeline step", "statement": "A pipeline built from the library's detectors, features and models raises only if one of the steps raises on its series.", "quantifier": "every pipeline and list of series", "why_tests_cant": "All step sequences and classes.", "anchors": ["kats/utils/cupik.py: Pipeline.__fit__, __detect__", "kats/detectors/detector.py: Detector.__init__", "kats/detectors/trend_mk.py: MKDetector.__init__"]}
{"id": "C128", "title": "Empirical intervals have the nominal coverage", "statement": "For symmetric errors of constant spread, the interval with confidence level p has probability p around the forecast, and a higher level gives a wider interval.", "quantifier": "every symmetric distribution, level, error history and horizon", "why_tests_cant": "All distributions and levels.", "anchors": ["kats/utils/emp_confidence_int.py: EmpConfidenceInt.get_eci"]}
{"id": "C129", "title": "Forecast dates continue the series", "statement": "The forecast has one date per step, the k-th being the last observed date plus k times the frequency.", "quantifier": "every series, horizon and frequency", "why_tests_cant": "All positions of the last date relative to the frequency grid.", "anchors": ["kats/models/simple_heuristic_model.py: predict"]}
{"id": "C130", "title": "Bands of the ensemble interval", "statement": "At each step the forecast is the mean of the simulated paths and the band is mean -+ deviation times the quantile of the level; another level can be asked of the same ensemble, and a higher level gives a band that contains the lower one's.", "quantifier": "every series, learner, level, number of steps and ensemble size", "why_tests_cant": "All ensembles and levels.", "anchors": ["kats/utils/ensemble_predict_interval.py: get_projection, get_confidence_band"]}
{"id": "C131", "title": "Simulated paths do not depend on how the work is spread", "statement": "The ensemble is a set of independent paths whatever the number of processes.", "quantifier": "every assignment of paths to worker processes", "why_tests_cant": "All schedules of the process pool.", "anchors": ["kats/utils/ensemble_predict_interval.py: _projection, multiprocessing Pool"]}
{"id": "C132", "title": "A score beyond the threshold raises an alert", "statement": "With the default settings a score is alerting exactly when it is beyond the threshold in the direction asked for.", "quantifier": "every score series, threshold and direction", "why_tests_cant": "All spacings and positions of the scores.", "anchors": ["kats/detectors/anomaly_postprocessing.py: _crossed_threshold_df, _start_alert_function"]}
{"id": "C133", "title": "Severity of an alert measures duration, area and magnitude of the excess", "statement": "The duration is end minus start, the volume is the area under the excess over the threshold, the height its mean, and the magnitude the largest excess relative to its threshold.", "quantifier": "every score series, interval, threshold and direction", "why_tests_cant": "All spacings and values.", "anchors": ["kats/detectors/anomaly_postprocessing.py: get_severity_score_df"]}
{"id": "C134", "title": "The overall severity summarises the alerts", "statement": "The summary has the number of alerts, the sums of volumes and durations, the average height over time and the largest magnitude, for any number of alerts.", "quantifier": "every score series", "why_tests_cant": "All numbers of alerts, none included.", "anchors": ["kats/detectors/anomaly_postprocessing.py: get_overall_severity_score"]}
{"id": "C135", "title": "Technical features use no later rows", "statement": "The value of a feature at a row depends only on that row and the rows before it (for the negative lag that defines the label: only on later ones).", "quantifier": "every column, window length, row and change of later rows", "why_tests_cant": "All lengths and all possible futures; look-ahead is invisible in tests with fixed expectations.", "anchors": ["kats/models/nowcasting/feature_extraction.py: ROC, MOM, MA, LAG, MACD, BBANDS, TRIX, EMA, TSI, RSI"]}
{"id": "C136", "title": "Rate of change, momentum, mean and lag are the documented formulas", "statement": "LAG is the value n rows before, MOM the difference to it, ROC the relative change from it, MA the mean of the last n values, missing where these rows do not exist or are missing.", "quantifier": "every column, window length and row", "why_tests_cant": "All lengths, windows and missing values.", "anchors": ["kats/models/nowcasting/feature_extraction.py: ROC, MOM, MA, LAG"]}
{"id": "C137", "title": "Exponential averages weight recent values more and stay within the data", "statement": "EMA at a row is the average of the values up to it with weights that shrink by the documented factor per row; it lies between the least and the greatest of them; MACD and its signal vanish on constant data, and MACDdiff is their difference.", "quantifier": "every column, span and row", "why_tests_cant": "All lengths and missing values.", "anchors": ["kats/models/nowcasting/feature_extraction.py: EMA, MACD"]}
{"id": "C138", "title": "Oscillators stay in their documented range", "statement": "RSI lies in [0, 100], is missing for the first rows and is 100 exactly when no value so far was below its predecessor; TSI lies in [-1, 1].", "quantifier": "every column, window lengths and row", "why_tests_cant": "All data.", "anchors": ["kats/models/nowcasting/feature_extraction.py: RSI, TSI"]}
{"id": "C139", "title": "Features can be added for any column and in any order", "statement": "Adding a feature keeps all columns, adds exactly the documented ones and raises only if the column is absent or the new label is present.", "quantifier": "every frame, column and sequence of features", "why_tests_cant": "All sequences.", "anchors": ["kats/models/nowcasting/feature_extraction.py: all functions (df.join)"]}
{"id": "C140", "title": "Bollinger columns locate the value in the band", "statement": "The first column is the width of the band of two standard deviations around the moving mean relative to the mean; the second is 0 at the lower end, 1 at the upper end and linear between, missing if the deviation is zero.", "quantifier": "every column, window and row", "why_tests_cant": "All data.", "anchors": ["kats/models/nowcasting/feature_extraction.py: BBANDS"]}
{"id": "C141", "title": "Nowcasting learns the value the given number of rows ahead, from the past only", "statement": "The training set is, in order, the pair of inputs and value step rows later for exactly the rows that have both; the rows up to any point determine the training pairs up to that point; a step below one raises.", "quantifier": "every series (with missing values and zeros), step and cut", "why_tests_cant": "All lengths, positions of missing values and zeros, and futures.", "anchors": ["kats/models/nowcasting/nowcasting.py: feature_extraction, label_extraction, fit"]}
{"id": "C142", "title": "The nowcast is one number for the row step rows after the end", "statement": "predict returns the regressor's forecast from the last row.", "quantifier": "every regressor, series and step", "why_tests_cant": "All series and steps.", "anchors": ["kats/models/nowcasting/nowcasting.py: predict"]}
{"id": "C143", "title": "NowcastingPlus adds back the season it removed", "statement": "The forecast is the value expected by the regressor for the deviation from the daily curve, plus the curve at the forecast time, so a right regressor gives the right value.", "quantifier": "every regressor, curve, series, sampling grid and step", "why_tests_cant": "All grids, lengths and curves.", "anchors": ["kats/models/nowcasting/nowcastingplus.py: feature_extraction, fit, predict"]}
{"id": "C144", "title": "The dynamic model forecasts step rows ahead", "statement": "With a regressor that is right about its labels the forecast is the value step rows ahead.", "quantifier": "every regressor, curve, series and step", "why_tests_cant": "All steps and curves.", "anchors": ["kats/models/nowcasting/dynamic_nowcasting.py: fit, predict"]}
{"id": "C145", "title": "Evaluation runs exist from creation to deletion and are independent", "statement": "After any history of calls, failing ones included, a run exists exactly if it was created and not deleted since; creating an existing run and using a missing one raise; a call about one run leaves the others unchanged.", "quantifier": "every history of create, delete, get, store and evaluate calls", "why_tests_cant": "All histories.", "anchors": ["kats/evaluation/evaluator.py: Evaluator"]}
{"id": "C146", "title": "An evaluation stores consistent results or nothing", "statement": "A successful evaluation returns and stores each metric of the stored predictions and the given labels; a failing one leaves the run as it was.", "quantifier": "every history, metrics and labels", "why_tests_cant": "All histories and failing metrics.", "anchors": ["kats/evaluation/evaluator.py: Evaluator.evaluate"]}
{"id": "C147", "title": "The residual translator scores every row it is given", "statement": "The residual is observation minus prediction (over the width of the band if given); exactly the documented argument combinations are accepted; every input row gets a probability and the arguments are left unchanged.", "quantifier": "every combination of arguments and series", "why_tests_cant": "All combinations and positions of missing values.", "anchors": ["kats/detectors/residual_translation.py: _get_residual, predict_log_proba"]}
{"id": "C148", "title": "The residual translator learns from all residuals unless told to ignore some", "statement": "The density is learnt from the residuals between the two given quantiles, by default all of them.", "quantifier": "every list of residuals and pair of levels", "why_tests_cant": "All lists and ties.", "anchors": ["kats/detectors/residual_translation.py: fit"]}
{"id": "C63", "title": "The one-sample proportion test keeps its level", "statement": "If the proportion of the null hypothesis holds, the test at level alpha rejects with probability at most alpha.", "quantifier": "every number of trials, proportion, level and test type", "why_tests_cant": "A statement about all sample sizes and probabilities.", "anchors": ["kats/detectors/interval_detector.py: OneSampleProportionIntervalDetectorModel, _apply_decision"]}
{"id": "C149", "title": "The reported significance of the one-sample proportion test agrees with the decision", "statement": "The significance is the probability under the null hypothesis of a result as extreme, and a result is rejected exactly if it is at most alpha.", "quantifier": "every number of trials and successes, proportion, level and test type", "why_tests_cant": "All counts and levels.", "anchors": ["kats/detectors/interval_detector.py: OneSampleProportionIntervalDetectorModel._one_sample_test_statistic"]}
{"id": "C150", "title": "Injected level shifts raise exactly the rows of their segments", "statement": "With the documented arguments (one level more than change points) the rows from each change point to the next are raised by the level of the segment and no other row changes.", "quantifier": "every series, change points and levels", "why_tests_cant": "All series, positions and numbers of segments.", "anchors": ["kats/utils/simulator.py: Simulator.inject_level_shift, _check_arr_inputs"]}
{"id": "C151", "title": "Injected trend shifts change the slope of their segments", "statement": "From each change point to the next the series rises by the given trend per row on top of its own change, and keeps what was added afterwards.", "quantifier": "every series, change points and trends", "why_tests_cant": "All positions; induction over segments.", "anchors": ["kats/utils/simulator.py: Simulator.inject_trend_shift"]}
{"id": "C152", "title": "Injected spikes are z-scores of the local deviation", "statement": "Each given row is moved by its z-score times the deviation from the mean of three values (plus epsilon); other rows do not change; moving_average is the mean of n consecutive values.", "quantifier": "every series, positions, z-scores and window", "why_tests_cant": "All series and windows.", "anchors": ["kats/utils/simulator.py: Simulator.inject_spikes, moving_average"]}
{"id": "C153", "title": "Simulated level shifts have the levels, anomalies and season asked for", "statement": "Row k is the level of its segment plus noise plus a season of the given period; an anomaly is the level of its segment plus z-score times noise; a series that is too short is lengthened.", "quantifier": "every length, change points, levels, anomalies and noise", "why_tests_cant": "All positions, first rows and change points included.", "anchors": ["kats/utils/simulator.py: Simulator.level_shift_sim, _get_level_shift_y_val, _adjust_length"]}
{"id": "C154", "title": "Simulated trend shifts are continuous and reproducible", "statement": "The trend starts at the intercept, rises by the trend of each segment and is continuous; the seed determines the series.", "quantifier": "every length, change points, trends, anomalies and state of the generator", "why_tests_cant": "All positions and generator states.", "anchors": ["kats/utils/simulator.py: Simulator.trend_shift_sim"]}
{"id": "C155", "title": "Simulated ARIMA series satisfy their equation", "statement": "Every returned row satisfies the ARMA equation with its errors, and with d unit roots the d-th differences do.", "quantifier": "every coefficients, errors, length, burn-in and number of unit roots", "why_tests_cant": "All orders and lengths; the passes overwrite the array they read.", "anchors": ["kats/utils/simulator.py: Simulator.arima_sim"]}
{"id": "C156", "title": "Simulator components add up", "statement": "Additive components add up in any order, multiplicative ones scale the series; the trend starts at zero and the season repeats after its period.", "quantifier": "every history of components and times", "why_tests_cant": "All histories.", "anchors": ["kats/utils/simulator.py: Simulator.add_trend, add_seasonality, _add_component, stl_sim"]}
{"id": "C157", "title": "Feature extractors do not influence each other", "statement": "The features an extractor reports depend only on the groups, names and switches it was made with, not on extractors made before or after it.", "quantifier": "every history of constructions and calls", "why_tests_cant": "All histories; the tables are shared by all instances of the class.", "anchors": ["kats/tsfeatures/tsfeatures.py: TsFeatures.__init__, _transform_1d"]}
{"id": "C158", "title": "The features asked for are the features reported", "statement": "With a list of groups and names, exactly the features they cover are reported; with default arguments and keywords, those left on; contradictions between the list and keywords raise.", "quantifier": "every list of groups and names and all keywords", "why_tests_cant": "All selections and keywords.", "anchors": ["kats/tsfeatures/tsfeatures.py: TsFeatures.__init__, feature_group_mapping, _transform_1d"]}
{"id": "C159", "title": "Crossing points and binarised means", "statement": "crossing_points counts the steps that go from one side of the median to the other; binarize_mean is the share of values above the mean.", "quantifier": "every series", "why_tests_cant": "All series and all orders.", "anchors": ["kats/tsfeatures/tsfeatures.py: TsFeatures.get_crossing_points, get_binarize_mean"]}
{"id": "C160", "title": "The level shift finds the largest difference of rolling means", "statement": "level_shift_size and level_shift_idx are the largest difference of adjacent rolling means and its first position; a step of height h gives size h.", "quantifier": "every series and window", "why_tests_cant": "All series and windows.", "anchors": ["kats/tsfeatures/tsfeatures.py: TsFeatures.get_level_shift"]}
{"id": "C161", "title": "Flat spots", "statement": "flat_spots is the length of the longest run of equal values of the series (documented: the maximum run length over the bins the series is cut into).", "quantifier": "every series and number of bins", "why_tests_cant": "All series and bin counts.", "anchors": ["kats/tsfeatures/tsfeatures.py: TsFeatures.get_flat_spots"]}
{"id": "C162", "title": "First minimum and first zero of the autocorrelation", "statement": "firstmin_ac is the first lag after which the autocorrelation does not fall any more; firstzero_ac the first lag where it has reached or crossed zero.", "quantifier": "every series", "why_tests_cant": "All series; lags are a quantifier of their own.", "anchors": ["kats/tsfeatures/tsfeatures.py: TsFeatures.get_special_ac, get_acfpacf_features"]}
{"id": "C163", "title": "Nowcasting features", "statement": "The nowcasting features of the extractor are the means over the series of rate of change, momentum, moving average, lag and the differences of exponential averages.", "quantifier": "every series and window", "why_tests_cant": "All series and windows.", "anchors": ["kats/tsfeatures/tsfeatures.py: TsFeatures.get_nowcasting, _get_nowcasting_np, _ewma"]}
{"id": "C164", "title": "Lumpiness and stability", "statement": "lumpiness is the variance of the variances and stability the variance of the means of consecutive pieces of the window size; scaling the series scales them by the fourth power and the square.", "quantifier": "every series, window size, scale and shift", "why_tests_cant": "All series, windows and units.", "anchors": ["kats/tsfeatures/tsfeatures.py: TsFeatures.get_lumpiness, get_stability"]}
{"id": "C165", "title": "Features of the time stamps", "statement": "Years, months, days, weekdays and the span reported are those of the time stamps.", "quantifier": "every list of time stamps", "why_tests_cant": "All lists of time stamps.", "anchors": ["kats/tsfeatures/tsfeatures.py: TsFeatures.get_time, TsCalenderFeatures"]}
{"id": "C166", "title": "Fourier columns hold the waves their names say", "statement": "For each period and order 1..n there is a sine and a cosine column, named by period, order and wave, whose value is that wave of the time in units of the offset; rows a whole number of periods apart are equal; a non-positive offset raises.", "quantifier": "every periods, orders, offset and times", "why_tests_cant": "All periods, orders and times; names and values are built by different loops.", "anchors": ["kats/tsfeatures/tsfeatures.py: TsFourierFeatures"]}
{"id": "C167", "title": "The outlier detector model scores the data it is given, and leaves the arguments alone", "statement": "fit_predict(data, historical_data) returns, for every row of data, the score the outlier detector gives to it in the history followed by the data, whatever the model was used for before; neither argument is changed.", "quantifier": "every program of fit, predict and fit_predict calls and changes by the caller", "why_tests_cant": "All call histories; the model keeps references to the caller's series.", "anchors": ["kats/detectors/outlier_detector.py: OutlierDetectorModel.fit, predict, fit_predict", "kats/detectors/detector.py: Detector.remover"]}
{"id": "C168", "title": "The multivariate detector model scores the rows it is given at their own times", "statement": "The scores returned for data have one row per row of data, each the score computed for that time, or missing if none was.", "quantifier": "every history, data, training period and fitted model", "why_tests_cant": "All lengths of history, data and training period.", "anchors": ["kats/detectors/multivariate_detector.py: MultivariateAnomalyDetectorModel.fit, predict, fit_predict"]}
{"id": "C169", "title": "Trend forecasts have one row per step, at the times after the data", "statement": "A fitted linear or quadratic model predicts n rows, at the n grid times after the last time stamp, after one row per observation if include_history; asking for one step works like asking for more.", "quantifier": "every series, number of steps, include_history and grid", "why_tests_cant": "All lengths and numbers of steps; the result is cut out of one prediction by position.", "anchors": ["kats/models/linear_model.py: LinearModel.predict", "kats/models/quadratic_model.py: QuadraticModel.predict"]}
{"id": "C170", "title": "The trend fitted is the least squares trend", "statement": "The forecasts continue the line (parabola) with the smallest sum of squared differences to the observations, counted in observations from 0.", "quantifier": "every series, of any length", "why_tests_cant": "The minimum is over all lines and parabolas.", "anchors": ["kats/models/linear_model.py: LinearModel.fit", "kats/models/quadratic_model.py: QuadraticModel.fit"]}
{"id": "C171", "title": "Exact trends are continued, and units do not matter", "statement": "Observations on a line (parabola) are continued exactly; scaling the observations and adding a line (parabola) to them scales and shifts every forecast and both bounds the same way.", "quantifier": "every line, parabola, scale and series", "why_tests_cant": "All coefficients and series.", "anchors": ["kats/models/linear_model.py: LinearModel.predict", "kats/models/quadratic_model.py: QuadraticModel.predict"]}
{"id": "C172", "title": "Prediction intervals of the trend models", "statement": "The forecast lies in the middle of its interval, a smaller alpha never gives a narrower one, its half width is the quantile times sqrt(S/(n-p) (1 + x'(X'X)^-1 x)), an exact trend gives an interval of width zero, and intervals of the linear model widen with the step.", "quantifier": "every series, alpha and step", "why_tests_cant": "All series, levels and steps.", "anchors": ["kats/models/linear_model.py: LinearModel.predict", "kats/models/quadratic_model.py: QuadraticModel.predict"]}
{"id": "C173", "title": "STLF puts the season back at its own phase", "statement": "Each forecast is the forecast of the deseasonalised series with the seasonal component of the observation a whole number of seasons before put back; asking for the history as well does not change the forecasts.", "quantifier": "every series, season length, number of steps and inner model", "why_tests_cant": "All lengths against all season lengths; the season is tiled by position.", "anchors": ["kats/models/stlf.py: STLFModel.predict, deseasonalize"]}
{"id": "C174", "title": "STLF keeps the order of the bounds", "statement": "With additive seasons, or positive multiplicative ones, bounds around the inner forecast stay around the forecast.", "quantifier": "every series, decomposition and inner model", "why_tests_cant": "All seasons and inner forecasts.", "anchors": ["kats/models/stlf.py: STLFModel.predict"]}
{"id": "C175", "title": "STLF continues a seasonal line", "statement": "If the decomposition recovers the season of a line with a repeating season, STLF with the linear method forecasts exactly the line with its season.", "quantifier": "every line, season, length and number of steps", "why_tests_cant": "All lines, seasons and lengths.", "anchors": ["kats/models/stlf.py: STLFModel.fit, predict", "kats/models/linear_model.py: LinearModel.predict"]}
{"id": "C176", "title": "The Theta forecast is the mean of the trend line and the smoothed theta line", "statement": "For a series without season each forecast is the mean of the least squares line at that step and of the exponential smoothing of the line with doubled curvature; a straight line is continued with half its slope.", "quantifier": "every series, smoothing level and step", "why_tests_cant": "The closed form used must agree for every length and smoothing level.", "anchors": ["kats/models/theta.py: ThetaModel.fit, predict"]}
{"id": "C177", "title": "Theta intervals", "statement": "The forecast is in the middle of its interval, which never gets narrower with the step; series of at most two observations have no bounds.", "quantifier": "every series, alpha and step", "why_tests_cant": "All series and steps.", "anchors": ["kats/models/theta.py: ThetaModel.predict"]}
{"id": "C178", "title": "The season of the Theta forecast", "statement": "For a seasonal series each forecast is that of the deseasonalised series times the season a whole number of seasons before; where the log says the non-seasonal method is used, its forecasts are given.", "quantifier": "every series, season length and step", "why_tests_cant": "All lengths against all season lengths.", "anchors": ["kats/models/theta.py: ThetaModel.check_seasonality, deseasonalize, predict"]}
{"id": "C179", "title": "Harmonic regression fits the closest waves", "statement": "A fitted model predicts a sum of the given number of harmonics of the period, the closest one in squares to the deviations of the data from their mean; predictions a whole number of periods apart are equal; a non-positive period or order is refused, and fewer observations than coefficients raise.", "quantifier": "every series, period, order and dates", "why_tests_cant": "The minimum is over all coefficients; periods and dates are unbounded.", "anchors": ["kats/models/harmonic_regression.py: HarmonicRegressionModel.fit, predict, fourier_series, fit_harmonics", "kats/models/harmonic_regression.py: HarmonicRegressionParams"]}
{"id": "C180", "title": "Harmonic regression predicts the level of the data", "statement": "Predictions of a series that is waves around a level are that series.", "quantifier": "every level, waves and times", "why_tests_cant": "All levels and waves.", "anchors": ["kats/models/harmonic_regression.py: HarmonicRegressionModel.fit_harmonics, predict"]}
{"id": "C181", "title": "Bayesian VAR iterates its equations", "statement": "Fitted values are those of the fitted equations at the times of the data; each forecast is that of the equations at its own time, applied to the data and the forecasts before it.", "quantifier": "every data, lag order, coefficients and number of steps", "why_tests_cant": "All horizons; the recursion feeds forecasts back.", "anchors": ["kats/models/bayesian_var.py: BayesianVAR.predict, _look_ahead_step, _construct_z, _get_training_residuals"]}
{"id": "C182", "title": "Bayesian VAR answers the same call the same way", "statement": "Any sequence of predict calls on a fitted model gives every call the answer a fresh model would; fewer steps give the first of the forecasts; include_history puts the fitted values before the same forecasts.", "quantifier": "every sequence of calls", "why_tests_cant": "All histories of calls; the object keeps a list that calls extend.", "anchors": ["kats/models/bayesian_var.py: BayesianVAR.predict"]}
{"id": "C183", "title": "The Minnesota prior", "statement": "A priori every variable is expected to stay as it was; the variances shrink with the lag, with the tightness parameters, and adapt to the units of the variables.", "quantifier": "every number of variables, lag order and tightness", "why_tests_cant": "Positions in flat arrays for all sizes.", "anchors": ["kats/models/bayesian_var.py: BayesianVAR.fit, _construct_v_prior, _sigma_ijl"]}
{"id": "C184", "title": "SARIMA forecasts", "statement": "One row per step after the data, one per observation before them with history; the bounds are at the level asked for; asking for the history does not change the forecasts.", "quantifier": "every fitted model, orders, steps and data", "why_tests_cant": "All orders against all lengths.", "anchors": ["kats/models/sarima.py: SARIMAModel.predict"]}
{"id": "C185", "title": "ARIMA uses its trend and alpha", "statement": "The rows are the forecasts of the model with the trend given to fit, with bounds at the alpha given to predict.", "quantifier": "every fitted model, trend, alpha and steps", "why_tests_cant": "All levels and trends.", "anchors": ["kats/models/arima.py: ARIMAModel.fit, predict"]}
{"id": "C186", "title": "VAR forecasts are at the times after the data", "statement": "One row per step at the grid times after the data; fitted values at the last times of the data.", "quantifier": "every fitted model, lag order, steps and grid", "why_tests_cant": "All grids and lengths.", "anchors": ["kats/models/var.py: VARModel.predict"]}
{"id": "C187", "title": "VAR chooses its lags from its own data", "statement": "Without maxlags, a model uses the whole part of 12 (n/100)^(1/4) lags at most, for its own n observations.", "quantifier": "every sequence of models made from the same parameters", "why_tests_cant": "All sequences of lengths.", "anchors": ["kats/models/var.py: VARModel.fit"]}
{"id": "C188", "title": "Lags and outcomes are the values before and after the origin", "statement": "For every origin the input window of the autoregressive model holds the values up to the origin, lag k being the value k steps before it, and the outcome of horizon h is the value h steps after it; no lag looks ahead.", "quantifier": "every series, number of lags, horizon and largest lag", "why_tests_cant": "All lengths and window sizes; an offset by one leaks the future into training.", "anchors": ["kats/models/ml_ar.py: embed"]}
{"id": "C189", "title": "Denormalising undoes normalising", "statement": "A value that is normalised and denormalised with the same normalizers comes back, for all methods and with or without default_min.", "quantifier": "every value, normalizer, method and default_min", "why_tests_cant": "All real values.", "anchors": ["kats/models/ml_ar.py: normalize, denormalize"]}
{"id": "C190", "title": "Forecasts follow the scale and level of each series", "statement": "If each of the series is rescaled or shifted by amounts of its own, in a way the chosen normalisation undoes, its forecasts are rescaled or shifted in the same way and those of the other series do not change.", "quantifier": "every set of series, regressor, normalisation, and factors and shifts per series", "why_tests_cant": "All regressors, since training on normalised windows must give the same model.", "anchors": ["kats/models/ml_ar.py: MLARModel.train, predict, _normalize_data"]}
{"id": "C191", "title": "The regressor is trained on the observed pairs only", "statement": "There is one training pair for every origin with a full window and every horizon whose outcome was observed, made of the normalised values up to the origin and the normalised outcome; nothing after the origin enters the features.", "quantifier": "every series, set of horizons, windows and normalisation", "why_tests_cant": "All lengths and gaps.", "anchors": ["kats/models/ml_ar.py: MLARModel._embed_and_gen_past_features_single_series, _merge_past_and_future_reg, _train"]}
{"id": "C192", "title": "A forecast is the regressor's answer for the last row", "statement": "A forecast is made from the same features as in training, at the last valid row of the series; if the regressor is right about the normalised outcome, the forecast is the outcome.", "quantifier": "every series, regressor and parameters", "why_tests_cant": "All series, also those shorter than the largest lag or ending in missing values.", "anchors": ["kats/models/ml_ar.py: MLARModel._predict"]}
{"id": "C193", "title": "The first gap in the horizons", "statement": "The smallest positive integer that is not among the horizons is found, for every set of horizons.", "quantifier": "every array of numbers", "why_tests_cant": "All arrays, by the pigeonhole principle.", "anchors": ["kats/models/ml_ar.py: find_first_missing_number"]}
{"id": "C194", "title": "predict(steps) returns a forecast for every step", "statement": "Asking for steps beyond the horizon returns, with a forecast for every step asked for; the forecasts within the horizon are those made without asking.", "quantifier": "every set of horizons, number of steps and one-pass forecaster", "why_tests_cant": "Termination and coverage of an iteration for all horizons.", "anchors": ["kats/models/ml_ar.py: MLARModel.predict"]}
{"id": "C195", "title": "Every epoch of batches contains each series once", "statement": "Calls of get_batch with the same size return, in every group of ceil(n/size) calls since the size was last changed, each of the n series exactly once, in batches of the size asked for but for the last one.", "quantifier": "every dataset, batch size, history of calls with other sizes and outcome of the random numbers", "why_tests_cant": "All datasets, call histories and random orders.", "anchors": ["kats/models/globalmodel/data_processor.py: GMDataLoader.get_batch, _shuffle_batch_ids"]}
{"id": "C196", "title": "Batches hold series of similar length", "statement": "Of two batches of an epoch, the series of one are all at most as long as those of the other; with test data, ties are ordered by the lengths of the test series up to the magnitude of the noise.", "quantifier": "every dataset, test dataset, batch size, epoch and outcome of the random numbers", "why_tests_cant": "All datasets and random orders; the order of the keys of a second dictionary matters.", "anchors": ["kats/models/globalmodel/data_processor.py: GMDataLoader._get_new_order, __init__"]}
{"id": "C197", "title": "Windows of a batch lie inside its arrays", "statement": "The origins of training, validation and testing are evenly spaced; every input window and every set of values to be forecast lies inside the part it belongs to, with no gap at the end; a series is shortened by less than a step in testing; a batch is refused only if a series is shorter than a season.", "quantifier": "every batch, set of parameters and outcome of the random numbers, for both kinds of models", "why_tests_cant": "All lengths and window sizes; off-by-one errors in any of them leak or lose data.", "anchors": ["kats/models/globalmodel/data_processor.py: GMBatch._get_indices"]}
{"id": "C198", "title": "Lifted values are positive", "statement": "Before the logarithm is taken every series is lifted so that all its values are positive; positive series are not changed, and otherwise the largest value becomes the given ratio times the smallest.", "quantifier": "every series and validation series, with missing values, and every accepted ratio", "why_tests_cant": "All real values.", "anchors": ["kats/models/globalmodel/data_processor.py: GMBatch._get_array", "kats/models/globalmodel/utils.py: GMParam.__init__"]}
{"id": "C199", "title": "Training data do not depend on the validation values", "statement": "The arrays a model is trained on are the same whatever the values of the validation series are.", "quantifier": "every training series and any two validation series", "why_tests_cant": "Non-interference over all values.", "anchors": ["kats/models/globalmodel/data_processor.py: GMBatch._get_array"]}
{"id": "C200", "title": "Cut and padded series keep their values and their season", "statement": "A row of a batch ends with the last values of its series; a series that is too short is preceded by repetitions of its first season, in phase, with times before its own; validation values follow, then missing values at the times that follow.", "quantifier": "every series, length and season", "why_tests_cant": "All lengths and seasons.", "anchors": ["kats/models/globalmodel/data_processor.py: GMBatch._get_array"]}
{"id": "C201", "title": "The first season of a row has no missing values", "statement": "Missing values in the first season are filled from the value before; later ones stay missing; every series with values can be batched.", "quantifier": "every series, pattern of missing values and season", "why_tests_cant": "All patterns of missing values.", "anchors": ["kats/models/globalmodel/data_processor.py: GMBatch._get_array, _fillin_nan_values"]}
{"id": "C202", "title": "The first seasonal factors are ratios to the mean", "statement": "The first seasonal factors are the values of the first season divided by their mean, cut off at the bounds; before that their mean is 1.", "quantifier": "every positive season and all bounds", "why_tests_cant": "All real values.", "anchors": ["kats/models/globalmodel/data_processor.py: GMBatch._get_seasonality, __init__"]}
{"id": "C203", "title": "Filling holes keeps the season in phase", "statement": "After the holes of a regular series are filled, every observation is still there, every position of the result has the phase of its time in the season, consecutive times differ by one step plus whole seasons, a hole shorter than a season is filled, and no run of missing values is as long as a season.", "quantifier": "every regular series (times on a grid), pattern of holes, season and step", "why_tests_cant": "All patterns of holes.", "anchors": ["kats/models/globalmodel/utils.py: get_filters, fill_missing_value_na"]}
{"id": "C204", "title": "Splitting a dataset loses no series", "statement": "Splitting without overlap puts every series in exactly one part, together with its own validation series; with overlap part i is everything but one slice.", "quantifier": "every dataset and every number of parts", "why_tests_cant": "All sizes and numbers of parts.", "anchors": ["kats/models/globalmodel/utils.py: split"]}
{"id": "C205", "title": "Preprocessing keeps the series that can be used", "statement": "In training mode a series is kept just if it is long enough for the model, and is cut into the training and the validation part at the right place; in test mode likewise.", "quantifier": "every dataset, mode and set of window sizes", "why_tests_cant": "All lengths.", "anchors": ["kats/models/globalmodel/utils.py: gmpreprocess, calc_min_input_length, calc_max_fcst_horizon"]}
{"id": "C206", "title": "Padding a series extends it on its grid", "statement": "Padding with n steps puts n values in front of the series, at the n times before its first, and keeps the series.", "quantifier": "every series, number of steps and step", "why_tests_cant": "All lengths.", "anchors": ["kats/models/globalmodel/utils.py: pad_ts"]}
{"id": "C207", "title": "The pinball loss is the quantile loss", "statement": "The loss of a row and quantile is the weight times the average, over the steps whose target is present, of the quantile loss; missing targets do not count; the loss of a perfect forecast is zero.", "quantifier": "every batch, quantiles, weights and pattern of missing targets", "why_tests_cant": "All real values and sizes.", "anchors": ["kats/models/globalmodel/utils.py: PinballLoss.__init__, forward"]}
{"id": "C208", "title": "The quantile minimises the pinball loss", "statement": "Among all constants the empirical quantile of the targets has the smallest total pinball loss.", "quantifier": "every list of targets, every quantile and constant", "why_tests_cant": "All real values.", "anchors": ["kats/models/globalmodel/utils.py: PinballLoss.forward"]}
{"id": "C209", "title": "Reductions of the loss", "statement": "The mean and the sum are the means and sums over the rows of what is returned without reduction; wrong shapes raise; the caller's target is not changed.", "quantifier": "every batch", "why_tests_cant": "All sizes.", "anchors": ["kats/models/globalmodel/utils.py: PinballLoss.forward, _check"]}
{"id": "C210", "title": "The adjusted loss", "statement": "For input on logarithmic scale the loss of the first quantile is the symmetric relative pinball loss on the original scale (half of sMAPE for the median), that of the other quantiles is the pinball loss; all are non-negative, and zero for a perfect forecast.", "quantifier": "every row, quantiles, weights and pattern of missing targets", "why_tests_cant": "All real values.", "anchors": ["kats/models/globalmodel/utils.py: AdjustedPinballLoss.__init__, forward"]}
{"id": "C211", "title": "The date features show the date", "statement": "Hour and month of the last time are one-hot; the date feature is one-hot for the day of the week, the pair of weeks and the day of the month; features differ when dates differ.", "quantifier": "every batch of series", "why_tests_cant": "All dates, alone and together.", "anchors": ["kats/models/globalmodel/utils.py: GMFeature._get_last_date_feature, _get_last_hour_feature, _get_last_month_feature"]}
{"id": "C212", "title": "The features are as wide as announced", "statement": "The features computed for a batch have one row per series and as many columns as the size that the networks are built for.", "quantifier": "every list of features, batch and window size", "why_tests_cant": "All lists of features.", "anchors": ["kats/models/globalmodel/utils.py: GMFeature.get_feature_size, get_on_the_fly_features"]}
{"id": "C213", "title": "Levels and seasons of the global model", "statement": "Levels, season factors and windows whose logarithms are taken are positive; the pass raises just if a step lies inside the first season; a purely seasonal series is seen as flat; a level without season stays in the range of the values seen; after the data end all steps use the same level and seasons.", "quantifier": "every row with missing values, season length, network and list of steps", "why_tests_cant": "All rows and networks.", "anchors": ["kats/models/globalmodel/model.py: GMModel._process, _single_pass_rnn"]}
{"id": "C214", "title": "Forecasts of the global model scale and do not look ahead", "statement": "Multiplying a series by a positive constant multiplies all forecasts by it; forecasts made at a step depend only on values before it.", "quantifier": "every row, constant, network and list of steps", "why_tests_cant": "Pairs of runs.", "anchors": ["kats/models/globalmodel/model.py: GMModel._process, _single_pass_rnn"]}
{"id": "C215", "title": "The steps that are visited", "statement": "The walk visits every step_delta-th training step and all steps from the last training step on, in order, once; the forecast windows of predict are all visited.", "quantifier": "every layout of training and forecast steps", "why_tests_cant": "All sizes and strides.", "anchors": ["kats/models/globalmodel/model.py: GMModel._single_pass_rnn, _single_pass_s2s"]}
{"id": "C216", "title": "Joining the prediction intervals of consecutive windows", "statement": "The adjustment leaves the median alone, makes the other quantiles continuous at the joints, keeps the shape of each within a window, and keeps the order of the quantiles.", "quantifier": "every list of windows, window length and number of quantiles", "why_tests_cant": "All values.", "anchors": ["kats/models/globalmodel/model.py: GMModel._adjust_pi"]}
{"id": "C217", "title": "Frames of forecasts", "statement": "predict returns exactly the requested number of rows, with times on the grid, each row with the forecasts of that step, and for each series exactly one frame.", "quantifier": "every store of windows, number of steps and data set", "why_tests_cant": "All sizes.", "anchors": ["kats/models/globalmodel/model.py: GMModel._format_fcst, predict"]}
{"id": "C218", "title": "Evaluation compares matching steps", "statement": "evaluate compares each validation value with the forecast of the same step, each once, and reports each requested metric.", "quantifier": "every forecast and validation series", "why_tests_cant": "All lengths.", "anchors": ["kats/models/globalmodel/model.py: GMModel.evaluate, build_validation_function"]}
{"id": "C219", "title": "The sequence-to-sequence pass of the global model", "statement": "At each step the pass fills holes with the value a season ago (or the first value), hands the encoder the window before the step divided by the median of the last season, and multiplies what the decoder returns by it; it scales with the data and does not look ahead.", "quantifier": "every row, period, window, network and list of steps", "why_tests_cant": "All holes and lengths; pairs of runs.", "anchors": ["kats/models/globalmodel/model.py: GMModel._single_pass_s2s, _fill_missing_with_seasonality, _get_median"]}
{"id": "C220", "title": "Parameters of the global model: checks, copies and text form", "statement": "A parameter object that is constructed has positive counts, the median as first quantile, quantiles inside (0, 1), positive weights, schedules with an entry for epoch 0 and positive values; its copy, and the object read back from its text form, are equal to it.", "quantifier": "every list of arguments", "why_tests_cant": "All combinations of arguments and schedules.", "anchors": ["kats/models/globalmodel/utils.py: GMParam.__init__, to_string, copy, __eq__, gmparam_from_string"]}
{"id": "C221", "title": "Schedules of learning rate and batch size", "statement": "In every epoch training uses the value of the last key of the schedule that is not after the epoch.", "quantifier": "every accepted schedule and number of epochs", "why_tests_cant": "All schedules.", "anchors": ["kats/models/globalmodel/model.py: GMModel.train", "kats/models/globalmodel/utils.py: GMParam._valid_union_dict"]}
{"id": "C222", "title": "Forecasts of an ensemble of global models", "statement": "Every forecast of an ensemble is the mean or median of the forecasts of its models for the same step and quantile, so it lies between the least and the greatest of them and does not depend on the order of the models; the frame has exactly the asked-for steps, at the times after the series.", "quantifier": "every number of models, windows, quantiles and steps", "why_tests_cant": "All forecasts of all models.", "anchors": ["kats/models/globalmodel/ensemble.py: GMEnsemble._combine_fcst, predict"]}
{"id": "C223", "title": "The series the models of an ensemble are trained on", "statement": "The held-out series and the others together are the data, each once; training in parallel and one after the other give model i the same part; no model is trained on a held-out series; some series are left for training.", "quantifier": "every data set, shuffle, test size, number of splits and replicates", "why_tests_cant": "All permutations.", "anchors": ["kats/models/globalmodel/ensemble.py: GMEnsemble.train", "kats/models/globalmodel/utils.py: gmpreprocess, split"]}
{"id": "C224", "title": "Backtests of global models on many series", "statement": "At a backtest time models are trained only on values before it and compared only with values from it up to the look-ahead, for exactly the series that are long enough; every value of a test series is compared, for every model and for their median, with the forecast for its step; models have not seen the test series.", "quantifier": "every data set, time, number of models and shuffle", "why_tests_cant": "All data and shuffles, and repeated runs.", "anchors": ["kats/models/globalmodel/backtester.py: GMBackTester.__init__, _filter, run_backtest, _evaluate"]}
{"id": "C225", "title": "Expanding windows with a global model", "statement": "The error measures get, for each fold, the known values of the test part and the forecasts for the same steps.", "quantifier": "every truth with missing values and every forecast", "why_tests_cant": "All patterns of missing values.", "anchors": ["kats/models/globalmodel/backtester.py: GMBackTesterExpandingWindow._build_ts_and_get_prediction"]}
{"id": "C226", "title": "Global models with a seasonal decomposition", "statement": "The season is carried on from its last period; if the season repeats, the decomposition finds it, and the global model forecasts the rest, then the forecasts are right, for additive and multiplicative seasons.", "quantifier": "every series, period, number of steps, decomposition and global model", "why_tests_cant": "All lengths; a statement about arbitrary global models.", "anchors": ["kats/models/globalmodel/stdmodel.py: STDGlobalModel._deseasonal, _predict_seasonality, _reseasonal, predict"]}
{"id": "C227", "title": "Saving and loading global models", "statement": "A trained model, or ensemble of models, that is saved to a file or to JSON and loaded, also on a machine with fewer cores, has the same parameters, weights, settings, training information and test ids.", "quantifier": "every trained model and ensemble, and every number of cores", "why_tests_cant": "All parameters and weights; the settings interact with the constructor's checks.", "anchors": ["kats/models/globalmodel/model.py: GMModel.save_model, load_gmmodel_from_file", "kats/models/globalmodel/ensemble.py: GMEnsemble.save_model, load_gmensemble_from_file", "kats/models/globalmodel/serialize.py: global_model_to_json, load_global_model_from_json"]}
{"id": "C228", "title": "Training and test part of the meta data of a series", "statement": "A series is accepted only if it is long enough, finite and not constant; it is then cut into its first four fifths and the rest, neither of them empty; rescaling divides by the maximum and keeps the order of the values.", "quantifier": "every series, minimal length and scale option", "why_tests_cant": "All lengths and values.", "anchors": ["kats/models/metalearner/get_metadata.py: GetMetaData.__init__, _validate_data, _scale"]}
{"id": "C229", "title": "The best parameters and the best model of a series", "statement": "The parameters reported for a model were tried and have the least finite error on the test part; the best model's error is not above that of any parameters tried for any model; a model that could not be fitted is not the best.", "quantifier": "every list of models, tried parameters, forecasts and metrics", "why_tests_cant": "Statement about arbitrary models and metrics, with failures, NaN and ties.", "anchors": ["kats/models/metalearner/get_metadata.py: GetMetaData._tune_single, tune_executor, get_meta_data"]}
{"id": "C230", "title": "Labels of the predictability learner", "statement": "A series is labelled unpredictable exactly if the error of its best model is above the threshold, and labels belong to the features of the same series, also when some entries of the meta data cannot be read.", "quantifier": "every list of entries, readable or not, and every threshold", "why_tests_cant": "All patterns of unreadable entries.", "anchors": ["kats/models/metalearner/metalearner_predictability.py: MetaLearnPredictability._reorganize_data"]}
{"id": "C231", "title": "Rows for fitting, validation and test of the predictability learner", "statement": "Fitting, validation and test use different rows, together all of them.", "quantifier": "every data set, shuffle and sizes", "why_tests_cant": "All shuffles.", "anchors": ["kats/models/metalearner/metalearner_predictability.py: MetaLearnPredictability.train"]}
{"id": "C232", "title": "The threshold of the predictability learner", "statement": "The probability threshold has, on the validation rows, the recall that was asked for and the best precision possible with it; it is used in the same way for the test and for predictions.", "quantifier": "every list of probabilities and labels and every asked-for recall", "why_tests_cant": "All precision-recall curves, with ties.", "anchors": ["kats/models/metalearner/metalearner_predictability.py: MetaLearnPredictability.train, pred_by_feature"]}
{"id": "C233", "title": "Downsampling of the meta data", "statement": "The downsampled meta data consist of rows of the data, each at most once, with features, parameters and label of the same series together, and every label occurs as often as the rarest one did.", "quantifier": "every list of labels and every draw without replacement", "why_tests_cant": "All data sets and draws.", "anchors": ["kats/models/metalearner/metalearner_modelselect.py: RandomDownSampler.fit_resample, MetaLearnModelSelect.preprocess"]}
{"id": "C234", "title": "The models recommended by the model-selection learner", "statement": "The n_top models returned are different, in order of their probability, and no other model is more probable; the fuzzy prediction names the most probable model, and the second one exactly if the bootstrap value, between 0 and 1, is not below the level; the value is 0 if every tree prefers the first model.", "quantifier": "every list of models, probabilities (with ties), trees, draws and levels", "why_tests_cant": "All probabilities and draws.", "anchors": ["kats/models/metalearner/metalearner_modelselect.py: MetaLearnModelSelect.pred_by_feature, pred_fuzzy, _bootstrap"]}
{"id": "C235", "title": "The error report of the model-selection learner", "statement": "If the learner predicts the best model of every series, its mean or median error is not above that of any fixed model; if it always predicts the same model the errors are equal.", "quantifier": "every table of errors and every list of predictions", "why_tests_cant": "All tables.", "anchors": ["kats/models/metalearner/metalearner_modelselect.py: MetaLearnModelSelect.train"]}
{"id": "C236", "title": "Standardising the features of the meta-learners", "statement": "After preprocessing a feature has mean 0 and variance 1 (or is 0 throughout), and the features of a new series are treated as those of the training series were, missing values included, however often preprocess was called.", "quantifier": "every column of features, draw and sequence of calls", "why_tests_cant": "Histories of calls; real numbers.", "anchors": ["kats/models/metalearner/metalearner_modelselect.py: MetaLearnModelSelect.preprocess, pred_by_feature, pred_fuzzy", "kats/models/metalearner/metalearner_predictability.py: MetaLearnPredictability.preprocess, pred_by_feature"]}
{"id": "C237", "title": "Categorical parameters of the hyper-parameter learner", "statement": "The classes of a categorical parameter are its different values; the class of a value is decoded to the value; the value recommended occurs in the training data and belongs to a largest output; missing values can be trained with.", "quantifier": "every column and every list of outputs", "why_tests_cant": "All columns.", "anchors": ["kats/models/metalearner/metalearner_hpt.py: MetaLearnHPT._get_target_cat, pred_by_feature"]}
{"id": "C238", "title": "The network of the hyper-parameter learner", "statement": "The layers of the network fit together, from the features to one output for each value of each categorical parameter and one for each numerical parameter; every default model has a network its data fit; parameters of one kind only can be learnt.", "quantifier": "every list of parameters and layer sizes", "why_tests_cant": "All sizes.", "anchors": ["kats/models/metalearner/metalearner_hpt.py: MetaLearnHPT.__init__, build_network, pred_by_feature, MultitaskNet.__init__"]}
{"id": "C239", "title": "Training of the hyper-parameter learner", "statement": "Every epoch uses every training row once; training ends early only if the last n_epochs_stop epochs brought no improvement, and then it does end.", "quantifier": "every number of rows, batch size, sequence of losses and patience", "why_tests_cant": "All sequences of losses.", "anchors": ["kats/models/metalearner/metalearner_hpt.py: MetaLearnHPT.train"]}
{"id": "C240", "title": "The grid of a search space", "statement": "Grid search evaluates every way to give each parameter one of its values, each once; compute_search_cardinality gives their number, and infinity exactly for spaces with a range; the parameters may be left out.", "quantifier": "every search space", "why_tests_cant": "All spaces, of any number of parameters and values.", "anchors": ["kats/utils/time_series_parameter_tuning.py:compute_search_cardinality, GridSearch.generate_evaluate_new_parameter_values, TimeSeriesParameterTuning.validate_parameters_format"]}
{"id": "C241", "title": "Evaluating the arms of a trial", "statement": "The data of a trial has one record per arm (and metric), in order, with the value the evaluation function gave, whatever the number of processes; if one arm fails there is none; no more processes are started than arms, processors or asked for.", "quantifier": "every list of arms, evaluation function, number of processes and processors", "why_tests_cant": "All schedules of the pool.", "anchors": ["kats/utils/time_series_parameter_tuning.py:TimeSeriesEvaluationMetric.evaluate_arm, fetch_trial_data"]}
{"id": "C242", "title": "Arms that satisfy the outcome constraints", "statement": "list_parameter_value_scores(legit_arms_only=True) keeps exactly the arms whose scores satisfy every constraint.", "quantifier": "every table of scores and every list of constraints", "why_tests_cant": "All tables of scores.", "anchors": ["kats/utils/time_series_parameter_tuning.py:TimeSeriesParameterTuning.list_parameter_value_scores"]}
{"id": "C243", "title": "The nevergrad search", "statement": "The evaluation function is called with an allowed value for each parameter of the space, the reported parameters are those evaluated, and as many workers are used as the options say, at least one and at most the number of processors.", "quantifier": "every search space, optimiser and options", "why_tests_cant": "All spaces and optimisers.", "anchors": ["kats/utils/time_series_parameter_tuning.py:NevergradOptSearch, get_nevergrad_param_from_ax, get_fixed_param_from_ax, SearchMethodFactory.create_search_method"]}
{"id": "C244", "title": "Searches over several spaces", "statement": "Each of the search methods can be used for several spaces, and asking for arms of one model leaves the searches of the others unchanged.", "quantifier": "every collection of spaces, method and history of calls", "why_tests_cant": "All histories.", "anchors": ["kats/utils/time_series_parameter_tuning.py:SearchForMultipleSpaces"]}
{"id": "C245", "title": "Parameters of the prophet forecaster", "statement": "Creating parameters succeeds exactly if logistic growth comes with a capacity, every extra seasonality has a name, a period and an order, and every regressor has a name and only known keys.", "quantifier": "every combination of growth, capacity, seasonalities and regressors", "why_tests_cant": "All combinations of options.", "anchors": ["kats/models/prophet.py: ProphetParams.validate_params"]}
{"id": "C246", "title": "Data frame handed to prophet", "statement": "The frame has the times and values of the series in order, one column per regressor, and the capacity and floor given as numbers or taken from the data; data without the columns needed are refused; with logistic growth every frame has a capacity.", "quantifier": "every series and valid parameters", "why_tests_cant": "All series and options.", "anchors": ["kats/models/prophet.py: ProphetModel._data_params_validation, _ts_to_df, _future_validation"]}
{"id": "C247", "title": "Future rows of prophet forecasts", "statement": "predict(steps) gives steps rows after the last time of the data, the frequency apart; include_history adds one row for each row of the data before them; a given future frame must have enough rows.", "quantifier": "every series, steps, frequency, growth and future frame", "why_tests_cant": "All series (including missing values) and options.", "anchors": ["kats/models/prophet.py: ProphetModel.predict, _future_validation"]}
{"id": "C248", "title": "Prophet's intervals in the answer", "statement": "The bounds of each row are the quantiles of the samples moved apart by the margin, so the lower bound is below the upper one by at least the margin, and the forecast lies between them; as many samples are drawn as asked for.", "quantifier": "every list of samples, interval width, margin and number of iterations", "why_tests_cant": "All samples.", "anchors": ["kats/models/prophet.py: predict_uncertainty, sample_posterior_predictive"]}
{"id": "C249", "title": "Sampled linear trends", "statement": "A sampled trend is the fitted one with further bends, all after the end of the history, so samples for rows of the history differ from the forecast by the noise only.", "quantifier": "every fitted trend, draw and time", "why_tests_cant": "All draws.", "anchors": ["kats/models/prophet.py: _piecewise_linear_vectorize, sample_linear_predictive_trend_vectorize, sample_model_vectorized"]}
{"id": "C250", "title": "Changepoints on the grid of the history", "statement": "The shift of every changepoint of the history is found on the grid at the first time not before it.", "quantifier": "every list of changepoints and step of the grid", "why_tests_cant": "All grids and changepoints.", "anchors": ["kats/models/prophet.py: _make_historical_mat_time"]}
{"id": "C251", "title": "Uncertainty of logistic and flat trends", "statement": "The uncertainty of the trend is zero over the history and without growth, its mean over the samples is zero at every row, every row after the history has some, and a sampled logistic trend stays below its capacity.", "quantifier": "every number of rows and samples, capacity and shifts", "why_tests_cant": "All draws.", "anchors": ["kats/models/prophet.py: _sample_trend_uncertainty, _sample_predictive_trend_vectorized, _logistic_uncertainty"]}
{"id": "C252", "title": "Sampled logistic trends", "statement": "The offsets keep a sampled logistic trend continuous at each shift, its rate is the first rate plus all shifts so far, and a shift changes the trend at later times only.", "quantifier": "every rate, offset, list of shifts and time", "why_tests_cant": "All draws and times.", "anchors": ["kats/models/prophet.py: _logistic_uncertainty, _make_trend_shift_matrix"]}
{"id": "C253", "title": "Scores of the prophet detector", "statement": "Scores are positive exactly above the forecast and negative exactly below it; the deviation is relative to the size of the forecast; the z-score is the distance in units of the width of the interval, which are never below 1e-9, so a wider interval never gives a larger score.", "quantifier": "every value and forecast", "why_tests_cant": "All values.", "anchors": ["kats/detectors/prophet_detector.py: deviation_from_predicted_val, z_score"]}
{"id": "C254", "title": "Seasonalities of the prophet detector", "statement": "Given seasonalities are kept, missing ones get their default, a seasonality that is neither a truth value nor auto raises; an automatic weekend is switched off exactly for data of less than two weeks or with no two times less than a week apart.", "quantifier": "every dictionary or list of seasonalities and every sequence of times", "why_tests_cant": "All dictionaries and times.", "anchors": ["kats/detectors/prophet_detector.py: SeasonalityTypes, seasonalities_processing, ProphetDetectorModel.__init__"]}
{"id": "C255", "title": "Training data of the prophet detector", "statement": "Training uses the rows outside all excluded ranges and inside the interval of the first fit (or without a value), a saturation range is a minimum below a maximum and makes the growth logistic, accepted options can be trained, and the history given is left as it was.", "quantifier": "every series, list of ranges, forecast and options", "why_tests_cant": "All series.", "anchors": ["kats/detectors/prophet_detector.py: ProphetDetectorModel.fit, _exclude_ranges, _remove_outliers, __init__"]}
{"id": "C256", "title": "Answers of the prophet detector", "statement": "predict raises before fit; it gives one score, forecast and interval for each row at its time; scores on days that are holidays are multiplied and no others; a saved detector answers as the fitted one; unknown score functions are refused.", "quantifier": "every series, forecast, score function, multiplier and holidays", "why_tests_cant": "All series and options.", "anchors": ["kats/detectors/prophet_detector.py: ProphetDetectorModel.predict, _get_holidays_dates"]}
{"id": "C257", "title": "Scores of the prophet trend detector", "statement": "There is one score per row: the size of the mean change of slope on the rows where the trend changes and zero elsewhere.", "quantifier": "every series and list of changepoints", "why_tests_cant": "All series, with and without missing values.", "anchors": ["kats/detectors/prophet_detector.py: ProphetTrendDetectorModel.fit_predict"]}
{"id": "C258", "title": "Cached bounds of a series", "statement": "After any sequence of constructions, assignments of times or values, extensions (failing ones too) and changes of time zone, min and max are the least and greatest present values of each stored column, and missing exactly when there is none.", "quantifier": "every history of calls of the API", "why_tests_cant": "All histories.", "anchors": ["kats/consts.py:TimeSeriesData.min, max, value setter, _calc_min_max_values, extend, set_timezone, convert_timezone"]}
{"id": "C259", "title": "Equality of series", "statement": "Equality is an equivalence relation that compares names, times and values but neither the order of columns nor dtypes; values are equal up to 1e-8, or 1e-5 of their size.", "quantifier": "every pair of series", "why_tests_cant": "All series and values.", "anchors": ["kats/consts.py:TimeSeriesData.__eq__, __ne__"]}
{"id": "C260", "title": "Walking a series", "statement": "Iterating over a series gives one series per row, in order, with its time and values; iterating over its columns gives each column once, as often as one likes.", "quantifier": "every series", "why_tests_cant": "All lengths and numbers of columns.", "anchors": ["kats/consts.py:TSIterator, TimeSeriesIterator"]}
{"id": "C261", "title": "Rows of a new series", "statement": "A new series holds rows of the input, the same for the times and for all columns: all of them, or the first of each time if repeated times are dropped, in time order or in the given order; other input raises.", "quantifier": "every list of times, columns and options", "why_tests_cant": "All inputs.", "anchors": ["kats/consts.py:TimeSeriesData.__init__, _sort_by_time, _extract_from_df, validate_data"]}
{"id": "C262", "title": "Slices of series of several columns", "statement": "ts[a:b] holds rows a to b of every column under their names, and ts[name] the column.", "quantifier": "every series and every pair of positions", "why_tests_cant": "All series.", "anchors": ["kats/consts.py:TimeSeriesData.__getitem__"]}
{"id": "C263", "title": "Time zones of a series", "statement": "Converting keeps instants and values and the last zone counts; giving a zone keeps the wall clock of every row and raises exactly if it is not shown exactly once in the zone, leaving the series as it was; numbers are read as instants, strings as wall clocks of the zone asked for.", "quantifier": "every zone (any function from instants to offsets), series and time column", "why_tests_cant": "All zones and times.", "anchors": ["kats/consts.py:TimeSeriesData.convert_timezone, set_timezone, is_timezone_aware, _set_time_format"]}
{"id": "C264", "title": "Linear interpolation of a series", "statement": "The result has equally spaced times that cover the series, keeps every observation, is linear between neighbouring ones, and interpolating again changes nothing.", "quantifier": "every series, frequency and origin", "why_tests_cant": "All series and frequencies.", "anchors": ["kats/consts.py:TimeSeriesData.interpolate, _interpolate_new"]}
{"id": "C265", "title": "Filling a series forward and backward", "statement": "Each time of the result has the value of the last observation not after it (forward) or of the first not before it (backward).", "quantifier": "every series, frequency and origin", "why_tests_cant": "All series and frequencies.", "anchors": ["kats/consts.py:TimeSeriesData.interpolate, _interpolate_new"]}
{"id": "C266", "title": "Construction of a seasonality handler", "statement": "A regular series of at least seven rows is accepted; of an accepted series every time and known value is kept in the regular series that is decomposed; the season is the whole number of gaps in the period asked for, at least two and at most half the rows.", "quantifier": "every series, named or numeric period, frequency rule and calendar", "why_tests_cant": "All series and periods.", "anchors": ["kats/utils/decomposition.py: SeasonalityHandler.__init__"]}
{"id": "C267", "title": "Season and remainder of a handler", "statement": "get_seasonality() and remove_seasonality() have a row for each row of the data and add up to every known value, whatever was asked before; the results describe themselves (min, max).", "quantifier": "every accepted series and every sequence of calls", "why_tests_cant": "All series and all histories of calls.", "anchors": ["kats/utils/decomposition.py: SeasonalityHandler.remove_seasonality, get_seasonality, _decompose, _decompose_multi", "kats/utils/decomposition.py: TimeSeriesDecomposition.__clean_ts"]}
{"id": "C268", "title": "Decomposition of a series", "statement": "The additive components add up to the data and the multiplicative ones multiply to them; only positive data can be decomposed multiplicatively; unknown options are replaced by the defaults; the default period suits the data.", "quantifier": "every series, option and decomposition whose parts add up", "why_tests_cant": "All real data.", "anchors": ["kats/utils/decomposition.py: TimeSeriesDecomposition.__init__, _get_period, __decompose_STL"]}
{"id": "C269", "title": "The likelihood ratio of a CUSUM change", "statement": "The ratio is a function of how much of the variation the two means explain; it does not depend on units, origin or the direction of time, is least when the means are equal, and a change is significant exactly if its p-value is below the threshold.", "quantifier": "every window of real data and every split of it", "why_tests_cant": "All real data and splits.", "anchors": ["kats/detectors/cusum_detection.py: CUSUMDetector._get_llr, _log_llr"]}
{"id": "C270", "title": "What the CUSUM detector reports", "statement": "detector() reports a change in a direction exactly if that direction was asked for, the change found there is significant (in the whole series and, if a window of interest is given, in it) and passes the magnitude test; the reported means are those of the two parts; a constant series never has a change.", "quantifier": "every series, option and start point", "why_tests_cant": "All series and all combinations of options.", "anchors": ["kats/detectors/cusum_detection.py: CUSUMDetector.detector, _get_change_point, _convert_cusum_changepoints"]}
{"id": "C271", "title": "The magnitude test of the CUSUM detector", "statement": "With a window of interest a change is kept if the values in it exceed those of earlier days at the same time of day by the given ratio on the given number of days.", "quantifier": "every regular series, window of interest, ratio and number of days", "why_tests_cant": "All series and windows.", "anchors": ["kats/detectors/cusum_detection.py: CUSUMDetector._magnitude_compare"]}
{"id": "C272", "title": "The vectorised CUSUM detector", "statement": "VectorizedCUSUMDetector.detector_ gives for each column what CUSUMDetector.detector gives for that column alone.", "quantifier": "every set of columns and all options", "why_tests_cant": "All numbers and contents of columns.", "anchors": ["kats/detectors/cusum_detection.py: VectorizedCUSUMDetector.detector_, _get_change_point_multiple_ts, _convert_cusum_changepoints"]}
{"id": "C273", "title": "The multivariate CUSUM detector", "statement": "The reported likelihood ratio measures the distance between the two means, does not depend on the direction of time, and the change point is within the data.", "quantifier": "every multivariate window of data and split", "why_tests_cant": "All data.", "anchors": ["kats/detectors/cusum_detection.py: MultiCUSUMDetector._get_llr, _get_change_point, detector"]}
{"id": "C274", "title": "Near equality of CUSUM change points", "statement": "almost_equal() of two change points is true exactly if their numbers agree up to the stated number of digits, in either order.", "quantifier": "all pairs of numbers and tolerances", "why_tests_cant": "All numbers.", "anchors": ["kats/detectors/cusum_detection.py: CUSUMChangePoint.almost_equal, _almost_equal"]}
{"id": "C275", "title": "The vectorised path of the CUSUM model", "statement": "CUSUMDetectorModel with vectorized=True returns the same scores and leaves the same state as with vectorized=False.", "quantifier": "every evenly spaced series, history, configuration and earlier state whose change point is in the past", "why_tests_cant": "All data, options and histories of calls.", "anchors": ["kats/detectors/cusum_model.py: CUSUMDetectorModel.fit_predict, _fit, _fit_vec_row, _predict, _reorganize_big_data"]}
{"id": "C276", "title": "Several series in one CUSUM model", "statement": "VectorizedCUSUMDetectorModel gives every column the scores and the final state that CUSUMDetectorModel gives for that column alone, and returns just the columns of the data.", "quantifier": "every table of evenly spaced series and every configuration", "why_tests_cant": "All numbers, names and contents of columns.", "anchors": ["kats/detectors/cusum_model.py: VectorizedCUSUMDetectorModel.fit_predict, _fit, _predict, _zeros_ts"]}
{"id": "C277", "title": "Scores of the CUSUM model", "statement": "Every row of the data has exactly one score. It is zero without an alert and up to the change, and then compares the moving average of the row with the level before the change: the difference, the relative difference or the difference in standard deviations.", "quantifier": "every series, also irregular ones, every configuration and every state", "why_tests_cant": "All data, configurations and states.", "anchors": ["kats/detectors/cusum_model.py: CUSUMDetectorModel._predict, fit_predict, change, percentage_change, z_score"]}
{"id": "C278", "title": "Options of the CUSUM model", "statement": "An alert stays on until the values are back at the level before the change, for every value of change_directions and every resolution of the times.", "quantifier": "every series and every state with an alert", "why_tests_cant": "All values and states.", "anchors": ["kats/detectors/cusum_model.py: CUSUMDetectorModel._if_normal, _fit, _predict"]}
{"id": "C279", "title": "Regression behind BOCPD's trend model", "statement": "For every run of points the trend model predicts with the posterior of Bayesian linear regression on exactly the points of that run: its line is the one that minimises the squared distance from the points plus the prior weight times the distance from the prior line.", "quantifier": "every series, row, run length and prior line", "why_tests_cant": "All real values, all run lengths.", "anchors": ["kats/detectors/bocpd.py: _BayesianLinReg.pred_prob, update_sufficient_stats, setup"]}
{"id": "C280", "title": "Priors and probabilities of BOCPD's trend model", "statement": "The prior line is the least squares line of the first points; with readjust_sigma_prior the variance has a prior with the residual variance as its mean and variance 1000; probabilities are positive, with a floor; detector() with the default arguments works.", "quantifier": "every series, number of first points, number of samples and draws", "why_tests_cant": "All real values and draws.", "anchors": ["kats/detectors/bocpd.py: _BayesianLinReg.setup, _residual_variance, _sample_bayesian_linreg, BOCPDetector._get_eval_function"]}
{"id": "C281", "title": "A whole call of BOCPD", "statement": "detector() returns, per series and in order, exactly the rows whose probability is above the threshold; with choose_priors the values used are those with the largest posterior predictive among the ones tried; changepoint_prior and the parameters given are respected; grouping by series keeps every change point once.", "quantifier": "every predictive model, set of series, search space, configuration", "why_tests_cant": "All data, models and values tried.", "anchors": ["kats/detectors/bocpd.py: BOCPDetector.detector, _choose_priors, _get_eval_function, group_changepoints_by_timeseries"]}
{"id": "C282", "title": "Empirical priors of BOCPD", "statement": "Without priors given, the normal model takes the mean of the data, the inverse of its sample variance and the multiplier over the average sample variance of ten consecutive points; this works for every series of ten points that is not constant and follows the units of the data.", "quantifier": "every series and multiplier", "why_tests_cant": "All series.", "anchors": ["kats/detectors/bocpd.py: _NormalKnownPrec._find_empirical_prior, check_data"]}
{"id": "C283", "title": "Stat-sig detectors with removal of seasonality, and for several series", "statement": "With rem_season the response has one row per row of the data; rows without a full window are untouched, every other row has the scores of the series without its seasonal part, with prediction and band moved back by the seasonal value, under the names of the series; the multivariate detector does the same for all columns. Any number of new rows can be scored, and a long series gets the scores of a short one.", "quantifier": "every series, history, window size, decomposition and test statistic", "why_tests_cant": "All series, histories and decompositions.", "anchors": ["kats/detectors/stat_sig_detector.py: StatSigDetectorModel.fit_predict, _reorganize_back; MultiStatSigDetectorModel.fit_predict, _init_response, _update_response"]}
{"id": "C284", "title": "Whole calls of the two-sample interval detectors", "statement": "fit_predict returns one row per row of the data; the score of a row is the difference in standard errors computed from that row, and exactly the rows in runs of rejections of at least the duration are predicted; data out of range are refused and leave everything unchanged; the data passed in are not changed and a repeated call returns the same.", "quantifier": "every table of rows, history, state of the detector, kind of sample and configuration", "why_tests_cant": "All tables, all histories, any number of calls.", "anchors": ["kats/detectors/interval_detector.py: IntervalDetectorModel.fit_predict; TwoSampleIntervalDetectorModel._get_variance; Schema._validate_data"]}
{"id": "C285", "title": "Types of anomalies", "statement": "For every anomaly get_each_anomaly_type says whether it has fewer than five rows, whether the slope of the series before it and after it have opposite signs, whether the standard deviation changes by the factor, and whether the level does; the answer does not depend on unit and origin of the values, and flat parts have no change of volatility.", "quantifier": "every series, list of anomalies, t test and factors", "why_tests_cant": "All real series and all anomalies.", "anchors": ["kats/detectors/anomaly_postprocessing.py: AnomalyPostProcessing.get_each_anomaly_type, _if_level_shift, _if_individual_outlier, _if_trend_change, _if_volatility_change"]}
{"id": "C286", "title": "Features of the autocorrelation", "statement": "y_acf1 and the corresponding features of the first and second differences are the autocorrelations at lag one, the acf5 features the sums of squares of the first five, seas_acf1 the autocorrelation at the lag of the period; they lie in [-1, 1] and [0, 5], do not depend on unit and origin, are NaN for short or linear series and for features switched off, and extra_args=None disables nothing.", "quantifier": "every series, lag size, period, set of switches and partial autocorrelation", "why_tests_cant": "All real series and lags.", "anchors": ["kats/tsfeatures/tsfeatures.py: TsFeatures.get_acfpacf_features, get_acf_features, get_pacf_features, _yule_walker_determinant"]}
{"id": "C287", "title": "Features of shape", "statement": "Strengths of trend and seasonality lie in [0, 1]; the spectral entropy lies in [0, 1], 0 exactly for one frequency and 1 for a flat spectrum; linearity is the R squared of the best line; the Hurst exponent does not depend on the units and recovers an exact power law; std1st_der is 0 exactly for lines; the histogram mode is the start of a fullest bin; trend_mag is the slope of the best line through the first point, seasonality_mag the distance of the quantiles and seasonal_period the period of the differences in order.", "quantifier": "every series, spectrum, decomposition, lag size and number of bins", "why_tests_cant": "All real series.", "anchors": ["kats/tsfeatures/tsfeatures.py: TsFeatures.get_stl_features, get_spectral_entropy, get_linearity, get_hurst, get_std1st_der, get_histogram_mode, get_seasonalities"]}
{"id": "C288", "title": "Features from detectors", "statement": "The features from CUSUM, robust, BOCPD, outlier and trend detectors are the numbers of points detected, the attributes of the first change point, and the means and maxima of metrics, confidences and |tau|; a detector that raises gives NaN, nothing detected gives neutral values, and extra_args=None disables nothing.", "quantifier": "every output of the detectors, set of switches and length", "why_tests_cant": "All outputs.", "anchors": ["kats/tsfeatures/tsfeatures.py: TsFeatures.get_cusum_detector, get_robust_stat_detector, get_bocp_detector, get_outlier_detector, get_trend_detector"]}
{"id": "C289", "title": "The LSTM forecaster", "statement": "fit scales the series linearly to [-1, 1] and trains a new network on every run of time_window values with its successor, num_epochs times; predict returns one row per step at the following times, each forecast computed from the last time_window values and forecasts alone and scaled back; bounds enclose the forecast; unit and origin of the series do not matter; calls can be repeated; predict answers only after a successful fit.", "quantifier": "every network, optimizer, series, window, number of epochs and steps", "why_tests_cant": "All networks and optimizers, all real series, all lengths.", "anchors": ["kats/models/lstm.py: LSTMModel.fit, __setup_data, predict"]}
{"id": "C290", "title": "Runs of rejections of correlated tests", "statement": "With a covariance, _probability_of_at_least_one_m_run_in_n_trials starts from the probabilities that the first j tests reject and the next does not, and that all m reject; these add up to 1; for independent tests they are those used without a covariance; the answer lies in [0, 1] and is the probability of a run of m rejections among n tests.", "quantifier": "every finitely additive probability, statistics, level, side of the test, m and n", "why_tests_cant": "All joint distributions of the test statistics.", "anchors": ["kats/detectors/interval_detector.py: IntervalDetectorModel._w, _w_one_tailed, _w_two_tailed, _probability_of_at_least_one_m_run_in_n_trials"]}
{"id": "C291", "title": "The Holt-Winters forecaster and its empirical intervals", "statement": "predict returns one row per step at the times of the given or inferred frequency that follow the data, with the forecasts of the fitted model; with alpha it adds bounds at the same distance on both sides of the same forecasts at the same times; include_history puts the in-sample forecasts first; it answers only after fit; parameters are accepted exactly when trend and seasonal are absent or one of add, mul, additive, multiplicative.", "quantifier": "every smoothing model, series, frequency, number of steps, alpha and settings of the backtest", "why_tests_cant": "All smoothing models, frequencies and lengths.", "anchors": ["kats/models/holtwinters.py: HoltWintersParams, HoltWintersModel.predict", "kats/utils/emp_confidence_int.py: EmpConfidenceInt.run_cv, get_eci"]}
{"id": "C292", "title": "Cross validation", "statement": "CrossValidation accepts exactly positive percentages that add up to at most 100, a number of folds that is not negative, data and known metrics; run_cv fits the model on num_folds parts of the series, each directly before the points it is tested on, of constant size or from the start of the series; afterwards get_error_value is the mean of the metric over the folds weighted by size, and raises before run_cv and for other names.", "quantifier": "every model, metric, series, percentages, number of folds and names", "why_tests_cant": "All models, metrics and lengths.", "anchors": ["kats/utils/backtesters.py: CrossValidation, BackTesterExpandingWindow, BackTesterRollingWindow"]}
{"id": "C293", "title": "The rows the autoregressive forecaster keeps", "statement": "MLARModel puts every series on the grid of one frequency, the one in the parameters or the one inferred from the first series: one row for each time of the frequency between the first and the last time of the series, with the observation at that time or NaN; no observation is lost; series are accepted exactly when they have the required columns, rows and no time twice; features are computed for these times and the forecast times after each series.", "quantifier": "every set of series, frequency, horizon and set of columns", "why_tests_cant": "All series and frequencies.", "anchors": ["kats/models/ml_ar.py: MLARModel._infer_freq, _check_single_ts, _valid_and_fillna (train, predict)"]}
{"id": "C294", "title": "Reading the metadata of the detector meta-learners", "statement": "metadata_detect_reader returns, for each row of the table, the features as numbers and the best parameters of the given algorithm, the windows in days instead of seconds and every other parameter unchanged; what cannot be read raises.", "quantifier": "every table, with dictionaries or their texts in its cells, every algorithm and set of parameters to scale", "why_tests_cant": "All tables, all ways rows can share dictionaries, all repetitions.", "anchors": ["kats/detectors/meta_learning/metalearning_detection_model.py: metadata_detect_preprocessor, change_dtype, change_str_to_dict", "kats/detectors/meta_learning/hpt_tuning.py: metadata_detect_reader"]}
{"id": "C295", "title": "Recommending the hyper-parameters of a detector", "statement": "MetaDetectHptSelect is built exactly when the detector accepts the parameters of every row; train returns exactly when the names given are the columns that are not constant and there are more than thirty rows, and leaves the object as it was otherwise; afterwards every recommendation has a value for each column of data_y: its only value if it is constant, one of its values if it is categorical, the network's output if it is numerical.", "quantifier": "every data, names, network and features", "why_tests_cant": "All data and networks.", "anchors": ["kats/detectors/meta_learning/hpt_tuning.py: MetaDetectHptSelect"]}
{"id": "C296", "title": "Recommending a detector", "statement": "MetaDetectModelSelect accepts data frames of more than thirty rows with the three columns; train fits the classifier to the rows' features and labels, and gives the same again when called again; fit_results and pred_by_feature return the classifier's answer for each row by the names of the features; predict returns its answer for the features rounded to four decimals; nothing is answered before train.", "quantifier": "every table, classifier and set of features", "why_tests_cant": "All tables, classifiers and orders of the features.", "anchors": ["kats/detectors/meta_learning/metalearning_detection_model.py: MetaDetectModelSelect"]}
{"id": "C297", "title": "The recurrent network answers every batch, series by series, within fixed bounds", "statement": "A DilatedRNNStack that was built with dilations of at least one answers every sequence of batches of the declared width with batches of the same number of series and of the declared output width; the answer for a series does not depend on the other series of its batch; an encoder's output lies strictly between minus and plus its number of blocks, and a network with an output layer stays in a range fixed by that layer's weights, however large the inputs.", "quantifier": "every structure, cell, size, set of weights, batch size and number of calls", "why_tests_cant": "All weights (that is, all states of training), all inputs and histories.", "anchors": ["kats/models/globalmodel/utils.py: LSTM2Cell, S2Cell, DilatedRNNStack"]}
{"id": "C298", "title": "What the recurrent network remembers", "statement": "A DilatedRNNStack looks back no further than its largest dilation; after reset_state it answers as if new; prepare_decoder hands over all the states the decoder can look at; a call that raises leaves no trace.", "quantifier": "every structure, cell, set of weights, history of calls and sequence of inputs", "why_tests_cant": "All histories and structures of encoder and decoder.", "anchors": ["kats/models/globalmodel/utils.py: DilatedRNNStack.forward, prepare_decoder, reset_state"]}
{"id": "C299", "title": "Predicting with new data in the autoregressive forecaster", "statement": "predict(new_data) forecasts from the last target in the new data (or from just before it, if it has no target); its window has the new values where there are some and the earlier known ones elsewhere; no target after that point reaches the forecast, even if the training data had it; predicting again without new data gives the same forecasts.", "quantifier": "every training series, new data (with gaps, overlapping or before the training data) and window length", "why_tests_cant": "All overlaps of old and new data, and all histories of predictions.", "anchors": ["kats/models/ml_ar.py: MLARModel._predict, predict, _embed_and_gen_past_features_single_series"]}
{"id": "C300", "title": "Categorical columns of the autoregressive forecaster", "statement": "Each column of the encoding of a categorical means the same label in training and in prediction, and the row forecast from is marked with its series' label.", "quantifier": "every set of series, labels, window lengths and number of steps", "why_tests_cant": "All label histories and all numbers of steps forecast.", "anchors": ["kats/models/ml_ar.py: categorical_encode, MLARModel._embed_categorical, _get_all_cat_labels, _predict"]}
{"id": "C301", "title": "Regressors and future frames of the NeuralProphet wrapper", "statement": "NeuralProphetModel accepts exactly the regressors that its parameters describe and its data contains; the library is trained on the rows of the data in order with those columns and y; predict(future) forecasts for the rows of the frame in order of time with the regressors as given, and refuses frames that are too short or lack a column; the forecast uses the history, has steps rows and the documented columns, and the caller's frame is not changed.", "quantifier": "every set of parameters, data, future frame and number of steps, and every behaviour of the library", "why_tests_cant": "All combinations of columns and regressors and all libraries below.", "anchors": ["kats/models/neuralprophet.py: NeuralProphetParams.validate_params, NeuralProphetModel.__init__, _data_params_validation, _ts_to_df, fit, predict"]}
{"id": "C302", "title": "The BOCPD detector model answers with a change probability for every point of the data", "statement": "For a history that ends before the data begin, fit_predict answers with one entry per point of the data, at its time: the score is the probability of a change at that point in the history continued by the data, a number between 0 and 1; the prediction and both bounds are the value itself, magnitude and significance are zero. The threshold given at construction decides what is a change point, slow_drift selects the trend model, and the caller's history is left as it was, so that the same call made again answers the same.", "quantifier": "all data and histories, all settings of the detector, all predictive densities and values tried by the search, all repeated calls", "why_tests_cant": "tests look at one series and at the number of scores; they do not compare thresholds, do not look at the history afterwards and do not repeat a call", "anchors": ["kats/detectors/bocpd_model.py: BocpdDetectorModel.fit_predict", "kats/detectors/bocpd.py: BOCPDetector.detector, get_change_prob"]}
{"id": "C303", "title": "The BOCPD trend detector model looks for changes of the slope", "statement": "fit_predict of the trend detector answers with one entry per point of the data: it smooths the data by additive Holt-Winters with the smoothing parameters the object was made with, takes the change of level plus trend from point to point as the slope, and reports the change probabilities of the slope; the history is used.", "quantifier": "all data and histories, all smoothing parameters, all results of the smoothing", "why_tests_cant": "a test runs the detector on one series with the default parameters and checks the length", "anchors": ["kats/detectors/bocpd_model.py: BocpdTrendDetectorModel"]}
{"id": "C304", "title": "Making and fitting a temporal hierarchy", "statement": "A base model is accepted exactly if its level is positive and it has residuals and forecasts, or the name of a supported model with parameters. A temporal hierarchy needs a univariate series, distinct levels and level 1, and keeps the levels in falling order. fit trains every base model for which nothing was supplied on the series aggregated to its level, and uses supplied forecasts and residuals as given. The residuals of a level are the supplied ones, the library's, or the values minus the forecasts of the history at the same times, and belong to the last fit.", "quantifier": "all base models and levels, all series, all training libraries, all sequences of fits and queries", "why_tests_cant": "tests build hierarchies with valid levels and fit them once; they never extend the series and fit again, and never supply forecasts together with a name", "anchors": ["kats/models/reconciliation/base_models.py: BaseTHModel.__init__", "kats/models/reconciliation/thm.py: TemporalHierarchicalModel.__init__, fit, _get_residuals, _get_all_residuals"]}
{"id": "C305", "title": "Validation of a temporal hierarchy by medians", "statement": "median_validation reports the levels whose base forecasts are further from the median forecasts than the median distance plus threshold times the robust spread of the distances; a hierarchy whose base forecasts all agree has none, and with a positive spread at most half of the levels are reported.", "quantifier": "all hierarchies, base forecasts, horizons, thresholds and robust estimates", "why_tests_cant": "one test checks the answer of one hierarchy; ties, agreeing forecasts and horizons below the highest level are not tried", "anchors": ["kats/models/reconciliation/thm.py: TemporalHierarchicalModel.median_validation"]}
{"id": "C306", "title": "Change points can be compared and put in sets", "statement": "Comparing two change points with == never raises, is symmetric and transitive, holds of a change point and itself, and means that they report the same event with the same attributes; equal change points have equal hashes, and set() of change points keeps one of every event.", "quantifier": "all change points of all detectors, with one or several series and missing numbers, and all lists of them", "why_tests_cant": "tests compare change points of one detector with hand-made copies; they never compare those of different detectors or of several series, and never hash them", "anchors": ["kats/consts.py: TimeSeriesChangePoint.__eq__, __hash__", "kats/detectors/cusum_detection.py: CUSUMChangePoint.__eq__", "kats/detectors/bocpd.py: BOCPDChangePoint"]}
{"id": "C307", "title": "Equal CUSUM detector models answer alike", "statement": "Two CUSUM detector models are equal exactly if their detection state and their parameters are, and a model made from the serialised form of another is equal to it.", "quantifier": "all CUSUM detector models, all parameters and states", "why_tests_cant": "tests compare a model with its reloaded copy for one set of parameters; no test compares models that differ in one parameter", "anchors": ["kats/detectors/cusum_model.py: CUSUMDetectorModel.__eq__, serialize"]}
{"id": "C308", "title": "The spectrum of the Fourier seasonality detector", "statement": "get_fft gives one row for each positive frequency below half the sampling rate, with the power of the series there in decibel. Adding a constant changes nothing, another unit shifts all amplitudes alike, a wave shows in the row of its own frequency and in no other whatever its phase, and a series that repeats after p values has power only at the whole multiples of 1/p; every season that fits a whole number of times into the data shows.", "quantifier": "all series, spacings, constants, units, amplitudes, phases and periods", "why_tests_cant": "a test compares detected seasonalities of one simulated series; orthogonality holds or fails for all lengths and phases at once", "anchors": ["kats/detectors/seasonality.py: FFTDetector.get_fft"]}
{"id": "C309", "title": "What the autoregressive forecaster knows about the time it forecasts", "statement": "The row of a training outcome or a forecast has the calendar columns of the time of that outcome and the values of each future covariate around that time, in the same places in training and in prediction; a model that could be trained can predict.", "quantifier": "all series, horizons, lags, covariate windows and origins", "why_tests_cant": "The gaps show only for particular relations between windows, horizons and where the target ends.", "anchors": ["kats/models/ml_ar.py: MLARModel._gen_cal_feat, _embed_future_cov, _merge_past_and_future_reg, _predict"]}
{"id": "C310", "title": "Automatic calendar and Fourier features", "statement": "With the setting auto the calendar and Fourier features fit the frequency of the series, whether it is given or inferred, and can always be made.", "quantifier": "all frequency names", "why_tests_cant": "Tests use the names D and H.", "anchors": ["kats/models/ml_ar.py: MLARModel._generate_auto_calendar_feature, _generate_auto_fourier_features, _infer_freq"]}
{"id": "C311", "title": "One row for every series, target, horizon and origin", "statement": "The matrix the regressor is trained on has one row for every target, horizon and origin, in the same place as its outcome; it is trained on exactly the rows with an observed outcome; predict returns for every series one row per target and horizon, counted from the last value.", "quantifier": "all numbers of series, targets, horizons and origins", "why_tests_cant": "A row written to the wrong place of the preallocated matrix gives wrong forecasts, not an exception.", "anchors": ["kats/models/ml_ar.py: MLARModel._merge_past_and_future_reg, _train, _post_process"]}
{"id": "C312", "title": "The time unit of a significance detector", "statement": "A significance detector with a time unit measures the windows of every call in it. Without one, it measures the windows of each call in the most common gap of that call's data, or of its history when there are fewer than three points, and raises when neither has three points. Its answers do not depend on the series it was called with before.", "quantifier": "all units, all sequences of calls with any data and history", "why_tests_cant": "Tests make a new detector for every series; only a sequence of calls shows what a detector remembers.", "anchors": ["kats/detectors/stat_sig_detector.py: StatSigDetectorModel._set_time_unit, fit_predict, serialize"]}
{"id": "C313", "title": "Default search spaces", "statement": "Every point of the default search space of a forecasting model is accepted by its parameter class; parameter names are distinct, ordered values are increasing, values have the declared type and are sensible for the model (in particular learning rates are at most one), and no SARIMA point has a lag in both of its parts.", "quantifier": "all models with a default search space and all points of it", "why_tests_cant": "A grid of tens of thousands of points is never run in a test; a wrong scale shows only as a bad fit.", "anchors": ["kats/utils/parameter_tuning_utils.py", "kats/models/ml_ar.py: MLARModel.get_parameter_search_space", "kats/models/lstm.py: LSTMModel.get_parameter_search_space"]}
{"id": "C314", "title": "Training a global model", "statement": "Training a global model makes the stated number of steps in each of the stated epochs, every step with the learning rate and the batch size in force (the value at the last epoch of the schedule that has been reached; the constructor guarantees one, positive), moves the weights with an optimizer made anew in every epoch, and reports for each epoch the mean loss over its steps and the means of the training and validation measures. Giving test series to evaluate after each epoch does not change what is learnt; training a trained model continues from its weights.", "quantifier": "all networks, optimizers, batches, random generators, schedules, numbers of epochs and steps, and sets of test series", "why_tests_cant": "a test trains one small network on one schedule and cannot compare the weights with and without an evaluation for every generator and network", "anchors": ["kats/models/globalmodel/model.py: GMModel.train, GMModel._initiate_nn, GMModel._set_nn_status", "kats/models/globalmodel/utils.py: GMParam._valid_union_dict"]}
{"id": "C315", "title": "Loading a saved Prophet model that carries time zones", "statement": "A Prophet detector made from a serialized model reads it as it is when the library can; otherwise the time-zone marks of the times in the text are removed, nothing else of the text changes, no time changes its value, and the text is read again.", "quantifier": "all texts: any number of times with any fields, fractions and marks, between any other text, and all parsers", "why_tests_cant": "tests load one or two stored models whose times all have the same shape", "anchors": ["kats/detectors/prophet_detector.py: load_model_from_json, ProphetDetectorModel.__init__"]}
{"id": "C316", "title": "Global-model networks are given what they are built for", "statement": "At every step of training and forecasting, over all series of a batch, a network of a global model is given inputs of exactly the size it was built for and has outputs for exactly what is read from it: the two smoothing parameters and one value for each quantile and forecast step, respectively the latter only; this holds for every accepted choice of features, windows, season and quantiles.", "quantifier": "all choices of features, windows, seasons, quantiles, batches, series, networks and numbers of steps", "why_tests_cant": "tests train with one or two sets of features; a size that does not fit shows only for a particular combination of features and windows", "anchors": ["kats/models/globalmodel/model.py: GMModel.build_rnn, build_s2s, _single_pass_rnn, _single_pass_s2s", "kats/models/globalmodel/data_processor.py: GMBatch.get_features", "kats/models/globalmodel/utils.py: GMFeature.get_base_features, get_feature_size"]}
{"id": "C317", "title": "A metadata reader answers every call as a new one would", "statement": "SynthMetadataReader.get_metadata gives, for every algorithm tried in the training file, the features of all rows as numbers and the algorithm's parameters row by row, with those given in seconds turned into days exactly once. Whatever was asked before, also after a failed call or a change of the file, an answer is the one a new reader would have given at the first call. An algorithm that no row has tried is refused.", "quantifier": "all files, all algorithm names and all sequences of calls, with the file changing between them", "why_tests_cant": "the only file tests read is the one shipped, in which every row has tried every algorithm, and calls are made once or twice", "anchors": ["kats/detectors/meta_learning/synth_metadata_reader.py: SynthMetadataReader"]}
{"id": "C318", "title": "Detector classes are found by their names", "statement": "After any sequence of class statements, DetectorModelRegistry.get_detector_model_by_name gives the last detector class defined under the name that can be used, raises InternalError if there is none, never leaves out a class all of whose methods are implemented, and never offers one with unimplemented methods. isinstance on detector classes tells whether an object is of the class, whatever was asked before.", "quantifier": "all sequences of class statements with any bases, names and abstract or implemented methods; all sequences of isinstance questions", "why_tests_cant": "tests define one sample class with all methods, and never ask isinstance of a detector about an object of another class", "anchors": ["kats/detectors/detector.py: DetectorModelRegistry, DetectorModel", "kats/detectors/cusum_model.py: CUSUMDetectorModel.__eq__", "kats/detectors/interval_detector.py: IntervalDetectorModel, TwoSampleIntervalDetectorModel, OneSampleIntervalDetectorModel"]}
{"id": "C319", "title": "A global model is evaluated on every value of every series", "statement": "GMModel.evaluate and GMEnsemble.evaluate accept two collections exactly if they are of the same kind and size, not empty and have the same keys. Every value of every series is then compared exactly once, with the forecast for its own step, under the key of its series; and the results of a series do not depend on what the other series of the collection are compared with.", "quantifier": "all collections (one series, lists, dictionaries in any order) of series of any lengths, all networks, ensembles, windows and quantiles", "why_tests_cant": "tests evaluate two or three series of equal lengths given as lists", "anchors": ["kats/models/globalmodel/model.py: GMModel.evaluate, GMModel.predict", "kats/models/globalmodel/ensemble.py: GMEnsemble.evaluate"]}
{"id": "C320", "title": "An expanding window backtest of a global model compares each fold with its own rows", "statement": "GMBackTesterExpandingWindow accepts a series exactly if it has the frequency of the model, the percentages fit and every error metric is known. run_backtest then forecasts every fold from the rows before it only, compares every known value of the rows that follow exactly once with the forecast for its own step, and reports for each metric its mean over the folds, weighted by their numbers of known values, however often it is run and wherever values are missing.", "quantifier": "all series with holes, all global models and ensembles (any forecasts), percentages, numbers of folds, metrics and numbers of runs", "why_tests_cant": "tests run one backtest of one complete series and look at the names of the errors", "anchors": ["kats/models/globalmodel/backtester.py: GMBackTesterExpandingWindow", "kats/utils/backtesters.py: BackTesterExpandingWindow, BackTesterParent.calc_error"]}
{"id": "C321", "title": "Packaged data sets are found from any directory", "statement": "load_data finds each data file of the package by its name, and nothing else, whatever the current directory of the process is; with reset_columns it renames the columns to time and y, changes nothing else and refuses exactly the tables that do not have two columns; load_air_passengers returns the rows of its file under these names, as a table or a series.", "quantifier": "all current directories, all packages with their data files in the directory data, all file names and tables", "why_tests_cant": "tests run in one directory, whose path happens to contain the name of the project", "anchors": ["kats/data/utils.py: load_data, load_air_passengers"]}
{"id": "C322", "title": "The static threshold detector returns the series as its scores", "statement": "StaticThresholdModel.fit_predict returns, for every series of one variable, scores that have the value of the series at each of its times, and magnitudes that are zero at the same times, whatever history is given.", "quantifier": "all series of one variable, in the order of time or not, all histories", "why_tests_cant": "tests compare the scores of one series that is in order", "anchors": ["kats/detectors/threshold_detector.py: StaticThresholdModel.fit_predict", "kats/consts.py: TimeSeriesData.__init__, TimeSeriesData.value"]}
