# Design: a Rocq model of facebookresearch/Kats

Source: `/repo` (pinned commit), Python, read as text. Nothing of it is run here.
Model and proofs: `/verif/rocq/theories`, Coq 8.16.1, standard library only.

## Layout

Every area `X` has up to four files:

- `XModel.v`  – executable Gallina definitions, branch by branch, each with the file and lines it models and the simplifications made. No proofs.
- `XSpec.v`   – small independent specification (quantified over indices, sets, paths, outcomes …), without using the model.
- `XProofs.v` – lemmas.
- `XProps.v`  – the property theorems only (`Theorem Cnn_… . Proof. exact lemma. Qed.`), non-vacuity `Example`s, `Print Assumptions`.

`Common.v` holds list and rational helper lemmas.

## Modelling conventions

- Numbers: floats are modelled by rationals `Q` (exact arithmetic, no rounding, no overflow). Where IEEE special values matter (NaN, infinities, division by zero) they are explicit constructors. Square roots are avoided (squared quantities) or left as oracles.
- Time stamps are integers (`Z`), time deltas are integers.
- Arrays, Series, DataFrames columns are lists; indices are `nat` or `Z`.
- Python exceptions are values (`inl err` / `None` / a result type), never totalised away.
- Methods that mutate `self` or their arguments return the new state explicitly. Where aliasing matters there is an explicit store.
- External numerical routines (quantiles, STL, Prophet, linear solvers, scipy distributions) are section variables / function arguments; anything assumed of them is a hypothesis visible in the theorem statement.

## Refuted properties

When the faithful model violates the property, the theorem is named `…_refuted` (existence of a concrete counterexample), accompanied by the theorem for the part that does hold, and by an exact description of the failure when one is possible. These are findings about the code; they are collected in the section "Findings".

## Plan per property

- **C01 Rejecting runs are reported exactly** — Model the diff/flatnonzero computation literally over lists of 0/1 integers; specify maximal runs by index quantifiers; prove equivalence by relating diff entries to boundaries.
  - Result: Proved for every boolean list; the failure on an empty list is characterised.
  - `IntervalRunsProps.v`: `C01_runs_exact`, `C01_raises_only_on_empty`, `C01_each_true_index_once`
- **C02 Anomaly flags follow the run-length rule** — Model the loop that writes slices into a boolean array; prove pointwise characterisation against the C01 specification of runs.
  - Result: Proved from the mask to the flags and the two interval lists, including when interval construction raises.
  - `IntervalRunsProps.v`: `C02_flags`, `C02_anomaly_and_caution`, `C02_interval_times`, `C02_intervals_raise`
- **C03 The m-run probability is the true probability** — Model the transition matrix and its power over Q; define the spec by enumerating all outcomes; prove both satisfy the same first-failure recurrence.
  - Result: Exact arithmetic, independent trials (cov=None). The spec sums over all 2^n outcomes.
  - `RunProbProps.v`: `C03_run_probability_exact`, `C03_run_probability_raises`, `C03_event_meaning`
- **C04 The m-run probability is a monotone probability bracketed by the search bounds** — Prove from the outcome-sum specification by induction and by coupling (monotonicity in p through the recurrence).
  - Result: All six inequalities.
  - `RunProbProps.v`: `C04_run_probability_range`, `C04_monotone_in_p`, `C04_monotone_in_n`, `C04_antitone_in_m`, `C04_union_bound`, `C04_block_bound`
- **C05 Critical value searches return only values that meet their target** — Fuelled loops mirroring the code with explicit error results; loop invariants.
  - Result: Soundness and completeness of both searches; m-th roots enter as any numbers satisfying the defining inequalities; convergence is proved through a Lipschitz bound when 2^max_iter is large enough.
  - `RunProbProps.v`: `C05_lowest_m_sound`, `C05_lowest_m_raises`, `C05_lowest_p_sound`, `C05_lowest_p_full_length`, `C05_bracket`, `C05_lowest_p_succeeds`
- **C06 Test decision agrees with the reported confidence interval** — Decision and CI formulas over Q with the quantile as an oracle value symmetric around 0.
  - Result: Real arithmetic; norm.ppf is any symmetric increasing function. Partial: holds for two-sided tests and one-sided levels up to 1/2; refuted for one-sided levels above 1/2, which the level search does produce for long durations.
  - `TestDecisionProps.v`: `C06_absolute_agrees_partial`, `C06_relative_agrees_partial`, `C06_two_sided_is_disjunction`, `C06_one_sided_refuted`
- **C07 Backtest folds never leak the future** — Index-level model over nat with percentages as rationals; prove containment and adjacency for all folds.
  - Result: Bounds for all three window backtesters, the rows each fold uses for the rolling one, and definedness.
  - `BacktestProps.v`: `C07_simple`, `C07_fixed_window`, `C07_rolling_origin`, `C07_rolling_rows`, `C07_simple_defined`, `C07_rolling_defined`, `C07_fixed_defined`
- **C08 Fold offsets are evenly spread** — Model np.array_split sizes; prove by induction on the number of pieces.
  - Result: Both offset computations; float linspace is exact here.
  - `BacktestProps.v`: `C08_backtester_offsets`, `C08_offsets_defined`, `C08_partition_offsets`, `C08_partition_folds`
- **C09 A failing fold is accounted for** — Model fold evaluation as result values, prove pointwise mapping.
  - Result: Partial: one score per fold and the average summary hold; the weighted summary raises when any fold failed, and is not a weighted mean when a score is NaN.
  - `BacktestProps.v`: `C09_one_score_per_fold_partial`, `C09_all_failing_raises`, `C09_average_partial`, `C09_weighted_refuted`, `C09_weighted_partial`, `C09_weighted_nan_refuted`
- **C10 Train/test partitions conserve the data** — List model with take/drop; conservation theorem.
  - Result: Partial: train_frac=0.0 is accepted and gives train = test = whole series; everything else is proved, including the rolling partition.
  - `BacktestProps.v`: `C10_train_frac_partial`, `C10_train_size`, `C10_train_length`, `C10_frac_size`, `C10_explicit_test`, `C10_zero_frac_refuted`, `C10_rolling_rows`
- **C11 Re-running a backtest gives the same errors** — State-machine model of the error accumulators; expected refuted, plus exact characterisation of what the second run produces.
  - Result: Refuted: a second run doubles every error. Partial: the first run gives the row-weighted mean of the fold errors.
  - `BacktestProps.v`: `C11_second_run_refuted`, `C11_first_run_partial`
- **C12 A CUSUM change point always splits the series** — Executable model over Q of the iteration with fuel = max_iter; loop invariant.
  - Result: Partial: proved from three points (or three points of interest window) on; refuted with two.
  - `CusumProps.v`: `C12_splits_partial`, `C12_window_partial`, `C12_defined`, `C12_stable_is_fixed_point`, `C12_two_points_refuted`, `C12_two_point_window_refuted`
- **C13 CUSUM alert state machine invariants** — State machine with step function taking the oracle results of the statistical tests; invariant by induction over histories.
  - Result: Every history from a fresh model; the detector's findings and the scan statistics are arbitrary inputs.
  - `CusumProps.v`: `C13_reachable`, `C13_step`, `C13_change_points_were_found`, `C13_normal`
- **C14 CUSUM block processing scores every point once** — Lists-of-lists model, round-trip theorem.
  - Result: Round trip of the columns and the split of a call into vectorised and remaining rows. Scores stand for rows.
  - `CusumProps.v`: `C14_round_trip`, `C14_vectorised_path`, `C14_step_points`
- **C15 Statistical-significance windows do not overlap and do not look ahead** — Integer time model; interval algebra.
  - Result: Any statistic of the two windows; strictly increasing time stamps, regular or not; the scores-only path uses the same windows.
  - `StatSigProps.v`: `C15_scores`, `C15_scores_only`, `C15_regular_windows`
- **C16 Splitting a long series does not change its scores** — List model of both functions. Round trip proved when the padding is positive, refuted when it is zero.
  - Result: Partial: equal scores unless the number of scored points is a multiple of the split length, where every score is zero (refuted for all such inputs). Also refuted: min_perc_change is not passed to the split path; with one control and one test point the split raises.
  - `StatSigProps.v`: `C16_split_same_scores_partial`, `C16_multiple_of_split_refuted`, `C16_min_change_ignored_refuted`, `C16_raises_refuted`
- **C17 History padding conserves observations** — List model with integer timestamps.
  - Result: All boundary positions, and that the response covers the data.
  - `StatSigProps.v`: `C17_padding`, `C17_response_covers_data`
- **C18 Serialising a detector preserves its parameters** — Association-list JSON model, per detector round trip or refutation (BOCPD drops threshold, RollingStats raises, StatSig drops anomaly_scores_only).
  - Result: Proved for CUSUM (with its state), distribution distance, interval and outlier detectors; partial for StatSig, MultiStatSig, BOCPD and Prophet (the lost parameters are named); refuted for those, and never possible for rolling statistics, BOCPD trend, vectorised CUSUM, multivariate and static threshold detectors.
  - `SerialProps.v`: `C18_statsig_partial`, `C18_statsig_refuted`, `C18_multi_partial`, `C18_multi_refuted`, `C18_rolling_refuted`, `C18_bocpd_partial`, `C18_bocpd_refuted`, `C18_bocpd_trend_refuted`, `C18_cusum`, `C18_cusum_new`, `C18_vcusum_refuted`, `C18_distance`, `C18_interval`, `C18_outlier`, `C18_multivariate_refuted`, `C18_prophet_partial`, `C18_prophet_refuted`, `C18_static_refuted`
- **C19 Anomaly intervals tile the alerting points** — Loop model over a list of (time, alert) pairs; coverage proved except a lone alert at the last point, which is refuted.
  - Result: Order, disjointness and maximality proved; coverage proved except for a lone alert at the last row, which is refuted.
  - `PostProps.v`: `C19_alerting`, `C19_intervals`, `C19_covered_partial`, `C19_last_refuted`
- **C20 Banded DTW equals the best warping path** — DP table over extended rationals; paths as an inductive relation; prove lower bound and attainment. (Square root is monotone and left out.)
  - Result: For every pair of nonempty series and every width, over the code's asymmetric band, with the empty cases separately. The square root is left out.
  - `DTWProps.v`: `C20_least_warping_path`, `C20_empty_series`, `C20_unrestricted`
- **C21 LB_Keogh never exceeds the DTW distance** — Row argument on paths: every row is visited inside the band.
  - Result: Equal lengths and width at least one, as claimed.
  - `DTWProps.v`: `C21_lower_bound`
- **C22 Pruning does not change the nearest neighbour** — Fold model; loop invariant from C21.
  - Result: Windows of at least three points: same farthest window, first closest match and distance as the exhaustive search, ties included. With windows of one or two points the search raises (shown).
  - `DTWProps.v`: `C22_pruned_search_exact`, `C22_closest_match`, `C22_short_windows_raise`
- **C23 DTW is a sensible dissimilarity** — Self distance zero proved for width >= 1; refuted for width 0 and refuted for symmetry.
  - Result: Partial: self distance zero for width >= 1 and symmetry when the band covers both series; refuted for width 0 and, in general, for symmetry.
  - `DTWProps.v`: `C23_self_zero_partial`, `C23_wide_symmetric_partial`, `C23_zero_width_refuted`, `C23_symmetry_refuted`
- **C24 TimeSeriesData is sorted and keeps the rows** — Stable merge/insertion sort on rows, permutation and sortedness; dedup keep-first.
  - Result: Any row type; the sort is stable in the model but no theorem uses that.
  - `TSDataProps.v`: `C24_sorted_permutation`, `C24_drop_duplicates`, `C24_unsorted`, `C24_columns`
- **C25 extend concatenates without loss** — List model; permutation and length theorems.
  - Result: Multi-column rows with missing cells. Refuted: a rejected extension has already overwritten the receiver. pd.infer_freq is an arbitrary predicate.
  - `TSDataProps.v`: `C25_extend_keeps_everything`, `C25_same_columns_append`, `C25_validation`, `C25_rejected_unchanged_refuted`
- **C26 Slicing and excluding select by time exactly** — filter / firstn / skipn model.
  - Result: Partial: positions and rejoining hold for series in time order; a series built with sort_by_time=False is re-sorted by every slice, so rejoining is refuted there. Exclusion holds for all.
  - `TSDataProps.v`: `C26_slice_positions_partial`, `C26_slice_last_partial`, `C26_slices_rejoin_partial`, `C26_slice_rows`, `C26_slices_rejoin_unsorted_refuted`, `C26_exclude`, `C26_exclude_rows`
- **C27 Series arithmetic aligns by time** — Outer-merge model; pointwise lookup theorem.
  - Result: Partial: holds for distinct ordered time stamps and equal column names; refuted with repeated time stamps (rows multiply) and with different column names (all values become NaN).
  - `TSDataProps.v`: `C27_series_partial`, `C27_constant_partial`, `C27_different_times_rejected`, `C27_other_name_loses_values_refuted`, `C27_repeated_times_refuted`
- **C28 Robust frequency is the most common gap** — Mode over list of differences.
  - Result: Partial: holds whenever the stored rows are in order or the series was built unsorted; refuted after an extend with earlier points (negative frequency).
  - `TSDataProps.v`: `C28_most_common_gap_partial`, `C28_majority_partial`, `C28_after_extend_refuted`
- **C29 AnomalyResponse is a sliding window** — Record of lists; induction over update list.
  - Result: All six components by name, any number of updates; the length statement needs no order of time stamps.
  - `ResponseProps.v`: `C29_sliding_window`, `C29_lengths`, `C29_absent_components`
- **C30 get_last_n returns the last n points** — Python slice model; proved for n >= 1, refuted for n = 0.
  - Result: Partial: holds for n >= 1; refuted for n = 0 (everything is returned).
  - `ResponseProps.v`: `C30_last_n_partial`, `C30_absent_components`, `C30_zero_refuted`
- **C31 Change point interval statistics follow the data** — State machine including the cached spikes field; stale cache refuted.
  - Result: Held points for every sequence of set/extend operations, mean and variance of them. Refuted: spikes are cached at the first reading and never follow the data again.
  - `ResponseProps.v`: `C31_held_points`, `C31_mean_and_variance`, `C31_spikes_stale_refuted`, `C31_first_spikes_partial`
- **C32 Error metrics respect their ranges** — Vectors over Q; induction.
  - Result: Each metric is the mean of its pointwise errors over the complete pairs; ranges and zero sets follow.
  - `MetricsMoreProps.v`: `C32_percentages`, `C32_medians`, `C32_median_percentage`, `C32_symmetric`, `C32_scaled_error`, `C32_probability_scores`, `C32_probability_missing`, `C32_frequency`, `C32_pinball`, `C32_pinball_levels`
  - `MetricsProps.v`: `C32_means`, `C32_zero_iff_perfect`, `C32_ranges`, `C32_tracking_signal`, `C32_lengths_checked`
- **C33 Published metric metadata is valid** — Refuted for sMAPE (reaches 2 with published bound 1), MAPE (negative) and for the missing names; bounds proved for the others.
  - Result: Partial: bounds hold for the metrics listed; refuted for sMAPE, MAPE and one metadata name; the core registry holds metrics that cannot be called with two vectors.
  - `MetricsProps.v`: `C33_bounds_partial`, `C33_smape_refuted`, `C33_mape_refuted`, `C33_names_refuted`, `C33_core_names_partial`
- **C34 Coverage and interval scores behave monotonically** — Pointwise order lifted to sums.
  - Result: Share of points covered, monotone under widening, quantile minimises pinball, interval score.
  - `MetricsMoreProps.v`: `C34_pointwise`
  - `MetricsProps.v`: `C34_coverage_is_share`, `C34_wider_covers_more`, `C34_quantile_minimises_pinball`, `C34_interval_score`
- **C35 Rolling statistics use exactly the trailing window** — Strided windows over lists.
  - Result: Point based and time based windows, expanding windows, when the call raises, and that nothing outside the window matters. Each statistic is specified by medians, quartiles, mean and variance; the z-score is carried as z*|z|.
  - `RollingProps.v`: `C35_scores`, `C35_deseasonalised`, `C35_only_window`, `C35_time_based`, `C35_regular_grid`
- **C36 Rolling statistics calls are repeatable** — State model; refuted for time-based windows, proved for point-based ones.
  - Result: Refuted twice: the caller's history is extended in place, and a time based window is overwritten by its number of points. Proved for point based calls without history and for the time based loop.
  - `RollingProps.v`: `C36_repeat_partial`, `C36_repeat_time_partial`, `C36_history_refuted`, `C36_window_refuted`
- **C37 Percentile merging yields a distribution** — Run-length model over Q.
  - Result: Proved: the merged list is exactly the distribution of the entries.
  - `DistDistProps.v`: `C37_merge`
- **C38 Percentile projection yields comparable distributions** — Non-negativity, equal length and sum <= 1 proved; sum = 1 refuted (disjoint supports give the zero vector).
  - Result: Proved what both vectors are (shares, and increments of the interpolated distribution function); that the interpolated one sums to 1 is refuted, and proved when both lists reach the same maximum.
  - `DistDistProps.v`: `C38_vectors`, `C38_mass_partial`, `C38_mass_refuted`, `C38_same`
- **C39 Reported seasonality lengths are irredundant and complete** — Sieve model; invariant.
  - Result: Proved from the series: the reported lags are the fundamental ones among the significant lags of the differenced series.
  - `SeasonProps.v`: `C39_lengths`
- **C40 Robust-stat change points are spread and complete** — Greedy filter model.
  - Result: Proved with the spikes specified as differences of smoothed values and significance through their z-scores.
  - `RobustProps.v`: `C40_points`
- **C41 Outliers are exactly the residuals beyond the fences** — Threshold model with quantiles as oracle.
  - Result: Proved with the frequency inference, interpolation and decomposition as parameters; the daily grid is modelled. Scores are proved to lie outside [0,1] exactly for outliers when the residuals have spread; without spread no score is finite.
  - `OutlierProps.v`: `C41_fences`, `C41_scores`
- **C42 Hourly ratios are per-day distributions** — Group-by-day list model.
  - Result: Proved with and without aggregation, from the observations of each calendar day. Sums to one unless the day's total is zero.
  - `HourlyDetectProps.v`: `C42_independent`
  - `HourlyProps.v`: `C42_hourly`, `C42_refused`, `C42_aggregated`
- **C43 Mann-Kendall scan visits every full window** — Index model; refuted for the first full window, exact set of tested anchors proved. Mann-Kendall S antisymmetry and range proved.
  - Result: Each tested window, its statistic, variance and decision are proved from the cleaned values; that the first full window is tested is refuted.
  - `TrendProps.v`: `C43_univariate`, `C43_multivariate`
  - `TrendScanProps.v`: `C43_raises`, `C43_first_refuted`, `C43_short_refuted`
- **C44 The run-length posterior is the exact Bayesian posterior** — Linear-domain model of the message recursion over Q; specification enumerates all change point sets.
  - Result: Posterior as share of the total weight of all 2^i histories. In this recursion a point is scored by the run it finds and then may start a new run of which it is the first point; the specification states that process.
  - `BocpdProps.v`: `C44_exact_posterior`, `C44_distribution`
- **C45 Aggregated change probabilities are posterior maxima** — Matrix as list of lists.
  - Result: Both reporting modes, threshold rule, range, and the failure for lags not below the length.
  - `BocpdProps.v`: `C45_aggregated`, `C45_lagged`, `C45_probabilities`
- **C46 The returned run-length matrix is the posterior** — Refuted with aggregation (diagonal cleared in place); proved without aggregation.
  - Result: Holds without aggregation; with aggregation (the default) refuted for every row of every run.
  - `BocpdProps.v`: `C46_matrix_lagged_partial`, `C46_matrix_aggregated_refuted`
- **C47 Ensemble weights form a convex combination** — Q vectors.
  - Result: Weights and weighted forecasts for the weighted average ensemble and for forecast() of the decomposition based one. fit()/predict() pair weights and forecasts by position: proved for names without the reserved mark, refuted with.
  - `EnsembleAggProps.v`: `C47_kats_forecast`, `C47_kats_fit_partial`, `C47_kats_fit_refuted`
  - `EnsemblePlainProps.v`: `C47_names`, `C47_registered`
  - `EnsembleProps.v`: `C47_weights`, `C47_forecast`
- **C48 Median ensemble lies between base forecasts** — Median through sorting.
  - Result: Both ensembles; the order of learners is irrelevant.
  - `EnsembleAggProps.v`: `C48_kats_aggregate`
  - `EnsembleProps.v`: `C48_median`, `C48_order`
- **C49 Seasonal models are trained on seasonal data** — Model of the dispatch; refuted for fit, proved for forecast.
  - Result: Holds for forecast(); refuted for fit(), which trains the extra seasonal learners on the deseasonalised series.
  - `EnsembleKatsProps.v`: `C49_forecast_partial`, `C49_fit_partial`, `C49_fit_refuted`
  - `EnsemblePlainProps.v`: `C49_plain_forecast`, `C49_plain_predict`
- **C50 Reconciled forecasts are coherent across levels** — List model with linear solver as oracle.
  - Result: Every method, every horizon, and any requested levels; also that a level k forecast carries the time of the last level 1 forecast it sums.
  - `ThmProps.v`: `C50_coherent`, `C50_times`
- **C51 Summation matrix and common multiple are right** — gcd fold; matrix rows.
  - Result: Least common multiple and the summation matrix.
  - `ThmProps.v`: `C51_lcm`, `C51_summation_matrix`, `C51_rows`
- **C52 Reconciliation leaves coherent forecasts unchanged** — Matrix algebra over Q with the solver oracle's contract.
  - Result: Bottom-up and all weighted methods (diagonal and full weights) under the contract of an exact solver; horizons of whole periods.
  - `ThmProps.v`: `C52_fixed_point`, `C52_predict`
- **C53 Calendar features describe the calendar** — Gregorian calendar model; quarter end refuted with the exact set of flagged days; others proved.
  - Result: Weekday, maps, flags and week of month without time zone proved for all dates; quarter end, seasons and week of month with a time zone refuted.
  - `CalendarProps.v`: `C53_weekday`, `C53_map`, `C53_flags`, `C53_quarter_end_refuted`, `C53_season_refuted`, `C53_weekofmonth`, `C53_weekofmonth_zone_refuted`, `C53_time`
- **C54 A pipeline returns one result per series** — Heap model with object identity; refuted for two or more distinct series; proved for singletons.
  - Result: Refuted for lists; proved for single series and for detector results.
  - `PipelineProps.v`: `C54_shared_refuted`, `C54_single_partial`, `C54_metadata`, `C54_metadata_last`
- **C55 Empirical prediction intervals contain the forecast** — Least squares closed form over Q; refuted in general, proved when slope and intercept are non-negative.
  - Result: The interval is the forecast -+ quantile times the least-squares line; containment proved for late horizons, non-decreasing deviations and constant ones, refuted in general.
  - `EmpIntervalProps.v`: `C55_line`, `C55_contains_partial`, `C55_late_partial`, `C55_constant`, `C55_refuted`
- **C56 Block scheme of the ensemble interval is well formed** — Index model.
  - Result: Proved.
  - `EpiProps.v`: `C56_settings`, `C56_blocks`, `C56_errors`, `C56_projection`, `C56_ensemble`
- **C57 Simple heuristic forecasts have the requested horizon** — List model of negative slicing and reshape.
  - Result: Proved; predicting before fitting is refuted to raise.
  - `HeuristicProps.v`: `C57_forecast`, `C57_last`, `C57_percentile_range`, `C57_raises`, `C57_history`, `C57_unfitted_refuted`
- **C58 Renaming columns by prefix is unambiguous** — String-list model.
  - Result: Raising and the result proved; distinctness of the resulting labels proved under a condition, refuted in general.
  - `RenameProps.v`: `C58_raises`, `C58_result`, `C58_distinct_partial`, `C58_duplicates_refuted`
- **C59 Version comparison is a total order** — Lexicographic order model.
  - Result: Proved.
  - `VersionProps.v`: `C59_preorder`, `C59_consistent`, `C59_equal`, `C59_release`, `C59_epoch`, `C59_stages`, `C59_text`
- **C60 Interval detection calls are repeatable** — State model; refuted when duration is not given, proved when it is.
  - Result: Partial: holds when a duration is given; refuted with automatic duration (the first call stores the duration, the second takes the other branch).
  - `RunProbProps.v`: `C60_repeatable_with_duration_partial`, `C60_repeatable_refuted`
- **C61 Automatic duration keeps the global error within tolerance** — Use the exact m-run probability of C03; the level stored by the code is the global probability of the chosen duration, so the property is refuted by a witness at alpha=0.05, n=24, and proved when that value is at most alpha.
  - Result: Partial: refuted at alpha=0.05, n=24, r_tol=0.1; holds when the stored level does not exceed alpha.
  - `RunProbProps.v`: `C61_auto_duration_error_refuted`, `C61_auto_duration_error_partial`
- **C62 Backtests compare each truth with the forecast for the same time step** — Model one fold with an arbitrary forecaster returning a vector of steps values; prove index equality. Holds when the offset equals the gap; refuted when an offset is passed to the simple or rolling-origin backtester.
  - Result: Partial: holds when offset equals the gap (fixed window, or offset 0); refuted for simple/rolling with an offset.
  - `BacktestProps.v`: `C62_alignment_partial`, `C62_offset_refuted`
- **C64 Timestamp partition selects exactly the rows of the closed intervals** — Model searchsorted by counting and slicing by Python slices; prove equality with a filter.
  - Result: Missing bounds are None.
  - `BacktestProps.v`: `C64_timestamp_partition`
- **C65 A converged CUSUM change point is the best two-level split** — The cumulative sum around the midpoint of the two means equals, up to an affine map, the squared error of the split; the fixed point is its argmin/argmax.
  - Result: Fixed points on the clipped boundary are not covered (there the reported point is the clipped one).
  - `CusumProps.v`: `C65_best_split`, `C65_regression_direction`
- **C66 Online CUSUM scores every data point exactly once** — Integer times; the two index searches count entries below a time; the loop ranges tile. Refuted by a crash when the remaining data start exactly at the end of the historical window; tiling proved otherwise.
  - Result: Partial: every returned result tiles the data; refuted by a crash whose condition is characterised.
  - `CusumProps.v`: `C66_tiles_partial`, `C66_zero_rows_partial`, `C66_raises_only_partial`, `C66_crash_refuted`
- **C67 A CUSUM alert ends when the data is back at the baseline** — Model inf*0 = NaN explicitly. Refuted when a single direction is watched and the baseline is constant; proved otherwise.
  - Result: Partial: holds when both directions are watched or the baseline varies; refuted for a constant baseline and one watched direction.
  - `CusumProps.v`: `C67_clears_partial`, `C67_one_direction`, `C67_constant_history_refuted`
- **C68 Detection does not change the caller's series** — Return the caller's history object as an extra output of the model; prove when it equals the input, refute it otherwise.
  - Result: Partial: a long enough history is untouched; refuted for short histories and always for anomaly_scores_only.
  - `StatSigProps.v`: `C68_long_history_unchanged_partial`, `C68_short_history_extended_refuted`, `C68_scores_only_refuted`, `C68_second_call_differs_refuted`
- **C69 In-place updates touch exactly the addressed time** — Response as a record of row lists; point-wise characterisation per named component.
  - Result: Point-wise for every component, plus commutation.
  - `ResponseProps.v`: `C69_inplace`, `C69_absent_components`, `C69_order`
- **C70 Extending a response is all or nothing** — Sequential extension with early exit; prove the successful and the mismatching case, refute atomicity when a validation fails.
  - Result: Partial: appends, or refuses responses of different shape unchanged; refuted when a validation fails after the first component.
  - `ResponseProps.v`: `C70_appends_partial`, `C70_mismatch_unchanged`, `C70_failed_validation_refuted`
- **C71 The significance score is the pooled t statistic** — Real-number model with sqrt; rewrite the variances as sums of squares.
  - Result: Over R with sqrt.
  - `PercChangeProps.v`: `C71_pooled_statistic`, `C71_shift_invariant`, `C71_scale_invariant`, `C71_swap_negates`, `C71_clipping`
- **C72 Score sign and direction agree with the change** — Prove the score part; direction for positive control means; refute it for negative ones.
  - Result: Partial: refuted for negative control means, where the direction is inverted.
  - `PercChangeProps.v`: `C72_score_sign`, `C72_direction_partial`, `C72_negative_baseline_refuted`
- **C73 Intervals contain the estimate and significance means excluding no change** — Real-number model; NaN bounds compare false. Refuted for constant data and for one-point windows.
  - Result: The interval laws hold; refuted: identical constant windows, and any comparison with a one-point window, are reported significant.
  - `PercChangeProps.v`: `C73_intervals`, `C73_constant_refuted`, `C73_single_point_refuted`
- **C74 Rescaled multivariate scores carry the corrected p value** — Abstract symmetric CDF with inverse.
  - Result: For every symmetric distribution; scipy's t distribution and statsmodels' correction are abstracted by their properties.
  - `PercChangeProps.v`: `C74_rescaled`
- **C75 A column scores the same alone and in a multivariate series** — Prove it for corrected scores, refute it otherwise.
  - Result: Partial: holds with corrected scores, refuted without.
  - `PercChangeProps.v`: `C75_same_score_partial`, `C75_uncorrected_refuted`
- **C76 Spikes are the points far above the mean** — Real-number model of the z score filter.
  - Result: Over R; upward deviations only, as coded.
  - `PercChangeProps.v`: `C76_spikes`, `C76_few_spikes`, `C76_upward_only`
- **C77 DTW compares exactly the active windows** — List model of the dictionary comprehension.
  - Result: Exact characterisation, each window once.
  - `DTWProps.v`: `C77_windows_considered`, `C77_each_window_once`
- **C78 DTW reports only a minority of outlying series** — Exact rational model of the mean deviation rule; the median is an arbitrary number.
  - Result: For any value of the median.
  - `DTWProps.v`: `C78_reported_fraction`, `C78_equal_distances_silent`, `C78_not_every_series`
- **C79 DTW detection is repeatable** — Model with the outlier list as state; holds except with exactly one active series, where it is refuted.
  - Result: Partial: holds unless exactly one series is active, refuted there.
  - `DTWProps.v`: `C79_repeatable_partial`, `C79_repeat_refuted`
- **C80 Missing values do not influence a metric** — Option-valued vectors. Proved for eight metrics, refuted for percentage metrics, coverage and tracking signal.
  - Result: Partial: eight metrics; refuted for percentage metrics, coverage and the tracking signal.
  - `MetricsMissingProps.v`: `C80_missing_ignored_partial`, `C80_percentage_refuted`, `C80_coverage_refuted`, `C80_tracking_refuted`
- **C81 Exceedance rates count what they are documented to count** — The documented direction is refuted, the direction computed and the block structure are proved.
  - Result: Refuted as documented; the direction actually computed and the block structure are proved.
  - `MetricsMissingProps.v`: `C81_actual_direction_partial`, `C81_documented_refuted`, `C81_many_thresholds`
- **C82 Rolling coverage is the coverage of a window** — Model of np.convolve(mode=same). Refuted within half a window of the ends.
  - Result: Exact away from the ends, range everywhere, refuted at the ends.
  - `MetricsMissingProps.v`: `C82_rolling_coverage`, `C82_edges_refuted`
- **C83 Weighted errors are weighted means** — Sums over Q; refuted for the squared error with missing values.
  - Result: Absolute error for all patterns of missing values; squared error for complete data only (refuted otherwise).
  - `MetricsMissingProps.v`: `C83_weighted_mae`, `C83_weighted_mse_partial`, `C83_weighted_mse_missing_refuted`, `C83_weighted_errors_add_up`
- **C84 Relative metrics do not depend on the unit** — Proved for five metrics, refuted for the scaled error because of the absolute 1e-8 tolerance.
  - Result: Five metrics; refuted for the scaled error.
  - `MetricsMissingProps.v`: `C84_unit_free_partial`, `C84_mase_refuted`
- **C85 Normal segments use the conjugate posterior** — Array model with a back-growing suffix. Variance proved; mean refuted for every non-zero prior mean (the numerators start at 0).
  - Result: Variance and run windows right; the prior mean is ignored, for all data.
  - `BocpdProps.v`: `C85_prior_mean_refuted`, `C85_conjugate_partial`
- **C86 Poisson segments use the conjugate posterior** — Parameters over Q; mean and variance compared with the posterior.
  - Result: Proved for all run lengths.
  - `BocpdProps.v`: `C86_conjugate`
- **C87 The prior search maximises the marginal likelihood** — Telescoping product. Proved for the points from the third on; the likelihood of the second point is left out (refuted).
  - Result: Partial: the likelihood of the second point is missing from the score.
  - `BocpdProps.v`: `C87_predictive_partial`, `C87_first_point_refuted`
- **C88 Evidence decides about a change, not the prior alone** — Proved that the probability of a run starting now is always the prior; so lag 0 ignores the data, and aggregated probabilities are never below the prior.
  - Result: Refuted for lag 0, whose probabilities are the prior for all data; aggregated probabilities never fall below the prior.
  - `BocpdProps.v`: `C88_new_run_is_prior`, `C88_lag_zero_refuted`, `C88_aggregated_at_least_prior`
- **C89 More data never revises the past** — Row independence of T.
  - Result: Proved; also independence of the unit of the densities.
  - `BocpdProps.v`: `C89_more_data`, `C89_density_units`
- **C90 Supplied forecasts beyond the needed ones are ignored** — Refuted for horizons that are not whole periods; the whole periods of the output depend only on the needed forecasts; refusal proved.
  - Result: Refuted: with a horizon that is not a whole number of periods the padding enters the output. Proved for the whole periods.
  - `ThmProps.v`: `C90_padding_ignored_refuted`, `C90_repeats_last_refuted`, `C90_whole_periods_partial`, `C90_too_few`
- **C91 Reconciliation is the weighted least squares adjustment** — Normal equations; orthogonality; contract of an exact linear solver, with Gaussian elimination proved to meet it.
  - Result: Minimality, positivity of the weights and solvability; which residuals each weight comes from.
  - `ThmProps.v`: `C91_weights_positive`, `C91_least_squares`, `C91_solvable`
  - `ThmWeightProps.v`: `C91_weights`
- **C92 Training series of a level are sums of complete trailing blocks** — Index arithmetic.
  - Result: Proved.
  - `ThmProps.v`: `C92_blocks`, `C92_compose`
- **C93 The median method respects coherent forecasts** — Refuted for coherence; the pointwise median of evenly spread base forecasts is proved.
  - Result: Refuted for coherence; what the method computes is proved.
  - `ThmProps.v`: `C93_median_refuted`, `C93_median_partial`
- **C94 Ensemble intervals contain the ensemble forecast** — Monotonicity of order statistics and of positive combinations; refuted for zero bounds and for multiplicative placeholders.
  - Result: Proved when all bounds are given and non-zero; refuted for genuine zero bounds and for the zero placeholders of the multiplicative decomposition.
  - `EnsembleAggProps.v`: `C94_median_partial`, `C94_weighted_partial`, `C94_median_refuted`, `C94_multiplicative_refuted`
- **C95 Ensemble forecasts are dated with the requested number of following dates** — Refuted when the last observation is off the calendar.
  - Result: Proved on the calendar; off it no forecast is produced.
  - `EnsembleProps.v`: `C95_dates`, `C95_weighted_dates`, `C95_off_calendar_refuted`
- **C96 Reseasonalising continues the last season** — Index arithmetic of the tiling.
  - Result: Proved.
  - `EnsembleKatsProps.v`: `C96_reseasonalize`, `C96_exact`
  - `EnsemblePlainProps.v`: `C96_accepted`
- **C97 Ensemble weights use the requested error metric** — Holds without seasonality; refuted with.
  - Result: Holds without seasonality only.
  - `EnsembleAggProps.v`: `C97_metric_partial`, `C97_seasonal_refuted`
- **C98 The configured IQR multiple is the one applied** — Proved for point based windows; refuted for the time based loop.
  - Result: Proved for point based windows; the time based loop always uses 1.5.
  - `RollingProps.v`: `C98_iqr_base_partial`, `C98_iqr_base_refuted`
- **C99 Rolling scores do not depend on units** — Equivariance of medians, quartiles, mean and variance.
  - Result: Proved for all six statistics.
  - `RollingStatsProps.v`: `C99_units`, `C99_relative`
- **C100 Rolling scores point in the direction of the deviation** — Proved for windows with spread; refuted for constant windows, and for the relative deviation of negative series.
  - Result: Proved for windows with spread, and for the relative deviation with a positive median.
  - `RollingStatsProps.v`: `C100_direction_partial`, `C100_constant_refuted`, `C100_negative_refuted`, `C100_relative_partial`
- **C101 Each point is compared with the row one window earlier** — Order of the filtered rows; induction over the scored suffix.
  - Result: Proved for rows in strict time order; the exact condition for raising is proved for the distances other than Jensen-Shannon.
  - `DistDistDetectProps.v`: `C101_compared`, `C101_raises`
- **C102 Comparing two percentile lists does not depend on their order** — Proved when one list has more distinct values; refuted otherwise.
  - Result: Proved for different numbers of distinct values; refuted for equally many.
  - `DistDistProps.v`: `C102_swap_partial`, `C102_swap_refuted`
- **C103 A polynomial trend does not change the detected seasonality** — Linearity of the difference operator.
  - Result: Proved.
  - `SeasonProps.v`: `C103_trend`
- **C104 Reported spectral cycles are the peaks that are not harmonics** — Exact characterisation of the reported peaks; that every dropped peak is accounted for by a reported one is refuted.
  - Result: What is reported is proved exactly; that every dropped peak is a near multiple of a reported one is refuted.
  - `SeasonProps.v`: `C104_peaks`, `C104_accounted_refuted`
- **C105 Robust-stat change points do not depend on units** — Equivariance of rolling means, differences and z-scores.
  - Result: Proved.
  - `RobustProps.v`: `C105_units`, `C105_constant`
- **C106 Every observation is examined for outliers** — Holds when a frequency can be inferred; refuted otherwise.
  - Result: Proved for regular series; refuted for others.
  - `OutlierUnitsProps.v`: `C106_examined_partial`, `C106_examined_refuted`
- **C107 Removing outliers removes exactly the outliers** — Positionwise characterisation; exact condition for raising; refuted for series with a missing day.
  - Result: Positionwise result and exact condition for raising proved; that the detector's own outliers can be removed is refuted.
  - `OutlierRemoveProps.v`: `C107_removed`, `C107_raises`, `C107_own_outliers_refuted`, `C107_before`
- **C108 Outliers do not depend on units** — Proved for additive decompositions; refuted for multiplicative ones.
  - Result: Proved for additive decompositions, refuted for multiplicative ones.
  - `OutlierUnitsProps.v`: `C108_units_partial`, `C108_multiplicative_refuted`
- **C109 Each observation after the training period is scored once, from the past** — Loop invariant; windows as list segments.
  - Result: Proved, with the model as a parameter.
  - `OutlierMvProps.v`: `C109_schedule`, `C109_off_grid`
- **C110 Cleaning training data removes the values far from the mean** — Refuted below the mean and for constant columns; the rest proved.
  - Result: Refuted on the lower side and for constant columns.
  - `OutlierMvProps.v`: `C110_cleaned_partial`, `C110_symmetric_refuted`, `C110_constant_refuted`
- **C111 Anomalies are the points significant at the requested level** — Refuted for every strictly decreasing tail; what is compared is proved.
  - Result: Refuted for every strictly decreasing tail function.
  - `OutlierMvProps.v`: `C111_level_refuted`, `C111_level_partial`
- **C112 The most anomalous metrics are metrics, in order** — Order proved; that only metrics are listed is refuted.
  - Result: Order proved; the p-value is listed as a metric.
  - `OutlierMvProps.v`: `C112_order_partial`, `C112_metrics_refuted`
- **C113 Every observed date is either compared or reported as incomplete** — Refuted without aggregation (more than 24 observations vanish; 24 observations need not be 24 hours); proved with it.
  - Result: Refuted without aggregation, proved with it.
  - `HourlyDetectProps.v`: `C113_dates_refuted`, `C113_hours_refuted`, `C113_dates_partial`
- **C114 The abnormal days are those whose pattern is far from the weekday's** — Positions of days and rows matched through chunking and weekday filters.
  - Result: Proved with the covariance estimate and the chi-square tail as parameters.
  - `HourlyDetectProps.v`: `C114_flagged`
- **C115 A day with exactly the typical pattern is at distance zero** — Refuted: the centre is 24 times the typical pattern, so the squared distance is 529 times that of the pattern itself.
  - Result: Refuted for every series: the typical pattern itself is 23 times itself away from the centre.
  - `HourlyRefuteProps.v`: `C115_typical_refuted`
- **C116 Detection runs whenever there is a complete day** — Refuted for a weekday without complete days and for a day summing to zero; proved for positive values with all weekdays.
  - Result: Refuted (weekday without a complete day; day with total zero); proved when every weekday has a kept day and values are positive.
  - `HourlyRefuteProps.v`: `C116_weekday_refuted`, `C116_zero_refuted`, `C116_frequency`, `C116_runs_partial`
- **C117 Hourly ratios do not depend on the unit** — Relational proof over sorting, grouping and division.
  - Result: Proved for all aggregations.
  - `HourlyRefuteProps.v`: `C117_units`
- **C118 The significance level given is the level of the test** — Refuted: the level is not used.
  - Result: Refuted: the level is never used; 0.05 always is.
  - `TrendScanProps.v`: `C118_level_refuted`, `C118_reported_refuted`
- **C119 Reported trend points have the requested direction and a Tau beyond the threshold** — Filter and map over the rows; sign of Tau from the decision.
  - Result: Proved.
  - `TrendScanProps.v`: `C119_reported`
- **C120 Tau measures monotonicity and does not depend on units** — Pair sums; relational proof through smoothing.
  - Result: Proved; units with any initial level of the smoothing that is affine in the data.
  - `TrendUnitsProps.v`: `C120_tau`, `C120_overall`, `C120_units`
- **C121 A trend test uses the data up to and including its time** — Independence of later data proved; that the latest observation counts is refuted.
  - Result: Independence of later data proved; the latest observation is refuted to have any influence, in both modes.
  - `TrendAnchorProps.v`: `C121_causal`, `C121_latest_refuted`, `C121_anchor_refuted`
- **C122 Anchor mode tests the last window before the anchor date** — What is tested is proved exactly; refuted for data sparser than daily.
  - Result: What is tested is proved; refuted that it is a full window.
  - `TrendAnchorProps.v`: `C122_anchor`, `C122_ignored`, `C122_weekly_refuted`
- **C123 Top metrics are ranked by Tau** — Sorted permutation.
  - Result: Proved in both modes.
  - `TrendMetricProps.v`: `C123_top`, `C123_anchor`
- **C124 Every metric is tested** — Refuted for metrics with a missing value; the metrics without are proved to be tested.
  - Result: Refuted for missing values; proved that exactly the complete metrics of a multivariate series are tested.
  - `TrendMetricProps.v`: `C124_univariate_refuted`, `C124_multivariate_refuted`, `C124_complete_partial`
- **C125 Circular encoding identifies values exactly modulo the period** — Trigonometry over the reals.
  - Result: Proved over the reals.
  - `CalendarProps.v`: `C125_circle`
- **C126 Fitting a pipeline leaves the caller's arguments unchanged** — Model with the caller's list; refuted for outlier steps with removal, proved otherwise.
  - Result: Refuted for outlier steps with removal; proved for all other pipelines.
  - `PipelineProps.v`: `C126_caller_partial`, `C126_caller_refuted`
- **C127 Every detector and model of the library can be a pipeline step** — Refuted: only MKDetector has the attribute that __detect__ reads; TsFeatures lacks the other.
  - Result: Refuted for every detector but MKDetector and for TsFeatures; proved usable: MKDetector and the models.
  - `PipelineProps.v`: `C127_steps_refuted`, `C127_usable_partial`
- **C128 Empirical intervals have the nominal coverage** — Refuted: the one-sided quantile gives 2p-1; monotonicity proved.
  - Result: Refuted: level p covers 2p-1, and below one half the interval is inverted; widening with the level proved.
  - `EmpIntervalProps.v`: `C128_coverage_refuted`, `C128_low_level_refuted`, `C128_monotone`
- **C129 Forecast dates continue the series** — Proved when the last date is on the grid; refuted otherwise.
  - Result: Proved when the last date is on the grid of the frequency; refuted otherwise.
  - `HeuristicProps.v`: `C129_dates_partial`, `C129_off_grid_refuted`
- **C130 Bands of the ensemble interval** — Pointwise over R.
  - Result: Proved; the quantile of the t distribution is a parameter.
  - `EpiProps.v`: `C130_bands`, `C130_levels`
- **C131 Simulated paths do not depend on how the work is spread** — Refuted: forked workers share the random state; one worker proved to equal the sequential run.
  - Result: Refuted for one process per path; a single worker equals the sequential run.
  - `EpiProps.v`: `C131_pool_refuted`, `C131_one_worker`
- **C132 A score beyond the threshold raises an alert** — Refuted for the first score; proved for all later ones when they are a window apart.
  - Result: Refuted for the first row; proved for the rest.
  - `PostProps.v`: `C132_first_refuted`, `C132_spaced_partial`
- **C133 Severity of an alert measures duration, area and magnitude of the excess** — Exact formulas proved; area proved for even spacing, refuted with gaps.
  - Result: Formulas proved; area under the excess proved for even spacing, refuted with gaps.
  - `PostProps.v`: `C133_volume`, `C133_area_partial`, `C133_area_refuted`, `C133_magnitude`
- **C134 The overall severity summarises the alerts** — Refuted without alerts (raises); proved otherwise.
  - Result: Refuted without alerts; proved with.
  - `PostProps.v`: `C134_raises_refuted`, `C134_overall_partial`
- **C135 Technical features use no later rows** — Refuted for ROC with n = 0 and for RSI on a frame whose index does not start at 0; proved otherwise.
  - Result: Proved for every feature with windows of at least one row and an index from 0; refuted for ROC with n = 0 and for RSI with another index.
  - `FeatProps.v`: `C135_causal`, `C135_roc_refuted`, `C135_rsi_refuted`
- **C136 Rate of change, momentum, mean and lag are the documented formulas** — Refuted for ROC (n - 1 rows); proved otherwise.
  - Result: Proved for LAG, MOM and MA; ROC proved to compare n - 1 rows back and refuted against its documentation.
  - `FeatProps.v`: `C136_lag`, `C136_mom`, `C136_ma`, `C136_ma_zero`, `C136_roc_partial`, `C136_roc_refuted`
- **C137 Exponential averages weight recent values more and stay within the data** — Loop of pandas ewm related to explicit weights.
  - Result: Proved; the pandas loop (adjust, no gaps ignored) is modelled.
  - `FeatProps.v`: `C137_ema`, `C137_within`, `C137_constant`, `C137_macd_constant`, `C137_macd_diff`
- **C138 Oscillators stay in their documented range** — Averages of non-negative values; domination of the signed average.
  - Result: Proved.
  - `FeatIndicatorProps.v`: `C138_rsi_range`, `C138_rsi_full`, `C138_tsi_range`
- **C139 Features can be added for any column and in any order** — Refuted for features whose label omits the source column.
  - Result: Proved for the features whose label names the column; refuted for EMA, TRIX, TSI and RSI.
  - `FeatIndicatorProps.v`: `C139_columns`, `C139_columns_refuted`
- **C140 Bollinger columns locate the value in the band** — Over R.
  - Result: Proved over the reals.
  - `FeatBandProps.v`: `C140_bands`, `C140_missing`
- **C141 Nowcasting learns the value the given number of rows ahead, from the past only** — Row-wise description of inputs and targets; prefix of the training set for a prefix of the data.
  - Result: Proved.
  - `NowcastProps.v`: `C141_training`, `C141_no_leak`, `C141_step`
- **C142 The nowcast is one number for the row step rows after the end** — Refuted: step numbers are returned, and an older row is used when the last one is incomplete; the last number proved to be the forecast from the last row if complete.
  - Result: Refuted in number and when the last row is incomplete; the last number proved otherwise.
  - `NowcastProps.v`: `C142_predict_partial`, `C142_count_refuted`, `C142_stale_refuted`
- **C143 NowcastingPlus adds back the season it removed** — Partial: proved for the last value on complete data of more than a day; refuted for the other values, for at most a day of data and for missing values.
  - Result: Proved for the last number (complete series on a daily grid, more than a day, a curve that is injective on the minutes); refuted for the others, for less data and for missing values.
  - `NowcastPlusProps.v`: `C143_forecast_partial`, `C143_exact_partial`, `C143_steps_refuted`, `C143_day_refuted`, `C143_missing_refuted`
- **C144 The dynamic model forecasts step rows ahead** — Refuted: labels are one-row differences; the exact error is proved, which is zero for step one.
  - Result: What is learnt and returned proved for complete series; the error for a right regressor is given exactly (zero for step 1).
  - `NowcastPlusProps.v`: `C144_features`, `C144_dynamic_partial`, `C144_dynamic_refuted`
- **C145 Evaluation runs exist from creation to deletion and are independent** — State machine over histories; induction.
  - Result: Proved for all histories.
  - `RunsProps.v`: `C145_exists`, `C145_raises`, `C145_independent`, `C145_fresh`
- **C146 An evaluation stores consistent results or nothing** — Refuted for the labels, which are stored before the checks; predictions and results proved unchanged.
  - Result: Results proved; a failing evaluation is refuted to leave the run unchanged (labels), predictions and results proved unchanged.
  - `RunsProps.v`: `C146_failure_partial`, `C146_results`, `C146_metric_refuted`, `C146_failure_refuted`
- **C147 The residual translator scores every row it is given** — Arguments and values proved; rows and arguments refuted.
  - Result: Arguments and residuals proved; returned rows proved to be those with a residual, refuted to be all; the caller's residuals lose rows.
  - `ResidProps.v`: `C147_arguments`, `C147_values`, `C147_rows_partial`, `C147_rows_refuted`, `C147_caller_refuted`
- **C148 The residual translator learns from all residuals unless told to ignore some** — Strictly between proved; the default refuted (extremes dropped, constant residuals raise).
  - Result: Proved: strictly between the quantiles; refuted for the default levels.
  - `ResidProps.v`: `C148_training`, `C148_default_refuted`, `C148_constant_refuted`, `C148_fit`
- **C63 The one-sample proportion test keeps its level** — Refuted for every sample size, proportion and level: rejects with at least (lower) or more than (upper, two-sided) alpha; the excess of one-sided tests is below the probability of one outcome.
  - Result: Refuted for all sample sizes, proportions and levels; the excess of the one-sided tests is bounded by the probability of one outcome.
  - `BinomProps.v`: `C63_level_refuted`, `C63_level_partial`
- **C149 The reported significance of the one-sample proportion test agrees with the decision** — Value: lower proved, upper refuted by one outcome.  Decision: upper agrees, lower one direction, two-sided refuted.
  - Result: Reported value proved for the lower test and refuted (too small by one outcome) for the upper one; decision agrees for the upper test, one direction for the lower, refuted otherwise.
  - `BinomProps.v`: `C149_pvalue_lower`, `C149_pvalue_refuted`, `C149_upper_agrees`, `C149_lower_partial`, `C149_lower_refuted`, `C149_two_sided_refuted`
- **C150 Injected level shifts raise exactly the rows of their segments** — Refuted: the documented lengths always raise; with one level less than change points the rows are proved.
  - Result: Documented call refuted; the accepted calls proved exactly.
  - `SimProps.v`: `C150_documented_refuted`, `C150_rows_partial`
- **C151 Injected trend shifts change the slope of their segments** — Partial: proved inside segments and after the last; on the step into the next segment nothing is added.  Distinct change points only.
  - Result: Proved exactly; that the last step of each segment rises by the trend too is refuted (C151_step_refuted): the step into the next segment is not raised.
  - `SimProps.v`: `C151_rows_partial`, `C151_step_refuted`
- **C152 Injected spikes are z-scores of the local deviation** — Running sums against sums; square root over the reals.
  - Result: Proved.
  - `SimProps.v`: `C152_moving_average`, `C152_spikes`
- **C153 Simulated level shifts have the levels, anomalies and season asked for** — Levels proved; anomalies proved off change points and refuted on them; period refuted (twice); lengthening refuted.
  - Result: Accepted calls and levels proved; anomalies on change points and first row, the period and the lengthening refuted.
  - `SimShiftProps.v`: `C153_accepted`, `C153_levels`, `C153_anomaly_partial`, `C153_anomaly_refuted`, `C153_period_refuted`, `C153_length_refuted`
- **C154 Simulated trend shifts are continuous and reproducible** — Partial: proved if the first row is no change point; the first row and the seed refuted.
  - Result: Proved for change points after the first row; first row and seed refuted.
  - `SimShiftProps.v`: `C154_trend_partial`, `C154_first_row_refuted`, `C154_seed_refuted`
- **C155 Simulated ARIMA series satisfy their equation** — Induction over the path; loop invariant for the passes in place.
  - Result: Proved for all orders, lengths, burn-ins and unit roots.
  - `SimArimaProps.v`: `C155_equation`, `C155_unit_roots`
- **C156 Simulator components add up** — Additive proved; multiplicative components before any additive one refuted to have an effect.
  - Result: Proved; leading multiplicative components refuted to have an effect.
  - `SimArimaProps.v`: `C156_additive`, `C156_order`, `C156_multiplicative_refuted`, `C156_multiplicative`, `C156_trend`, `C156_season`
- **C157 Feature extractors do not influence each other** — Refuted with a history; proved for the extractor made last and for the names kept per instance.
  - Result: Refuted with a two-step history; proved for the extractor constructed last, and one direction for the names of the others.
  - `TsfProps.v`: `C157_independent_refuted`, `C157_latest_partial`, `C157_names_partial`
- **C158 The features asked for are the features reported** — Reports and raises proved for every list; order of names and keywords beside a list refuted.
  - Result: Proved for a first extractor (with C157 for the others); order of a list and single features of opt-in groups refuted.
  - `TsfProps.v`: `C158_reports`, `C158_raises`, `C158_order_refuted`, `C158_keyword_refuted`
- **C159 Crossing points and binarised means** — Counting proved on sides defined by the code; equality with the median refuted as a side of its own.
  - Result: Crossings proved when no value equals the median, refuted otherwise; binarised mean proved.
  - `TsfValueProps.v`: `C159_crossing_partial`, `C159_crossing_refuted`, `C159_binarize`
- **C160 The level shift finds the largest difference of rolling means** — Argmax proved; height refuted: bounded by the height divided by the window.
  - Result: Position and maximum proved; the size is the step divided by the window, refuted as its height.
  - `TsfValueProps.v`: `C160_level_shift`, `C160_step_refuted`
- **C161 Flat spots** — What is counted proved; refuted as the longest run of equal values.
  - Result: Proved per bin; refuted as longest run, for every constant series.
  - `TsfValueProps.v`: `C161_flat_spots`, `C161_longest_refuted`
- **C162 First minimum and first zero of the autocorrelation** — First minimum proved; first zero proved for a positive first lag and no exact zero, refuted otherwise.
  - Result: First minimum proved; first zero refuted in three ways, proved otherwise.
  - `TsfAcProps.v`: `C162_firstmin`, `C162_firstzero_partial`, `C162_firstzero_refuted`
- **C163 Nowcasting features** — Partial: values proved for long enough series; short series, windows and the rate of change refuted.
  - Result: Means proved for long enough series; short series and window one give seven NaN; rate of change refuted (off by one row).
  - `TsfNowProps.v`: `C163_features_partial`, `C163_short_refuted`, `C163_window_refuted`, `C163_roc_refuted`
- **C164 Lumpiness and stability** — Partition facts and units proved; size of the pieces refuted when the length is no multiple, window 1 included.
  - Result: Pieces proved (sizes at most the window and at most one apart) for windows of two or more; window one refuted; units proved.
  - `TsfAcProps.v`: `C164_pieces_partial`, `C164_window_refuted`, `C164_units`
- **C165 Features of the time stamps** — Counts of distinct values, weekdays and span proved; number of days refuted.
  - Result: Proved but for the number of days.
  - `TsfNowProps.v`: `C165_counts`, `C165_days_partial`, `C165_days_refuted`, `C165_weekdays`, `C165_span`
- **C166 Fourier columns hold the waves their names say** — Names and values proved over the reals by induction; offset zero refuted.
  - Result: Proved but for the offset zero.
  - `TsfFourierProps.v`: `C166_columns`, `C166_names`, `C166_period`, `C166_offset_refuted`
- **C167 The outlier detector model scores the data it is given, and leaves the arguments alone** — State machine over a heap of series; proved for a new model, refuted after the first fit, for repeated histories and for series changed by the caller.
  - Result: Proved for a new model, raising included; refuted in four ways for used models and for the caller's arguments.
  - `WrapProps.v`: `C167_fresh_partial`, `C167_stale_refuted`, `C167_second_refuted`, `C167_history_refuted`, `C167_twice_refuted`
- **C168 The multivariate detector model scores the rows it is given at their own times** — Alignment proved for regular series and a new model; refuted for predict on other data, and for the caller's history.
  - Result: Alignment proved for regular series with training over whole steps; predict on other data and the caller's history refuted.
  - `WrapMvProps.v`: `C168_aligned_partial`, `C168_history_refuted`, `C168_later_refuted`, `C168_position_refuted`
- **C169 Trend forecasts have one row per step, at the times after the data** — Rows proved for history or two and more steps; one step and a last time off the grid refuted.
  - Result: Rows proved with history or for two and more steps; one step without history always raises; a last time off the grid raises.
  - `RegProps.v`: `C169_rows_partial`, `C169_one_step_refuted`, `C169_off_grid_refuted`
- **C170 The trend fitted is the least squares trend** — Least squares by orthogonalisation, proved a minimum over all coefficients by induction over the columns.
  - `RegProps.v`: `C170_least`
- **C171 Exact trends are continued, and units do not matter** — From uniqueness of the least squares coefficients.
  - `RegBandProps.v`: `C171_affine`
  - `RegProps.v`: `C171_exact`
- **C172 Prediction intervals of the trend models** — Standard errors from the leverage; monotonicity of the leverage of a line in the step.
  - `RegBandProps.v`: `C172_middle`, `C172_nested`, `C172_exact`, `C172_width`, `C172_wider`
- **C173 STLF puts the season back at its own phase** — Proved without history; with history proved when the season divides the length, refuted for all other lengths.
  - Result: Proved without history; with history the phase is proved to be that of the length, so right exactly when the season divides the length; refuted for every other length.
  - `StlfProps.v`: `C173_season_partial`, `C173_history_partial`, `C173_history_refuted`
- **C174 STLF keeps the order of the bounds** — By cases on the decomposition, for every row.
  - `StlfProps.v`: `C174_order`
- **C175 STLF continues a seasonal line** — Composition of the models of both files; proved for two and more steps, one step refuted.
  - Result: Proved for two and more steps; one step raises.
  - `StlfProps.v`: `C175_exact_partial`, `C175_one_step_refuted`
- **C176 The Theta forecast is the mean of the trend line and the smoothed theta line** — Linearity of smoothing and a closed form for smoothed lines, by induction on the length.
  - `ThetaProps.v`: `C176_mean`, `C176_half_slope`
- **C177 Theta intervals** — Order facts over the reals.
  - `ThetaProps.v`: `C177_middle`, `C177_wider`
- **C178 The season of the Theta forecast** — Proved for seasons away from zero; the announced fall-back refuted.
  - Result: Proved for seasons away from zero; refuted where the log announces the fall-back.
  - `ThetaProps.v`: `C178_seasonal`, `C178_season_partial`, `C178_small_refuted`, `C178_history`
- **C179 Harmonic regression fits the closest waves** — Least squares model, columns reordered into waves; periodicity of sine and cosine.
  - `HarmonicProps.v`: `C179_checked`, `C179_least`, `C179_periodic`, `C179_short`
- **C180 Harmonic regression predicts the level of the data** — Waves proved exact; level refuted: adding a constant to the data changes no prediction.
  - Result: Waves exact; the mean subtracted before the fit is never added back.
  - `HarmonicProps.v`: `C180_exact_partial`, `C180_level_refuted`, `C180_constant_refuted`
- **C181 Bayesian VAR iterates its equations** — Block-diagonal product reduced to sums; induction on the step; the time used ahead refuted.
  - Result: Fitted values proved; forecasts proved when no equation depends on time; in general off by the trend over T - 1 steps.
  - `BvarProps.v`: `C181_fitted`, `C181_ahead_partial`, `C181_time_refuted`
- **C182 Bayesian VAR answers the same call the same way** — State machine over the kept list; proved without history, refuted for two calls with history.
  - Result: All sequences proved for calls without history; the second call with history raises.
  - `BvarProps.v`: `C182_again`, `C182_prefix`, `C182_history`, `C182_again_refuted`
- **C183 The Minnesota prior** — Index arithmetic over nested loops; units refuted.
  - Result: Means, variances proved; a smaller unit makes the prior of the other equations looser instead of tighter.
  - `BvarProps.v`: `C183_mean`, `C183_variance`, `C183_units_refuted`
- **C184 SARIMA forecasts** — Rows proved; forecasts blanked for short data and level of the history refuted.
  - Result: Without history proved; with history the first k + 1 rows are blanked, future ones included when the data are short, and the bounds of the history ignore alpha.
  - `SmProps.v`: `C184_rows`, `C184_history_partial`, `C184_blank_refuted`, `C184_alpha_refuted`
- **C185 ARIMA uses its trend and alpha** — Rows proved for the default trend and level; both arguments refuted.
  - Result: Neither argument has an effect.
  - `SmProps.v`: `C185_rows_partial`, `C185_ignored_refuted`
- **C186 VAR forecasts are at the times after the data** — Proved for data on the grid; refuted off it.
  - Result: Proved on the grid; off the grid one step late.
  - `SmProps.v`: `C186_rows_partial`, `C186_off_grid_refuted`
- **C187 VAR chooses its lags from its own data** — Fourth root characterised; shared parameters refuted.
  - Result: Proved for fresh parameters; later models use the lags of the first.
  - `SmProps.v`: `C187_lags_partial`, `C187_shared_refuted`
- **C188 Lags and outcomes are the values before and after the origin** — Position of every cell of the embedding.
  - `MlarProps.v`: `C188_embed`
- **C189 Denormalising undoes normalising** — Algebra; proved without default_min, refuted with it (the sign is turned round).
  - Result: Proved without default_min; with it denormalize subtracts where it should add.
  - `MlarProps.v`: `C189_round_trip_partial`, `C189_default_min_refuted`
- **C190 Forecasts follow the scale and level of each series** — Equivariance of the statistics, invariance of the training pairs; refuted with default_min.
  - Result: Proved for all regressors without default_min, also for logged data.
  - `MlarScaleProps.v`: `C190_scale_and_level`, `C190_log_scale`, `C190_default_min_refuted`
- **C191 The regressor is trained on the observed pairs only** — Membership in the training set characterised.
  - `MlarProps.v`: `C191_pairs`
- **C192 A forecast is the regressor's answer for the last row** — Window of the forecast equals the embedding row of the last origin.
  - Result: Exactness is proved with default_min off (C189); with it and the difference as normalisation it is refuted for every series: the forecast is too low by twice default_min.
  - `MlarProps.v`: `C192_forecast`, `C192_exact_partial`, `C192_default_min_refuted`
- **C193 The first gap in the horizons** — Pigeonhole.
  - `MlarStepsProps.v`: `C193_first_missing`
- **C194 predict(steps) returns a forecast for every step** — Loop invariant; infinite loop without horizon 1 and missing steps with gaps refuted.
  - Result: Termination with horizon 1, all steps for an integer horizon, unchanged first forecasts proved; infinite loop and missing steps exhibited.
  - `MlarStepsProps.v`: `C194_prefix`, `C194_terminates`, `C194_hangs_refuted`, `C194_all_steps_partial`, `C194_all_steps_refuted`
- **C195 Every epoch of batches contains each series once** — Invariant of the position in an epoch over call sequences; refuted after a call that raised and for a magnitude that is not positive.
  - Result: Proved for all histories of valid calls; a failing call and a non-positive magnitude refute the rest.
  - `GmLoaderProps.v`: `C195_epoch_partial`, `C195_failed_call_refuted`, `C195_magnitude_refuted`
- **C196 Batches hold series of similar length** — Sorted order cut into rows; the tie order refuted if the dictionaries list their keys in different orders.
  - Result: Lengths proved for all data; the order by test length needs the same key order.
  - `GmLoaderProps.v`: `C196_lengths`, `C196_test_partial`, `C196_test_refuted`, `C196_refused`
- **C197 Windows of a batch lie inside its arrays** — Arithmetic of ceilings and ranges.
  - `GmBatchProps.v`: `C197_training`, `C197_validation`, `C197_testing`, `C197_short`
- **C198 Lifted values are positive** — Algebra with the extremes of the series; refuted for ratios up to 1 and for validation series without values.
  - Result: Proved for ratios above 1 and validation series with a value.
  - `GmArrayProps.v`: `C198_offset_partial`, `C198_ratio_refuted`, `C198_missing_refuted`
- **C199 Training data do not depend on the validation values** — Proved for positive values; refuted in general, since the offset is computed from both parts.
  - Result: Proved for positive values, refuted otherwise.
  - `GmArrayProps.v`: `C199_independent_partial`, `C199_independent_refuted`
- **C200 Cut and padded series keep their values and their season** — Position of every value; the times of the padding refuted.
  - Result: Values proved; the times of padded values refuted.
  - `GmArrayPlusProps.v`: `C200_values`, `C200_times_partial`, `C200_times_refuted`, `C200_validation`, `C200_testing`
- **C201 The first season of a row has no missing values** — Induction over the season; the last part refuted twice.
  - Result: Filling proved for every row that is made; that a row is made is refuted in two cases.
  - `GmArrayPlusProps.v`: `C201_first_season`, `C201_missing_refuted`, `C201_season_refuted`
- **C202 The first seasonal factors are ratios to the mean** — Algebra.
  - `GmArrayPlusProps.v`: `C202_factors`
- **C203 Filling holes keeps the season in phase** — Induction over the runs of missing values; refuted for series off the grid and for repeated times.
  - Result: Proved for series whose times lie on a grid without repetition; refuted otherwise.
  - `GmFillProps.v`: `C203_phase`, `C203_gap`, `C203_values`, `C203_filled`, `C203_no_long_hole`, `C203_off_grid_refuted`, `C203_repeated_refuted`
- **C204 Splitting a dataset loses no series** — Positions of the separators; refuted when the remainder of the division is larger than the quotient.
  - Result: Proved when the remainder is at most the quotient; otherwise the last series are in no part.
  - `GmSplitProps.v`: `C204_partial`, `C204_lost_refuted`, `C204_overlap`, `C204_validation`
- **C205 Preprocessing keeps the series that can be used** — Case analysis with list lemmas; refuted for long seasons and in test mode without validation set.
  - Result: The cutting is proved; that kept training series can be batched and that usable test series are kept are refuted.
  - `GmSplitProps.v`: `C205_train`, `C205_test`, `C205_keys`, `C205_too_short_refuted`, `C205_discarded_refuted`
- **C206 Padding a series extends it on its grid** — List lemmas; the number of values refuted.
  - Result: One row, n steps before the first, with the first observed value, is proved to be added; that there are n rows is refuted.
  - `GmSplitProps.v`: `C206_partial`, `C206_length_refuted`
- **C207 The pinball loss is the quantile loss** — Position of every cell of the flattened tensors.
  - `GmLossProps.v`: `C207_value`, `C207_shape`, `C207_zero`, `C207_default`
- **C208 The quantile minimises the pinball loss** — Convexity by comparing with a quantile.
  - `GmLossProps.v`: `C208_quantile`
- **C209 Reductions of the loss** — List lemmas; refuted for targets with missing values, which are overwritten by 0.
  - Result: The caller's target is changed in place if it has missing values.
  - `GmLossProps.v`: `C209_reduction`, `C209_shapes`, `C209_target_partial`, `C209_target_refuted`
- **C210 The adjusted loss** — Real analysis; refuted for input on the original scale.
  - Result: Proved on logarithmic scale, refuted on the original scale.
  - `GmAdjProps.v`: `C210_first`, `C210_smape`, `C210_others`, `C210_nonneg`, `C210_perfect`, `C210_original_refuted`
- **C211 The date features show the date** — Cells of the flat array; refuted for Sundays and for December.
  - Result: Hours proved; the day of the week is refuted on Sundays and the month in December.
  - `GmFeatureProps.v`: `C211_hour`, `C211_date_partial`, `C211_date_distinct`, `C211_date_refuted`, `C211_month_partial`, `C211_december_refuted`, `C211_next_series_refuted`
- **C212 The features are as wide as announced** — Induction over the list of features.
  - `GmFeatureProps.v`: `C212_width`, `C212_clock`
- **C213 Levels and seasons of the global model** — Invariants of the smoothing fold; refuted for initial smoothing parameters above 1.
  - Result: Proved for smoothing parameters in (0, 1); init_smoothing_params above 1 are accepted and refute positivity.
  - `GmPassProps.v`: `C213_positive`, `C213_raises`, `C213_flat`, `C213_range`, `C213_future`, `C213_smoothing_refuted`
- **C214 Forecasts of the global model scale and do not look ahead** — Simulation of two runs.
  - `GmPassProps.v`: `C214_scale`, `C214_causal`
- **C215 The steps that are visited** — Arithmetic of the walk; refuted for a single training step.
  - Result: Proved for at least two training steps; refuted for one.
  - `GmStepsProps.v`: `C215_visited`, `C215_forecasts_partial`, `C215_single_refuted`, `C215_skipped_refuted`, `C215_s2s`, `C215_stride`
- **C216 Joining the prediction intervals of consecutive windows** — Induction; refuted for the order.
  - Result: Median, continuity and shape proved; the order of the quantiles is refuted.
  - `GmFcstProps.v`: `C216_median`, `C216_continuous`, `C216_shape`, `C216_order_refuted`, `C216_jump_refuted`
- **C217 Frames of forecasts** — List lemmas and the epoch theorem of the loader.
  - `GmFcstProps.v`: `C217_frame`, `C217_windows`, `C217_series`
- **C218 Evaluation compares matching steps** — List lemmas; refuted for the exceed metric with two quantiles.
  - Result: The comparison is proved; that each metric is reported is proved for three quantiles and refuted for two.
  - `GmFcstProps.v`: `C218_windows`, `C218_metrics_partial`, `C218_exceed_refuted`
- **C219 The sequence-to-sequence pass of the global model** — Induction over steps and row.
  - `GmS2sProps.v`: `C219_seen`, `C219_raises`, `C219_periodic`, `C219_scale`, `C219_causal`, `C219_parts`
- **C220 Parameters of the global model: checks, copies and text form** — Idempotence of the checks; decimal strings. Refuted for some checks.
  - Result: The stated facts are proved; further checks the messages or the training need are missing (C220_checks_refuted).
  - `GmParamProps.v`: `C220_sound`, `C220_copy`, `C220_text`, `C220_checks_refuted`
- **C221 Schedules of learning rate and batch size** — Induction over epochs.
  - `GmParamProps.v`: `C221_schedule`, `C221_unique`
- **C222 Forecasts of an ensemble of global models** — List lemmas over the median and the frame theorem of C217.
  - `GmEnsProps.v`: `C222_combined`, `C222_order`, `C222_frame`
- **C223 The series the models of an ensemble are trained on** — Permutations; refuted for test_size = 1 and for a single series.
  - Result: Proved; that series are left for training is proved for test_size < 1 and two series or more, and refuted otherwise (the message excludes 1, the check does not).
  - `GmEnsProps.v`: `C223_held_out`, `C223_all_held_out_refuted`, `C223_parts`, `C223_unseen`
- **C224 Backtests of global models on many series** — List lemmas; refuted for repeated runs and for small data with a fractional test size.
  - Result: The cut and the rows are proved; that models have not seen the test series is proved for the first run and refuted for the second; a fractional test_size is refuted for small data.
  - `GmEnsProps.v`: `C224_cut`, `C224_size_partial`, `C224_size_refuted`, `C224_rows`, `C224_unseen_partial`, `C224_second_run_refuted`
- **C225 Expanding windows with a global model** — Induction over the truth.
  - `GmEnsProps.v`: `C225_aligned`
- **C226 Global models with a seasonal decomposition** — Modular arithmetic; refuted for fit_original and series shorter than the period.
  - Result: Proved for fit_trend and the deseasoned series; refuted for fit_original and short series.
  - `GmEnsProps.v`: `C226_season`, `C226_exact`, `C226_original_refuted`, `C226_short_refuted`
- **C227 Saving and loading global models** — Composition with the round trip of the parameters (C220); refuted for the test ids, and for JSON with test series.
  - Result: Models: proved in full. Ensembles: all but the test ids, which are written to the file but never read; JSON only if trained without test series.
  - `GmSaveProps.v`: `C227_model`, `C227_untrained`, `C227_file_partial`, `C227_ids_refuted`, `C227_json_partial`, `C227_json_refuted`
- **C228 Training and test part of the meta data of a series** — Arithmetic; refuted for a maximum that is not positive, and for the independence of the test part.
  - Result: The cut is proved; rescaling is proved for a positive maximum and refuted otherwise; with rescaling the training part depends on the test part.
  - `MetaProps.v`: `C228_split`, `C228_scaled_partial`, `C228_scaled_refuted`, `C228_unseen_refuted`
- **C229 The best parameters and the best model of a series** — Induction over the tried parameters and the models; refuted when all fail.
  - Result: Proved; if every model fails, the first one is still reported as the best (C229_failed_refuted).
  - `MetaProps.v`: `C229_tuned`, `C229_best`, `C229_failed_refuted`
- **C230 Labels of the predictability learner** — Induction; refuted for entries whose error cannot be read.
  - Result: Proved if an error can be read wherever features can; refuted otherwise.
  - `MetaProps.v`: `C230_aligned_partial`, `C230_aligned_refuted`
- **C231 Rows for fitting, validation and test of the predictability learner** — Permutations; refuted without a test part.
  - Result: Proved with a test part; refuted without.
  - `MetaProps.v`: `C231_rows_partial`, `C231_rows_refuted`
- **C232 The threshold of the predictability learner** — Maximum over a list; refuted in general.
  - Result: Proved if the best precision with the recall is below 1 and every threshold of that precision has the recall; refuted otherwise: with precision 1 the search always fails and 0.5 is used.
  - `MetaProps.v`: `C232_threshold_partial`, `C232_perfect_refuted`, `C232_recall_refuted`, `C232_use`
- **C233 Downsampling of the meta data** — Induction over the labels.
  - `MetaSelectProps.v`: `C233_balanced`
- **C234 The models recommended by the model-selection learner** — Permutations; bounds of means.
  - `MetaSelectProps.v`: `C234_top`, `C234_fuzzy`
- **C235 The error report of the model-selection learner** — Monotonicity of sum and median.
  - `MetaSelectProps.v`: `C235_oracle`, `C235_constant`
- **C236 Standardising the features of the meta-learners** — Algebra of means; refuted for repeated calls, missing features and downsampling after scaling.
  - Result: Proved for learners preprocessed at most once; refuted for a second call, for missing features in pred_by_feature of the model selection, and for downsampling after scaling.
  - `MetaSelectProps.v`: `C236_standard`, `C236_standard_down`, `C236_same_partial`, `C236_twice_refuted`, `C236_nan_refuted`, `C236_down_refuted`
- **C237 Categorical parameters of the hyper-parameter learner** — Induction over sorted lists; refuted for missing values.
  - Result: Proved but for missing values, whose class -1 no network has.
  - `MetaHptProps.v`: `C237_codes`, `C237_recommended`, `C237_parameters`, `C237_missing_refuted`
- **C238 The network of the hyper-parameter learner** — Induction over layers; refuted for parameters of one kind with the other list left out.
  - Result: Proved; parameters of one kind only are refuted when the other list is left out (its default).
  - `MetaHptProps.v`: `C238_layers`, `C238_defaults`, `C238_numerical_only_refuted`, `C238_categorical_only_refuted`
- **C239 Training of the hyper-parameter learner** — Invariant of the loop; refuted for a patience below 21 epochs.
  - Result: Proved with the constant 20 of the code; with a smaller patience training goes on for 22 epochs.
  - `MetaHptProps.v`: `C239_batches`, `C239_stopping`, `C239_patience_refuted`
- **C240 The grid of a search space** — Induction over the parameters; refuted for the default argument.
  - Result: Proved, with Ax's factorial generator taken as the combinations of values; leaving out the parameters is refuted.
  - `TuneProps.v`: `C240_grid`, `C240_format`, `C240_default_refuted`
- **C241 Evaluating the arms of a trial** — Equality of the pool's map and the serial one; induction over the arms.
  - `TuneProps.v`: `C241_records`, `C241_metrics`, `C241_failure`, `C241_no_arms`, `C241_processes`
- **C242 Arms that satisfy the outcome constraints** — Model of the aligned conjunction of pandas; refuted for constraints on different metrics.
  - Result: Proved for constraints on one metric; with constraints on two metrics no arm is ever kept.
  - `TuneProps.v`: `C242_legit_partial`, `C242_metrics_refuted`
- **C243 The nevergrad search** — Induction over the space; refuted for the reported parameters and the number of workers.
  - Result: Proved for the calls of the evaluation function and the number of workers of given options; refuted for the reported parameters and for options given to the factory.
  - `TuneProps.v`: `C243_space`, `C243_evaluated`, `C243_reported_refuted`, `C243_workers`, `C243_options_refuted`
- **C244 Searches over several spaces** — Pointwise; refuted for Bayesian optimisation.
  - Result: Independence proved; Bayesian optimisation is refuted.
  - `TuneProps.v`: `C244_independent`, `C244_bayes_refuted`, `C244_spaces`
- **C245 Parameters of the prophet forecaster** — Equivalence with the list of allowed shapes.
  - Result: Equivalence proved; the accepted shapes are listed in the statement.
  - `ProphetProps.v`: `C245_params`
- **C246 Data frame handed to prophet** — Column by column specification.
  - `ProphetProps.v`: `C246_frame`, `C246_accepted`, `C246_capacity`
- **C247 Future rows of prophet forecasts** — Induction over the date grid; refuted for missing values, non-logistic floors, several series, and steps with a given frame.
  - Result: The steps without history are proved; with the history refuted when values are missing or a floor is not used; a given frame is never checked.
  - `ProphetProps.v`: `C247_steps`, `C247_history_partial`, `C247_history_refuted`, `C247_floor_refuted`, `C247_multivariate_refuted`, `C247_given_refuted`
- **C248 Prophet's intervals in the answer** — Monotonicity of the interpolated quantile; that the interval contains the forecast is refuted.
  - Result: The bounds are proved to be the quantiles with the margin; that they contain the forecast is refuted.
  - `ProphetProps.v`: `C248_bands`, `C248_contains_refuted`, `C248_samples`
- **C249 Sampled linear trends** — Induction over the changepoints.
  - `ProphetProps.v`: `C249_draw`, `C249_history`
- **C250 Changepoints on the grid of the history** — Induction; refuted when two share a step and for one at the end.
  - Result: Proved for changepoints before the end and a step apart; otherwise shifts are lost, or an exception is raised.
  - `ProphetProps.v`: `C250_grid_partial`, `C250_lost_refuted`, `C250_end_refuted`
- **C251 Uncertainty of logistic and flat trends** — Real arithmetic over the sums; refuted for the first row after the history and for the capacity.
  - Result: Zero over the history and centred: proved. The first row after the history has no uncertainty, and samples can exceed the capacity: refuted.
  - `ProphetTrendProps.v`: `C251_history`, `C251_centred`, `C251_first_refuted`, `C251_capacity_refuted`
- **C252 Sampled logistic trends** — Induction over the shifts with field identities; partial for rates that are exactly zero at some shift.
  - Result: Continuity and totals are proved; the rates under the hypothesis that no partial rate is exactly zero. C252_zero_refuted shows what fails where one is.
  - `ProphetTrendProps.v`: `C252_continuous`, `C252_rates_partial`, `C252_shifts`, `C252_later_partial`, `C252_zero_refuted`
- **C253 Scores of the prophet detector** — Ordered field reasoning.
  - `ProphetDetProps.v`: `C253_deviation`, `C253_z_score`, `C253_wider`
- **C254 Seasonalities of the prophet detector** — Case analysis with lookup lemmas; refuted for repeated times and for 1970-01-01.
  - Result: Proved for times after 1970 without repetition; refuted for a repeated time and for 1970-01-01.
  - `ProphetDetProps.v`: `C254_process`, `C254_names`, `C254_weekend_partial`, `C254_twice_refuted`, `C254_epoch_refuted`, `C254_masks`
- **C255 Training data of the prophet detector** — Induction over the ranges; refuted for logistic growth without a range and for the history.
  - Result: The rows are proved; accepted options that cannot be trained and the changed history are refuted.
  - `ProphetDetProps.v`: `C255_excluded`, `C255_outliers`, `C255_training`, `C255_logistic_refuted`, `C255_saturation`, `C255_history_refuted`
- **C256 Answers of the prophet detector** — Pointwise; refuted without holidays, for saved detectors with listed holidays and for unknown names.
  - Result: Rows and scores are proved; refuted: multiplier without holidays, saved detectors with listed holidays, unknown score functions.
  - `ProphetDetProps.v`: `C256_rows`, `C256_scores`, `C256_holidays_refuted`, `C256_reloaded_refuted`, `C256_unknown_refuted`
- **C257 Scores of the prophet trend detector** — Induction over the changepoints; refuted with missing values.
  - Result: Proved without missing values; refuted with them.
  - `ProphetDetProps.v`: `C257_scores`, `C257_rows`, `C257_missing_refuted`
- **C258 Cached bounds of a series** — Invariant over an inductive definition of histories; writes through the returned values are refuted.
  - Result: The invariant is proved for all histories; a write through the returned Series (ts.value.iloc[i] = x) leaves stale bounds.
  - `TsObjProps.v`: `C258_bounds`, `C258_in_place_refuted`
- **C259 Equality of series** — Reflexivity, symmetry and the exact meaning; transitivity is refuted, and equality of series with the same rows.
  - Result: Reflexive, symmetric and independent of the order of columns: proved; not transitive, and the index of dropped rows makes series with the same rows different.
  - `TsObjProps.v`: `C259_reflexive_symmetric`, `C259_univariate`, `C259_multivariate`, `C259_column_order`, `C259_transitive_refuted`, `C259_same_rows_refuted`
- **C260 Walking a series** — Induction over the steps; refuted for dropped duplicates, categorical columns, names and a second loop.
  - Result: Proved for numeric series with a complete index; otherwise the walk raises, and names are lost. The column iterator can be used once.
  - `TsRowProps.v`: `C260_points_partial`, `C260_dropped_refuted`, `C260_categorical_refuted`, `C260_names_refuted`, `C260_columns`, `C260_again_refuted`
- **C261 Rows of a new series** — Permutations of positions; values without times are refuted.
  - Result: Rows proved for both ways of construction; a single zero value without times gives an empty series.
  - `TsRowProps.v`: `C261_frame`, `C261_parts`, `C261_refused`, `C261_values_only_refuted`
- **C262 Slices of series of several columns** — Positions of slices; refuted for categorical columns and empty slices.
  - Result: Proved for sorted numeric series and slices with a row.
  - `TsZoneProps.v`: `C262_slice_partial`, `C262_categorical_refuted`, `C262_empty_slice_refuted`
- **C263 Time zones of a series** — Zones as arbitrary functions; the zone asked for is ignored for datetimes: refuted.
  - Result: Proved for all zones; for a column of datetimes the zone asked for is ignored.
  - `TsZoneProps.v`: `C263_convert`, `C263_set`, `C263_set_raises`, `C263_parse`, `C263_datetimes_refuted`
- **C264 Linear interpolation of a series** — Arithmetic of the grid with the exact positions of known values; observations off the grid are lost: refuted.
  - Result: Times, lines, ends and the second interpolation are proved; observations are kept exactly if they are on the grid.
  - `TsInterpProps.v`: `C264_times`, `C264_kept_partial`, `C264_line`, `C264_ends`, `C264_off_grid_refuted`, `C264_moved_refuted`, `C264_twice`
- **C265 Filling a series forward and backward** — Sorted lists; refuted for missing observations and for complete series off the grid.
  - Result: Proved for series that are not complete.
  - `TsInterpProps.v`: `C265_forward_partial`, `C265_backward_partial`, `C265_missing_refuted`, `C265_ahead_refuted`
- **C266 Construction of a seasonality handler** — Exact condition for regular series; refuted for gaps that do not divide a day, weekly data, data faster than a second and short data.
  - Result: What an accepted series satisfies, and the exact condition under which a regular one is accepted, are proved; gaps that do not divide a day, weekly data and data faster than a second are refused; the season of short data is set to 7, which can exceed half of the data.
  - `DecompProps.v`: `C266_accepted`, `C266_period`, `C266_refused`, `C266_regular`, `C266_regular_partial`, `C266_regular_refuted`, `C266_calendar_refuted`, `C266_fast_refuted`, `C266_season_refuted`
- **C267 Season and remainder of a handler** — Decomposition as any function whose parts add up; cache as a state machine; stale bounds of several columns refuted.
  - Result: Proved for one column and all sequences of calls; the components of several columns are written in place and the bounds of the result are stale.
  - `DecompPartProps.v`: `C267_history`, `C267_sum`, `C267_bounds_refuted`
- **C268 Decomposition of a series** — Over the reals with exp and ln; refuted for non-positive data and for the default period.
  - Result: Proved for STL over the reals; non-positive data are only logged, and without a period hourly data are decomposed with period 2.
  - `DecompPartProps.v`: `C268_parts`, `C268_positive_refuted`, `C268_options`, `C268_period_refuted`
- **C269 The likelihood ratio of a CUSUM change** — Closed form over the reals with ln; non-negativity refuted for equal means.
  - Result: Closed form, invariance, lower bound and the link to p-values are proved over the reals; the ratio of equal means is negative, so it is no likelihood ratio of nested models.
  - `CusumLlrProps.v`: `C269_value`, `C269_units`, `C269_reversed`, `C269_least`, `C269_negative_refuted`, `C269_significance`, `C269_step`
- **C270 What the CUSUM detector reports** — Characterisation of the list of results from the model of the search; totality without the magnitude test.
  - Result: Proved for every series and every combination of options, with the magnitude test as a condition.
  - `CusumDetProps.v`: `C270_asked`, `C270_refused`, `C270_reported`, `C270_constant`, `C270_returns`
- **C271 The magnitude test of the CUSUM detector** — Refuted: the first day compares the window with itself, drops can never pass, and a window at the end of the series raises; a partial result for rises.
  - Result: Only the test for rises on the days before the first is as described.
  - `CusumMagProps.v`: `C271_days_refuted`, `C271_decrease_refuted`, `C271_increase_partial`, `C271_last_refuted`, `C271_negative`
- **C272 The vectorised CUSUM detector** — Simulation of the loop over all columns by one loop per column; the stable flag and other spellings of the direction are refuted.
  - Result: Index, means, statistics and decision of each column are proved to be those of the column alone; the stable flag depends on the other columns, and detector_ takes other spellings of the direction.
  - `CusumVecEmptyProps.v`: `C272_empty`
  - `CusumVecProps.v`: `C272_columns`, `C272_raises`, `C272_stable_refuted`, `C272_stable`, `C272_other_partial`, `C272_other_refuted`
- **C273 The multivariate CUSUM detector** — Closed form of the statistic; refuted: it is negative for every change in the first half.
  - Result: The statistic is 2 n0 n1 (n0 - n1) / n^2 times the distance of the means: a minus sign where a sum belongs.
  - `CusumMultiProps.v`: `C273_value`, `C273_reversed_refuted`, `C273_index`, `C273_early_refuted`
- **C274 Near equality of CUSUM change points** — Bounds from rounding half to even; symmetry is refuted.
  - Result: Bounds in both directions are proved; the relative test divides by the first number, so the order matters.
  - `CusumMultiProps.v`: `C274_close`, `C274_enough`, `C274_symmetry_refuted`
- **C275 The vectorised path of the CUSUM model** — Simulation: each column of the reorganised data is a shifted copy of the window of the loop; refuted for a model used again on older data.
  - Result: Proved for evenly spaced times in whole seconds; both calls also raise together without the magnitude test. A model with an alert whose change point lies in the new data raises in the loop and returns in the vectorised path.
  - `CusumPathProps.v`: `C275_same`, `C275_raises`, `C275_next`, `C275_new`, `C275_reused_refuted`
- **C276 Several series in one CUSUM model** — Simulation of the loop for all columns by one loop for each; refuted: an extra column value, and the level of adapted_pre_mean.
  - Result: Proved without adapted_pre_mean; the frame has an extra column called value without scores if the history is as long as the historical window.
  - `CusumFleetProps.v`: `C276_columns`, `C276_raises`, `C276_value`, `C276_value_refuted`, `C276_adapted_refuted`
- **C277 Scores of the CUSUM model** — The steps tile the rows of the data; a specification of the scores by what they measure.
  - Result: Proved for all times without vectorization, and with it for evenly spaced ones. The moving average has zeros before the first row.
  - `CusumScoreProps.v`: `C277_scan`, `C277_rows`, `C277_vectorized`, `C277_windows`
- **C278 Options of the CUSUM model** — Refuted for change_directions=['both'] and for times that are not whole seconds.
  - Result: Both are general refutations: any values, any state with an alert.
  - `CusumScoreProps.v`: `C278_both_refuted`, `C278_subsecond_refuted`
- **C279 Regression behind BOCPD's trend model** — Normal equations solved for every run; the points a run covers by induction over the updates. The shape of the inverse gamma posterior is refuted.
  - Result: The line and the precision are proved to be those of the conjugate model; the shape counts the rows up to the current time instead of the rows of the run.
  - `BocpdTrendProps.v`: `C279_posterior`, `C279_line`, `C279_shape_refuted`
- **C280 Priors and probabilities of BOCPD's trend model** — The loss as a square around the solution; refuted for the variance, the floor and the search.
  - Result: The prior line and the mean of the readjusted prior are proved, as is positivity of the probabilities. Refuted: its variance is 1000 times its mean; for points on a line its scale is zero; the floor is zero below 10^8 samples; the search for priors never calls setup(), so the default call raises.
  - `BocpdTrendProps.v`: `C280_search_refuted`, `C280_prior`, `C280_readjust_partial`, `C280_variance_refuted`, `C280_exact_refuted`, `C280_floor_refuted`
- **C281 A whole call of BOCPD** — Model of the call over the run length recursion; refuted: the prior argument, the field cp_prior and search spaces of two models.
  - Result: Reporting, choice and grouping are proved for every predictive model. Refuted: changepoint_prior has no effect when priors are searched (the default), cp_prior of the parameters has none when they are not, and other names in the search space of the trend and the Poisson model do nothing.
  - `BocpdCallProps.v`: `C281_reported`, `C281_probabilities`, `C281_best`, `C281_prior_refuted`, `C281_field_refuted`, `C281_space_refuted`, `C281_raises`, `C281_group`
- **C282 Empirical priors of BOCPD** — Sums of squares over windows; zero variance of all windows means a constant series.
  - `BocpdCallProps.v`: `C282_when`, `C282_values`, `C282_units`
- **C283 Stat-sig detectors with removal of seasonality, and for several series** — Loop invariant of C15 for whole rows; refuted for split series, names of columns and short parts.
  - Result: Proved when the series is not split. Refuted: for a split series all scores are zero, because the seasonal part is added to the response made at the start; prediction and band of several series lose their column names; a processed part or history of fewer than 7 rows raises, so a detector fed one row at a time never works with rem_season.
  - `StatSigSeasonProps.v`: `C283_season_partial`, `C283_raises`, `C283_long_refuted`, `C283_names_refuted`, `C283_multi`, `C283_kind`, `C283_quiet`
- **C284 Whole calls of the two-sample interval detectors** — Model of the call with everything it leaves behind; refuted: rows with a history, the caller's variances, repeated calls, old intervals without consolidation, unchecked history.
  - Result: Scores and predictions are proved for every call that returns, as are the refusals. Refuted: the response covers the history too; the caller's variance columns are overwritten by the variances of the means, so a second call with real values has a statistic sqrt(n) times as large; without consolidation the predictions of an earlier call are returned; history and signs of counts are not checked.
  - `IntervalCallProps.v`: `C284_call`, `C284_times_refuted`, `C284_data_refuted`, `C284_repeat_refuted`, `C284_repeat_partial`, `C284_stale_refuted`, `C284_refused`, `C284_range`, `C284_unchecked_refuted`, `C284_returns`, `C284_integers`
- **C285 Types of anomalies** — The fitted line is proved to be the unique line of least squares; refuted for the level shift (origin, negative levels), flat parts and anomalies between rows.
  - Result: Each type is characterised by lines of least squares and standard deviations; three are independent of unit and origin. Refuted: the level shift compares intercepts by their ratio, so it depends on the origin and ignores the factor below zero; two flat parts are a change of volatility; for an anomaly that ends between two rows of the data one row is left out.
  - `PostTypeProps.v`: `C285_individual`, `C285_trend`, `C285_fit`, `C285_volatility`, `C285_level`, `C285_units_partial`, `C285_offset_refuted`, `C285_negative_refuted`, `C285_flat_refuted`, `C285_grid_refuted`, `C285_all`
- **C286 Features of the autocorrelation** — Lagged products are at most the sum of squares; refuted for periods below five, series of one period and extra_args=None.
  - Result: Proved for every series with at least ten values when the period is at least five and below the length. Refuted: with a shorter period y_acf5 sums only that many squares while the features of the differences sum five; for a series of exactly one period seas_acf1 is the autocorrelation one lag before; extra_args=None raises though the documentation says it disables nothing.
  - `TsfAcfProps.v`: `C286_bounds`, `C286_values_partial`, `C286_five_refuted`, `C286_one_period_refuted`, `C286_none_refuted`, `C286_undefined`, `C286_off`, `C286_returns`, `C286_units`
- **C287 Features of shape** — Gibbs' inequality, least squares, pigeonhole; refuted for the strengths, the rounded size of the seasonality and the period.
  - Result: Everything is proved but three parts. Refuted: nothing keeps the strengths above 0 (they are at most 1, and at least 0 when component and remainder are not negatively correlated); seasonality_mag is rounded to a whole number; the differences whose period is detected all get the same time stamp and are sorted by it, so any permutation of them may be what the detector sees.
  - `TsfHurstProps.v`: `C287_hurst_units`, `C287_hurst_power`, `C287_mode`, `C287_period_refuted`
  - `TsfLineProps.v`: `C287_linearity`, `C287_line`, `C287_derivative`, `C287_trend_slope`, `C287_size_partial`, `C287_size_refuted`, `C287_peak`
  - `TsfShapeProps.v`: `C287_strength_partial`, `C287_strength_refuted`, `C287_entropy`
  - `TsfSpikeProps.v`: `C287_spikiness`, `C287_spikiness_zero`, `C287_spikiness_units`
- **C288 Features from detectors** — Folds over the outputs; refuted for the p-value of no change point, taus that are no numbers and extra_args=None.
  - Result: Refuted: without a change point cusum_p_value is 0, the value of the most significant one; a point whose Tau is not a float counts as 0 in trend_avg_abs_tau; extra_args=None switches every feature off.
  - `TsfDetProps.v`: `C288_counts`, `C288_first`, `C288_nothing`, `C288_pvalue_refuted`, `C288_means`, `C288_tau_partial`, `C288_tau_refuted`, `C288_nan`, `C288_none_refuted`, `C288_switches`
- **C289 The LSTM forecaster** — Network and optimizer as parameters; induction over epochs and steps; refuted for negative forecasts and for series not longer than the window.
  - Result: Proved for every series longer than the window. Refuted: the bounds are 95 and 105 per cent of the forecast, so they are swapped for negative forecasts; for a series not longer than the window fit raises (an unbound loss) or trains nothing, but leaves a network that predict uses.
  - `LstmProps.v`: `C289_training`, `C289_forecast`, `C289_again`, `C289_band_partial`, `C289_band_refuted`, `C289_units`, `C289_unfitted`, `C289_short_refuted`, `C289_zero_window`
- **C290 Runs of rejections of correlated tests** — The normal integral as the probability of a box; refuted for statistics that are not stationary and for more tests than the run.
  - Result: Weights, their sum, range and the case of m tests are proved for stationary statistics. Refuted: for other statistics the weights do not add up to 1; for more than m tests the covariance between them is not used, so perfectly correlated tests get 1-(1-p)^n.
  - `WeightProps.v`: `C290_weights`, `C290_independent`, `C290_range`, `C290_all`, `C290_correlation_refuted`, `C290_sum_refuted`
- **C291 The Holt-Winters forecaster and its empirical intervals** — The smoothing model as a parameter, composed with the rolling backtest and the interval; refuted for the times with intervals, for series of fewer than ten points and for given frequencies.
  - Result: Proved for forecasts, bounds, history and parameters, and that ten points on their frequency's grid are enough for intervals. Refuted: with alpha the rows are one day apart whatever the frequency; a series whose frequency cannot be inferred gets no intervals even if freq is given; fewer than ten points get none with the default settings; a series that ends off the grid of freq gets no forecast.
  - `HoltProps.v`: `C291_plain`, `C291_off_grid_refuted`, `C291_interval`, `C291_same_forecasts`, `C291_interval_times`, `C291_interval_times_refuted`, `C291_given_frequency_refuted`, `C291_short_refuted`, `C291_enough`, `C291_history`, `C291_unfitted`, `C291_parameters`
- **C292 Cross validation** — Composition of the folds with a dict of errors; refuted for metrics listed twice, zero folds, a second run and the end percentage of expanding windows.
  - Result: Proved for metrics listed once. Refuted: a metric listed twice is reported as twice its mean; num_folds = 0 is accepted but run_cv raises; a second run_cv doubles every error; the end_train_percentage of BackTesterExpandingWindow has no effect.
  - `CrossProps.v`: `C292_accepted`, `C292_before`, `C292_mean`, `C292_unknown`, `C292_listed_twice_refuted`, `C292_folds`, `C292_zero_folds_refuted`, `C292_again_refuted`, `C292_runs`, `C292_end_percentage_refuted`
- **C293 The rows the autoregressive forecaster keeps** — Frequencies as grids of times; induction over the grid; refuted for observations off the grid, in particular data at the starts of months, whose inferred frequency is replaced by month ends.
  - Result: Proved for observations on the grid of the frequency. Refuted: observations off the grid are dropped without notice; for data at the starts of months the inferred frequency MS is replaced by M (month ends), so every observation becomes NaN. C293_shared, C293_shared_refuted: parameters used for several datasets keep the frequency inferred for the first one.
  - `MlarGridProps.v`: `C293_accepted`, `C293_frame`, `C293_kept`, `C293_dropped_refuted`, `C293_one_frequency`, `C293_times`, `C293_rename`, `C293_month_start_refuted`, `C293_shared`, `C293_shared_refuted`
- **C294 Reading the metadata of the detector meta-learners** — Dictionaries as cells of a heap changed in place; induction over rows; refuted for reading a table twice and for rows that share a dictionary.
  - Result: Proved for tables in which no two rows hold the same dictionary. Refuted: the windows are scaled in place, so reading the same table a second time (for another algorithm) divides by 86400 once more; rows that share a dictionary are scaled once per row.
  - `DetMetaProps.v`: `C294_read_partial`, `C294_texts`, `C294_second_read_refuted`, `C294_shared_refuted`, `C294_unreadable`, `C294_word`
- **C295 Recommending the hyper-parameters of a detector** — Composition with the model of MetaLearnHPT; refuted for series given instead of features, for a missing first value and for names given twice.
  - Result: Proved for names given once and columns with at least one value. Refuted: get_hpt_from_ts always raises; a column with a missing first value and one other value is recommended as NaN; a name given both as categorical and numerical takes the place of another column.
  - `DetHptProps.v`: `C295_accepted`, `C295_train`, `C295_recommended_partial`, `C295_answers`, `C295_failed_train`, `C295_untrained`, `C295_from_series_refuted`, `C295_missing_refuted`, `C295_twice_refuted`, `C295_precedence`
- **C296 Recommending a detector** — Columns of a data frame as names in order of first occurrence; refuted for rows whose features are in different orders and for report_metrics before train.
  - Result: Proved for rows with their features in the same order. Refuted: training takes each row's values in the row's own order, prediction by name, so rows with the same features in different orders are mixed up; report_metrics before train raises instead of training.
  - `DetSelectProps.v`: `C296_accepted`, `C296_untrained`, `C296_report_refuted`, `C296_rounded`, `C296_predict`, `C296_by_name`, `C296_trained_partial`, `C296_again`, `C296_order_refuted`
- **C297 The recurrent network answers every batch, series by series, within fixed bounds** — Tensors as batches of rows over the reals; shape invariant of the stored states; row-wise simulation; bounds by induction over calls, layers and blocks.
  - Result: Exact real arithmetic; the constructor's check does not exclude dilations of zero or negative sizes of the hidden state, which the theorem assumes away (see C298_zero_dilation).
  - `RnnProps.v`: `C297_shapes`, `C297_alone`, `C297_bounded`, `C297_range`, `C297_states`
- **C298 What the recurrent network remembers** — Simulation between the full and the truncated store; refuted for decoders with larger dilations and for calls that raise.
  - Result: Proved for decoders whose dilations are at most the encoder's largest. Refuted: prepare_decoder cuts the states by the encoder's largest dilation, so a decoder with a larger one looks at the last state instead of the delayed one. Also shown: a call with an input of the wrong width leaves an empty entry behind, after which every call raises until reset_state; a dilation of zero is accepted and every call raises.
  - `RnnMemProps.v`: `C298_window`, `C298_decoder_partial`, `C298_decoder_refuted`, `C298_reset`, `C298_spoilt`, `C298_zero_dilation`
- **C299 Predicting with new data in the autoregressive forecaster** — Windows as finite maps on the grid of times; non-interference of later targets; idempotence of the stored window; refuted that predictions without new data stay about the training data.
  - Result: Refuted: the window replaces the stored series, so a prediction without new data after one with new data is no longer about the training data; new data with covariates only that begin later than just after the training data leave no row to forecast from.
  - `MlarNewProps.v`: `C299_accepted`, `C299_window`, `C299_no_future`, `C299_no_new`, `C299_again`, `C299_pure`, `C299_forgets_refuted`, `C299_one_origin`, `C299_late_refuted`, `C299_iterated`
- **C300 Categorical columns of the autoregressive forecaster** — One-hot rows specified by the column of the label; equality of columns for constant labels; refuted for labels that change and for iterated forecasts.
  - Result: Proved for labels that never change or miss, without iteration. Refuted: the labels are collected again from the first row of each window, so a label that changed since the start of training gives other columns or the same columns in another order; windows filled with the model's own forecasts have no label there, so steps past the horizon are forecast with no category at all, and fail once the window is past the end of the data.
  - `MlarCatProps.v`: `C300_columns`, `C300_rows`, `C300_missing_first`, `C300_same_partial`, `C300_changed_refuted`, `C300_swapped_refuted`, `C300_iterated_refuted`, `C300_iterated_fails_refuted`
- **C301 Regressors and future frames of the NeuralProphet wrapper** — Tables as named columns with the library as a parameter; refuted for the history of autoregressive models, the number of rows, the columns and the caller's frame.
  - Result: Refuted: predict sets y to zero in the whole frame, including the rows of history that the library puts there for its lags, so an autoregressive model forecasts from zeros; a frame longer than steps gives a forecast for all its rows; the documented columns time, fcst, fcst_lower and fcst_upper never appear (the library's ds and yhat… do); the caller's frame is sorted and its y overwritten; lagged regressors given as a list of names are accepted by the parameters and then always raise in the constructor.
  - `NeuralProps.v`: `C301_params`, `C301_construct`, `C301_lists_refuted`, `C301_training`, `C301_frame`, `C301_refused`, `C301_y_ignored`, `C301_history_refuted`, `C301_made`, `C301_steps_refuted`, `C301_caller_refuted`, `C301_columns`, `C301_documented_refuted`
- **C302 The BOCPD detector model answers with a change probability for every point of the data** — BocpdDetModel
  - Result: Answer, probabilities and refusal proved; refuted: the threshold has no effect on the answer (C302_threshold_refuted), with a threshold slow_drift has none (C302_drift_refuted), the data are appended to the caller's history (C302_caller_refuted), so the same call made twice answers for other times (C302_twice_refuted).
  - `BocpdDetProps.v`: `C302_reported`, `C302_probabilities`, `C302_refused`, `C302_threshold_refuted`, `C302_drift_refuted`, `C302_caller_refuted`, `C302_twice_refuted`, `C302_state`
- **C303 The BOCPD trend detector model looks for changes of the slope** — BocpdDetModel
  - Result: Slopes, times and exceptions proved; refuted: the smoothing parameters of the constructor (C303_parameters_refuted) and the history (C303_history_refuted) are not used.
  - `BocpdDetProps.v`: `C303_reported`, `C303_parameters_refuted`, `C303_history_refuted`, `C303_raises`
- **C304 Making and fitting a temporal hierarchy** — ThmObjModel
  - Result: Acceptance, levels, training and residuals proved; refuted: supplied forecasts are trained over when a name is given too (C304_supplied_refuted), a level longer than the series is refused although its forecasts are supplied (C304_long_refuted), residuals computed once stay after another fit (C304_refit_refuted).
  - `ThmObjProps.v`: `C304_base`, `C304_construct`, `C304_fit`, `C304_supplied_refuted`, `C304_long_refuted`, `C304_residuals`, `C304_refit_refuted`
- **C305 Validation of a temporal hierarchy by medians** — ThmObjModel
  - Result: The bound and the half proved; refuted: with equal distances every level is reported (C305_greater_refuted), with fewer steps than the highest level none ever is (C305_short_refuted).
  - `ThmObjProps.v`: `C305_reported`, `C305_half`, `C305_greater_refuted`, `C305_short_refuted`
- **C306 Change points can be compared and put in sets** — PointEqModel
  - Result: Proved for change points other than CUSUM's, and for those of CUSUM for one series; refuted: comparisons with a CUSUM change point raise on one side and hold on the other (C306_symmetric_refuted, C306_plain_refuted), attributes of the detector are not compared (C306_details_refuted), CUSUM change points of several series cannot be compared even with themselves (C306_arrays_refuted), all hashes are one constant and CUSUM change points have none (C306_hash_refuted), a set merges the change points of different series (C306_set_refuted).
  - `PointEqProps.v`: `C306_base`, `C306_cusum`, `C306_equivalence`, `C306_symmetric_refuted`, `C306_plain_refuted`, `C306_details_refuted`, `C306_arrays_refuted`, `C306_hash`, `C306_hash_refuted`, `C306_set`, `C306_set_refuted`
- **C307 Equal CUSUM detector models answer alike** — PointEqModel
  - Result: Which attributes are compared and equality after reloading proved; refuted: remove_seasonality, season_period_freq, vectorized and adapted_pre_mean are not compared (C307_settings_refuted).
  - `PointEqProps.v`: `C307_equal`, `C307_reload`, `C307_settings_refuted`
- **C308 The spectrum of the Fourier seasonality detector** — FftModel
  - Result: All proved over the reals except the last clause; refuted: a season of two values in a series of even length has its power at half the sampling rate, which has no row (C308_alternating_refuted).
  - `FftProps.v`: `C308_rows`, `C308_offset`, `C308_scale`, `C308_wave`, `C308_alternating_refuted`, `C308_period`
- **C309 What the autoregressive forecaster knows about the time it forecasts** — Positions of the merged tables by time
  - Result: Proved for training, and for forecasts under the stated relations between windows; refuted: the calendar columns are NaN when the target ends before its series and the horizons are not contiguous, future covariates are NaN in prediction when their window exceeds max_lags plus the horizon, prediction raises when it exceeds the forecast window although training did not, and a window of 0 is accepted and raises.
  - `MlarFutProps.v`: `C309_training`, `C309_forecast`, `C309_gap_refuted`, `C309_predict_refuted`, `C309_window_refuted`, `C309_zero_refuted`
- **C310 Automatic calendar and Fourier features** — Case analysis over names, and the constructor of the Fourier features
  - Result: Proved for the documented names; refuted for inferred weekly, minute and anchored quarterly frequencies, which get no features.
  - `MlarFutProps.v`: `C310_calendar`, `C310_fourier`, `C310_inferred_refuted`
- **C311 One row for every series, target, horizon and origin** — Invariant of the loop that fills the matrix
  - Result: Proved, with the training pairs of C191 as the special case of one target; refuted: a target that ends before another one is forecast from a row where it is missing.
  - `MlarFutProps.v`: `C311_rows`, `C311_training`, `C311_pairs`, `C311_one_hot`, `C311_latest`, `C311_result`, `C311_origin_refuted`
- **C312 The time unit of a significance detector** — A detector as a state machine over calls
  - Result: C312_given, C312_invalid: a unit given is used for every call, a name gets a one in front, anything else is refused. C312_inferred, C312_short, C312_cover: all histories of a detector without unit. C312_reused_partial: a used detector answers like a new one when all calls have the same gap; C312_reused_refuted: not in general, the gap of the first call is kept (hourly data, then daily data). C312_saved, C312_saved_given: saving keeps the unit, also an inferred one. C312_unreadable_refuted: a gap whose text has an exponent (below 0.1 ms) makes this and all later calls raise.
  - `StatUnitProps.v`: `C312_given`, `C312_invalid`, `C312_inferred`, `C312_short`, `C312_cover`, `C312_reused_partial`, `C312_reused_refuted`, `C312_saved`, `C312_saved_given`, `C312_unreadable_refuted`
- **C313 Default search spaces** — Tables as lists; lemmas on ranges and powers
  - Result: C313_accepted for every point of every space; C313_sensible_partial: all values but the learning rates of the space for LightGBM, which are all above one (C313_learning_rate_refuted: np.logspace takes exponents). C313_types_partial and C313_types_refuted: the seasonal orders of SARIMA are tuples declared as texts (the metadata code turns the texts back). C313_missing_refuted: VAR has no space, the space of ARNet has no model.
  - `SearchSpaceProps.v`: `C313_accepted`, `C313_sensible_partial`, `C313_learning_rate_refuted`, `C313_ordered`, `C313_distinct`, `C313_types_partial`, `C313_types_refuted`, `C313_lags`, `C313_missing_refuted`, `C313_call`, `C313_checked`
- **C314 Training a global model** — GmTrainModel.v: the loop over epochs and steps with the network, optimizer, batches and evaluation as parameters; GmTrainProps.v.
  - Result: Evaluating test series during training draws from the generator that makes the batches, so it changes the learnt weights (C314_test_refuted) unless it draws nothing (C314_test_partial); it also leaves the network in test mode from the second epoch on (C314_mode_refuted). C314_resume_partial: with constant schedules and memoryless batches, training twice equals one longer training; in general the loader and the schedules start again. C314_again_refuted: a second training does not start from new weights. C314_failed_refuted: an evaluation that raises does so after the weights have changed.
  - `GmTrainProps.v`: `C314_schedule`, `C314_mode_partial`, `C314_mode_refuted`, `C314_monitors`, `C314_recorded`, `C314_first`, `C314_test_partial`, `C314_resume_partial`, `C314_valid`, `C314_test_refuted`, `C314_again_refuted`, `C314_failed_refuted`
- **C315 Loading a saved Prophet model that carries time zones** — ProphetLoadModel.v: the pattern and the substitution over lists of characters; ProphetLoadProps.v.
  - Result: Proved for texts whose times all end in a one-letter mark. Refuted for a time without a mark: the pattern takes the last digit of the fraction of its second for the mark and removes it (C315_unmarked_refuted), which moves the time back unless the digit is a zero (C315_moved). A mark in the form of an offset stays (C315_offset_refuted).
  - `ProphetLoadProps.v`: `C315_marked`, `C315_unmarked_refuted`, `C315_moved`, `C315_plain`, `C315_offset_refuted`, `C315_load`
- **C316 Global-model networks are given what they are built for** — GmShapeModel.v on top of the passes (GmPassModel, GmS2sModel), the features (GmFeatureModel), the batches (GmBatchModel) and the names TsFeatures reports (TsfModel).
  - Result: The sizes fit whenever the features can be computed at all (C316_features, C316_rnn, C316_outputs, C316_s2s) and the windows lie inside of the batch (C316_rnn_inside, C316_s2s_inside). C316_raises says exactly when the features cannot be computed; C316_once_refuted: that is so for tsfeatures alone, for ts2vec and for an empty list, which the constructors accept.
  - `GmShapeProps.v`: `C316_features`, `C316_raises`, `C316_once_refuted`, `C316_rnn`, `C316_outputs`, `C316_s2s`, `C316_decoder_outputs`, `C316_rnn_inside`, `C316_s2s_inside`
- **C317 A metadata reader answers every call as a new one would** — invariant of the two cached tables over the sequence of calls; induction over rows and algorithm names
  - Result: C317_read for files in order, C317_history for sequences of calls and C317_unknown hold. C317_hole_refuted: one row without one of the algorithms makes every call fail, also for algorithms tried in every row. C317_other_reader_refuted: metadata_detect_reader leaves n_control and n_test in seconds, SynthMetadataReader gives them in days.
  - `SynthMetaProps.v`: `C317_read`, `C317_unknown`, `C317_history`, `C317_hole_refuted`, `C317_other_reader_refuted`
- **C318 Detector classes are found by their names** — induction over the class statements; an invariant of the shared caches over the questions
  - Result: C318_by_name and C318_complete hold for all programs. That nothing unimplemented is offered is only proved for methods declared abstract in the class itself or in an ordinary abstract class among its direct bases (C318_abstract_partial): a class that inherits abstract methods of a detector class is offered (C318_inherited_refuted), because the metaclass calls type.__new__ instead of ABCMeta's, so that __abstractmethods__ is never set. For the same reason isinstance raises AttributeError on most detector classes unless the object is of exactly the class (C318_isinstance_refuted), and on classes that also derive from ABC all answers about an object repeat the first one (C318_first_question, C318_isinstance_case). C318_attribute says which class decides whether a method is implemented; C318_fresh_partial: the first answer of isinstance about the instances of a class is right.
  - `DetRegProps.v`: `C318_by_name`, `C318_attribute`, `C318_complete`, `C318_abstract_partial`, `C318_inherited_refuted`, `C318_isinstance_refuted`, `C318_fresh_partial`, `C318_first_question`
- **C319 A global model is evaluated on every value of every series** — GmEvalModel.v on top of the evaluation of one series (GmFcstModel) and the combination of forecasts (GmEnsModel)
  - Result: C319_accepted, C319_rows and C319_own hold for all collections. C319_silent_refuted: a series without values to compare with has no row in the result, and nothing says so. That a window does not depend on how many windows follow is part of the model.
  - `GmEvalProps.v`: `C319_accepted`, `C319_rows`, `C319_own`, `C319_silent_refuted`, `C319_series`
- **C320 An expanding window backtest of a global model compares each fold with its own rows** — GmBtModel.v joins the folds of BacktestModel.v, the errors of CrossModel.v, the filling of holes and the alignment of C225
  - Result: C320_accepted, C320_folds, C320_runs and, for the first run and metrics listed once, C320_mean hold. C320_again_refuted: a second run doubles every error. C320_hole_refuted: a fold whose rows are all missing makes the whole backtest raise. The forecasts of a fold come from one call of predict for the rows before each of the folds; that predict treats the series of a call separately is not part of the claim.
  - `GmBtProps.v`: `C320_accepted`, `C320_folds`, `C320_runs`, `C320_mean`, `C320_again_refuted`, `C320_hole_refuted`
- **C321 Packaged data sets are found from any directory** — LoadDataModel.v; the package is a list of paths and tables
  - Result: Refuted in general: from a directory without "kats" (in any case) in its path no data file is found (C321_elsewhere_refuted), because the path given to pkgutil, which is relative to the package, is chosen by the current directory. C321_found_partial covers the other directories; C321_columns holds everywhere.
  - `LoadDataProps.v`: `C321_found_partial`, `C321_elsewhere_refuted`, `C321_columns`, `C321_air_passengers`
- **C322 The static threshold detector returns the series as its scores** — ThresholdModel.v; the values are set after the times were sorted
  - Result: C322_scores_partial: for series in the order of time. C322_times: for all series the times are those of the series, sorted, and the values are in their old order; C322_unsorted_refuted: hence any series built with sort_by_time=False that is out of order gets the value of another time as the score of some time, if its times and its values are distinct.
  - `ThresholdProps.v`: `C322_scores_partial`, `C322_times`, `C322_unsorted_refuted`

## Findings

Places where the code, as modelled, does not do what its users rely on. Each is backed by a theorem.

- C06: one-sided interval tests with corrected level above 1/2 flip the sign of the critical value in the confidence interval (`absolute_critical_value` takes abs): a point is rejected although its interval contains the hypothesised effect. The level search returns such levels, e.g. alpha ** (1/m) when duration = length.
- C60: an interval detector with `duration=None` returns different critical values on the second `fit_predict`.
- C61: with `duration=None` the stored per-point level is the global probability of the chosen duration; the resulting global false-positive rate exceeds alpha*(1+r_tol) (alpha=0.05, n=24: more than 0.055).
- C09: GenericBacktester-style weighted summaries raise TypeError (len(None)) when any fold failed; with a NaN score the weights are not renormalised (one valid score 1 is summarised as 1/2).
- C10: SimpleDataPartition(train_frac=0.0) is accepted, and both train and test are the whole series.
- C11: calling run_backtest() twice on the same backtester doubles every reported error.
- C62: passing `offset` to BackTesterSimple or BackTesterRollingOrigin shifts the forecasts but not the truth.
- C12: with two points, or a scan window of two points, the CUSUM change point is the last point, the mean after it is NaN and a change is never reported.
- C66: CUSUMDetectorModel.fit_predict raises (max of an empty index array) when the data left after the historical window are shorter than one step and start exactly at its end, e.g. 50 hourly points with a 48 h history and a 6 h step.
- C67: with `change_directions=['increase']` (or decrease) and a constant history (std 0) the tolerance is inf*0 = NaN, so an alert never returns to normal and ends only by expiry after a week.
- C25: TimeSeriesData.extend overwrites the receiver before validating: after the ValueError the caller holds the merged, invalid series.
- C26: slicing a series built with sort_by_time=False returns re-sorted rows, so ts[:k] and ts[k:] do not rejoin to ts.
- C27: series arithmetic merges on time: with repeated time stamps every pair is produced (two rows plus a constant give four rows); with different value column names every value silently becomes NaN.
- C28: infer_freq_robust trusts the sort flag even after extend broke the order; three one-point series merged backwards give a negative frequency.
- C16: StatSigDetectorModel splits series longer than max_split_ts_length; when the number of scored points is a multiple of it, `[:-remaining]` with remaining = 0 empties the result and every score is 0.
- C16: the split path builds its multivariate detector without min_perc_change, so the caller's threshold is ignored for long series.
- C16: n_control = n_test = 1 without history raises for long series (frequency of a one-point history).
- C68: StatSigDetectorModel.fit_predict extends the caller's historical_data in place when it is short, and always with anomaly_scores_only; a second identical call gives other scores.
- C30: AnomalyResponse.get_last_n(0) returns the whole response (slice [-0:]).
- C31: ChangePointInterval.spikes is cached and not invalidated by the data setter or extend_data.
- C70: AnomalyResponse.extend validates component by component after modifying it: a failing validation leaves the scores extended and the other components not.
- C72: PercentageChange.direction divides by the control mean: for a negative mean an increase is reported as 'down' while the score is positive.
- C73: PercentageChange.stat_sig is True for identical constant windows (interval [1,1]) and whenever a window has a single point (NaN bounds compare false).
- C75: with use_corrected_scores=False a column of a multivariate series is scored with scipy's corrected statistic, the same column alone with the uncorrected one.
- C22: with sliding_window_size 1 or 2 the band width len//3 is 0, LB_Keogh takes min() of an empty slice and raises ValueError.
- C23: DTWDistance(s, s, 0) is infinite for a nonempty series, and the band range(i-w, i+w) is asymmetric, so the distance depends on the order of its arguments (e.g. [0,0,1] and [0,1,1] with w=1: 0 one way, 1 the other).
- C79: with one active series DTWCPDDetector.detector appends to self.outliers, so a second call returns the change point twice (and changes the list returned first).
- C33: the metadata bounds sMAPE by 1 but it reaches 2, bounds MAPE by 0 but it is negative for negative actuals, and lists 'frequency_exceed_relative_threshold' for a metric named 'frequency_exceeds_relative_threshold'.
- C33: CORE_METRICS contains a metric returning a vector and three that need a threshold argument.
- C80: _safe_divide tests `~np.isscalar(denom)`, which is always truthy: a missing prediction counts as zero error in MAPE, MPE and RMSPE.
- C80: coverage counts an unobserved point as not covered; one missing value makes the tracking signal NaN.
- C81: exceed computes the opposite of its documentation (for thresholds up to 1/2 it counts predictions above the actual value).
- C82: mult_coverage divides by the full window near the ends of the series, so complete coverage is reported as partial there.
- C83: the weighted mean squared error divides by the mean of all weights, including those of missing points.
- C84: mean_absolute_scaled_error is NaN for data whose naive error is below 1e-8 in the chosen unit.
- C46: _calc_agg_cppprob clears the diagonal of the posterior in place (np.fill_diagonal on a view), so with agg_cp=True get_run_length_matrix returns rows that do not sum to one; the first row is all zero.
- C85: _NormalKnownPrec initialises _mean_arr_num with zeros (the comment says mu_0*lambda_0); the prior mean, including the empirical one, has no influence and every segment is shrunk towards zero.
- C87: the posterior predictive leaves out the second point (i > 1), so priors are compared without it.
- C88: with lag=0 and agg_cp=False the change probability of every point is exactly changepoint_prior.
- C45: with agg_cp=False a lag of at least the number of points raises IndexError.
- C90: _predict_origin says that padded values are ignored in the final output; for horizons that are not whole periods they are not (bottom-up returns the last supplied forecast again and again).
- C93: the median method changes coherent forecasts (levels 2 and 1 with level 1 forecasts 1, 3 become 3/2, 5/2).
- C49: KatsEnsemble.fit trains the `_smodel` learners on desea_data (forecast uses the original data); predict then adds no seasonality to them, so fit/predict and forecast disagree.
- C94: clean_dummy_CI(use_zero=False) turns genuine zero bounds into NaN before the median; with bounds [0,2], [0,2], [4,6] around 1, 1, 5 the reported interval of forecast 1 is [4,2].
- C94: reseasonalize fills missing intervals with 0 in the multiplicative case; the NaN check of the weighted aggregation does not catch them and the zeros are averaged as bounds.
- C95: date_range(periods=steps+1) minus the last date has steps+1 entries when the last observation is off the frequency (e.g. freq='W' on a Wednesday), and assembling the table raises.
- C97: KatsEnsemble.fit does not pass err_method on when seasonality is detected.
- C47: KatsEnsemble.predict reorders learners whose given name contains `_smodel`, while the weights keep the given order; aggregate multiplies by position.
- C36: RollingStatsModel.fit_predict extends the caller's historical_data in place; repeating the call scores the data against a history that contains it.
- C36: with point_based=False the first call overwrites self.rolling_window (seconds) by the number of points; the second call reads that as seconds and raises or uses another window.
- C98: the time based loop calls the score function without iqr_base.
- C100: a constant window scores every jump 0 (z-score and both modified z-scores), as if nothing had happened.
- C100: iqr_median_deviation divides by the median itself, so on a negative series a point far above its window gets a negative score.
- C38: _percentile_to_prob loses the mass of the other list above its largest support point: [1,2,3,4,5] against [3,4,5,6,7] gives a vector summing to 0.6, and [1,1] against [2,2] the zero vector, which jensenshannon normalises to NaN.
- C102: [2,2] against [1,1] gives two identical vectors (distance 0), in the other order NaN; with equally many distinct values the score depends on the order.
- C104: a spectral peak near a multiple of a dropped peak is dropped although it is not near a multiple of any reported one (1000, 2009, 4030: only 1000 is reported).
- C106: when no frequency can be inferred, OutlierDetector resamples with asfreq('D'); observations off the daily grid of the first time are dropped and never reported, however large.
- C107: days added by that resampling are reported as outliers; remover then sets a time the series does not have and raises KeyError.
- C108: with decomp='multiplicative' the seasonal component is a ratio, but the code subtracts it (and compares variances of ratios with variances of values), so the reported outliers depend on the unit of the data.
- C110: _clean_data keeps zscore < 3, so values far below the mean stay in the training data; for a constant metric the z-score is NaN and all its values are dropped.
- C111: the p-value is chi2.sf(distance) instead of chi2.sf(distance**2).
- C112: get_anomalous_metrics drops overall_anomaly_score but not p_value, so 'p_value' is ranked as a metric.
- C113: without aggregation a day with more than 24 observations is neither kept nor listed as incomplete, and 24 observations in fewer than 24 hours count as a complete day.
- C115: HourlyRatioDetector rescales the median pattern to sum 24 while the ratios sum to 1, so a perfectly typical day is 23 patterns away from the centre.
- C116: a weekday without complete days makes detector raise (median and covariance of an empty table), as does one kept day with total zero.
- C43: the scan of MKDetector starts one step late: the first full window is never tested; with exactly window_size points a univariate series gets no test and a multivariate one raises KeyError.
- C118: MKDetector's alpha is stored but MKtest runs with its default 0.05; a trend with p-value 0.04 is reported at alpha 0.01.
- C121: smoothing replaces each value by the forecast from the values before it, so the observation at the tested time (in anchor mode, the newest one) never influences the result.
- C122: training days are calendar days while the window counts rows; on weekly data a window of 20 rows is tested on 3 points without warning.
- C124: dropna(axis=1) removes every metric with a missing value; a univariate series with one gap is reported to have no trend, and if one metric of several remains the detector raises.
- C53: is_quarter_end tests month % 4 == 3, so it flags the ends of March, July and November and misses June, September and December.
- C53: the season map puts February in spring (4 months of spring, 2 of winter), and is not the formula its comment says it equals; with a time zone, the week of month mixes the UTC month with the local day.
- C54: Pipeline uses one step object for all series, so fitting a model on a list returns the same object repeatedly, fitted on the last series.
- C126: with remove=True an outlier step overwrites the caller's list of series, and adds 'pipe' to the caller's parameters.
- C127: __detect__ reads __subtype__, which only MKDetector defines: every other detector raises AttributeError in a pipeline, and so does TsFeatures for lack of __type__; the subtype 'outlier' that enables removal is never set.
- C55: deviations 1, 2, 12 over the horizons give a fitted line that is negative at the first horizon, so the lower end is above the upper one.
- C128: get_eci multiplies by norm.ppf(confidence_level): a level of 0.8 covers 0.6 of a symmetric error, and a level below 0.5 is accepted and swaps the ends.
- C57: SimpleHeuristicModel.predict before fit does not raise and uses the default method.
- C129: when the last date is not on the grid of freq, date_range yields a date too many after dropping the first one, and the frame cannot be built.
- C131: pool workers are forked with the same random state; with a process per path all paths are equal and the band has width zero.
- C58: two rules, or a rule and an untouched column, may produce the same label.
- C19: an alert that starts at the last score yields no interval.
- C132: the first score never alerts, even with the default window of one second.
- C133: the volume gives every row an equal share of the duration, so with gaps it is not the area.
- C134: get_overall_severity_score raises when there are no alerts (max of an empty column).
- C18: RollingStatsModel cannot be loaded from what it writes (the statistic comes back as a string and .value raises AttributeError).
- C18: VectorizedCUSUMDetectorModel cannot be loaded before it is used (no 'cps' key) and cannot be written after (pandas series); MultivariateAnomalyDetectorModel.serialize always raises TypeError, StaticThresholdModel.serialize always raises (no Prophet model).
- C18: lost silently: StatSig's anomaly_scores_only; MultiStatSig's method, skip_rescaling and use_corrected_scores (written, but overwritten on loading); BOCPD's threshold; BOCPD trend's alpha and beta; all parameters of the Prophet detectors.
- C136: ROC(n) compares with the value n - 1 rows before (diff(n - 1) / shift(n - 1)); ROC(1) is 0 everywhere and ROC(0) looks at the next row (C135).
- C135: RSI builds its result on a fresh range index and joins by label, so on a frame whose index starts at k a row gets the value of k rows later.
- C139: the labels of EMA, TRIX, TSI, RSI do not name the column, so adding one of them for a second column raises.
- C142: NowcastingModel.predict returns step numbers, not one; if the last row has a missing input, an older row is used without notice.
- C143: NowcastingPlusModel.predict raises IndexError with at most one day of data; fit raises when a value is missing before the last 31 rows; of the step numbers returned only the last one uses the right curve value.
- C144: the dynamic model trains one-row differences for every step, and adds the curve step rows ahead.
- C146: evaluate stores the labels before checking their length and running the metrics; after a failure the run has the results of one evaluation and the labels of another.
- C147: rows without a residual get no probability, and the series passed as residual loses these rows.
- C148: with the default levels the least and the greatest residual are ignored (strict comparison), so constant residuals cannot be learnt from.
- C63: the one-sample proportion test rejects on the critical value itself, so its rate under the null hypothesis is never below alpha and for upper and two-sided tests always above; one trial at one half is rejected in half of all cases.
- C149: binom.sf(k) is reported as significance of the upper test (excludes the result itself), and the two-sided significance is not doubled.
- C150: inject_level_shift and inject_trend_shift raise whenever there is one parameter more than change points, as documented; they want one less.
- C153: an anomaly on a change point gets the level before it, one on the first row the last level; seasonal_period is half the period; a change point beyond the length changes the simulator and raises anyway, after which stl_sim raises.
- C154: trend_shift_sim ignores random_seed; with a change point at row 0 the series does not start at the intercept.
- C156: a multiplicative component is lost if no additive one was added before.
- C157: constructing a TsFeatures overwrites the class tables feature_group_mapping and final_filter used by every earlier instance.
- C158: a name listed before its group is refused beside a keyword that is accepted after it; a single feature of an opt-in group (cusum_num=True) has no effect.
- C159: a value equal to the median counts as a crossing in both directions, although the series stays on one side.
- C160: level_shift_size is the step divided by the window size, as it takes the largest difference of neighbouring rolling means.
- C162: firstzero_ac starts at lag 2: it misses a negative first lag, passes over exact zeros and reports the length when there is none.
- C163: nowcasting features need window - 1 rows less than documented, and any error gives seven NaN for all of them.
- C164: window_size 1 cuts an empty piece and gives NaN.
- C165: time_days counts distinct pairs of year and day of the month, so at most 31 days a year.
- C166: offset 0 passes the check for a positive offset; series of text always raise, as the code divides the accessor .dt.
- C167: OutlierDetectorModel.fit_predict does not fit once a model is there: other values at the same times get the old scores, new times raise KeyError; fit extends the caller's historical_data in place, so the same call on a new model fails on doubled times; remover runs the detector again on the caller's series.
- C168: MultivariateAnomalyDetectorModel.predict places scores by position: all missing for later data, shifted to other times for longer data.
- C169: LinearModel and QuadraticModel.predict(steps=1) without history always raise: statsmodels' add_constant skips a one-row matrix of non-zero constants, so the product has the wrong shape.
- C173: STLF tiles the season from the first row of its answer, so with include_history every row, fitted and future, gets the season shifted by the length modulo the season.
- C175: STLF with method linear or quadratic cannot predict one step (C169).
- C178: Theta still multiplies the forecasts by the season after logging that it uses the non-seasonal method.
- C180: HarmonicRegressionModel.predict never adds the mean back: forecasts of a constant series are zero.
- C181: BayesianVAR puts time 2T - 1 + k into its equations for step T + k.
- C182: BayesianVAR.predict(include_history=True) appends to the kept fitted values: the second such call fails an assertion.
- C183: the prior variance of another variable's coefficient grows with that variable's variance, although the coefficient shrinks.
- C184: SARIMA blanks rows 0..k, k + 1 rows, future ones included if there are at most k observations.
- C185: ARIMA ignores the trend given to fit and the alpha given to predict.
- C186: VAR dates every forecast one grid step late if the last time is off the grid.
- C187: VAR.fit writes the default maxlags into the caller's parameters.
- C189: denormalize shifts value and normalizers down by default_min instead of undoing the shift: with normalizer 0 the sign of the value is turned round.
- C190: with use_default_min forecasts do not scale with the data.
- C194: MLARModel.predict(steps) never returns if 1 is not among the horizons and a step is not a horizon.
- C194: MLARModel.predict(8) with horizons [1, 3, 6] returns no forecast for step 8: the loop counts on passes that start every c steps, the passes start at the gaps.
- C195: GMDataLoader.get_batch moves its position before checking the batch size: a call that raises makes the next one skip a batch of the epoch.
- C195: with test_dataset and magnitude <= 0 the loader is made without an error, and every get_batch raises AttributeError.
- C196: GMDataLoader checks only that both dictionaries have the same keys, then uses the test lengths in the order of the second dictionary for the series of the first.
- C198: GMParam accepts uplifting_ratio in [0, 1]; the offset then makes values negative (or infinite for 1), and their logarithm NaN.
- C198: a validation series without values makes the minimum NaN, and non-positive training values are not lifted.
- C199: the offset of the training values is computed from the minimum and maximum of the validation values as well (look-ahead).
- C200: the times of padded values are those of the first season again, not earlier ones.
- C201: a series whose last reduced_length values are all missing raises IndexError, and so does every batch if the season is longer than the training part, which GMParam does not exclude.
- C203: fill_missing_value_na drops observations whose time is not on the grid from the first time.
- C203: a repeated time makes the length equal to that of the full range, and holes are then not filled.
- C204: split(splits, overlap=False) loses the last n mod splits series when n // splits < n mod splits.
- C205: gmpreprocess keeps training series that are shorter than a season, for which GMBatch raises.
- C206: pad_ts(ts, n, freq) adds one row n steps before the first, not n rows.
- C209: PinballLoss.forward overwrites missing values of the caller's target by 0, and a second call with the same target gives another loss.
- C210: AdjustedPinballLoss with input_log=False compares the logarithm of the forecast with the target itself for all but the first quantile.
- C211: the day of the week feature is off by one: a Sunday sets the first column of the pairs of weeks, and no column of its own.
- C211: the month feature is off by one: December sets the first column of the next series of the batch, and raises IndexError for the last one.
- C213: init_smoothing_params is only checked to be positive: a value above 1 makes levels negative and their logarithms NaN.
- C213: input_window < seasonality makes every pass of the rnn model raise (nothing to concatenate); GMParam does not check it.
- C215: with a single training step and step_delta >= 2 the walk skips forecast windows, and predict raises ValueError when it builds the frame.
- C216: the adjustment of the prediction intervals shifts the bounds but not the median: when the median jumps upward at a joint the upper bound lies below the median.
- C218: evaluate omits the metric 'exceed' when there is exactly one quantile besides the median.
- C220: GMParam accepts schedules with negative epochs, training quantiles of another number than the quantiles, smoothing parameters above 1, uplifting_ratio 0 and a seasonality longer than input_window; it refuses learning_rate=1 (an int).
- C223: GMEnsemble.train accepts test_size = 1, which leaves no series to train on.
- C224: GMBackTester with the default test_size of 0.1 and fewer than 10 series has no test series, and run_backtest raises.
- C224: a second run_backtest goes on training the models of the first run but draws new test series, so the models have been trained on them.
- C226: STDGlobalModel with fit_original=True adds the seasonality to forecasts of the undecomposed series, which have it already.
- C226: a series shorter than the period makes STDGlobalModel.predict raise.
- C227: load_gmensemble_from_file does not restore test_ids, although save_model writes them; the JSON text lacks them.
- C227: global_model_to_json raises for an ensemble trained with the default test_size: the training information holds data frames.
- C228: GetMetaData accepts a series whose maximum is 0 and rescales it to NaN and -inf; with a negative maximum the rescaled series is turned upside down.
- C229: if no candidate model can be fitted, get_meta_data reports the first one as the best model, with empty parameters and error inf.
- C230: MetaLearnPredictability keeps the features of an entry whose best error cannot be read, so that all later labels shift by one row.
- C231: MetaLearnPredictability.train without a test part fits the classifier to the rows its threshold is then validated with.
- C232: MetaLearnPredictability.train uses 0.5 as threshold whenever some threshold with the recall has precision 1 (the last point of the curve has no threshold, IndexError); otherwise it may choose a threshold of the same precision with less recall than promised.
- C236: calling preprocess twice standardises the features twice, while new series are standardised once; downsampling after scaling replaces the mean and deviation by those of the scaled features.
- C236: MetaLearnModelSelect.pred_by_feature fills missing features with 0 after standardising, the training rows and pred_fuzzy before.
- C237: MetaLearnHPT encodes a missing categorical value as -1, and training raises.
- C238: MetaLearnHPT(categorical_idx=None) always raises TypeError, and with numerical_idx=None pred raises TypeError; both are the defaults.
- C239: MetaLearnHPT.train never stops before epoch 22, whatever n_epochs_stop is, and keeps the weights of the last epoch, not of the best.
- C240: TimeSeriesParameterTuning(parameters=None), the default, always raises ValueError: it is replaced by a list of one empty dictionary.
- C242: list_parameter_value_scores(legit_arms_only=True) drops every arm as soon as two constraints are on different metrics, because the truth values of different rows are combined.
- C243: NevergradOptSearch reports parameters without the fixed ones unless fixed_params_in_space is set.
- C243: create_search_method overwrites the multiprocessing of the nevergrad options with its own default, False.
- C244: SearchForMultipleSpaces with BAYES_OPT always raises AssertionError: it passes no evaluation function.
- C247: ProphetModel.predict(include_history=True) returns one row after the data less for each missing value of the series.
- C247: with a non-zero constant floor and a growth that is not logistic, include_history doubles the rows of the history; steps is ignored when a future frame is given, although its length is said to be checked; without one, several series always raise.
- C248: prediction intervals need not contain the forecast (they are quantiles of the samples).
- C250: of two changepoints of the history within a step of the grid only the later is kept; one at the end raises.
- C251: with flat or logistic growth the first row after the history has no trend uncertainty, and sampled logistic trends exceed the capacity.
- C254: the automatic weekend seasonality is kept for weekly data with a repeated time, and the gap before 1970-01-01 is not seen (the times instead of their differences are tested for zero).
- C255: growth='logistic' without a saturation range is accepted by ProphetDetectorModel, but fit always raises; fit(data, historical_data) appends the data to the caller's historical_data.
- C256: holiday_multiplier without holidays raises in predict, where a warning was meant; with holidays given as a list, a detector made from a saved model raises; an unknown score_func silently becomes deviation_from_predicted_val.
- C257: ProphetTrendDetectorModel puts scores on wrong rows when the data have missing values.
- C258: ts.value.iloc[i] = x changes the series but not ts.min and ts.max.
- C259: == on TimeSeriesData is not transitive (values are compared up to a tolerance), and series built with drop_duplicate_time=True, sort_by_time=False differ from series with the same rows.
- C260: iterating over such a series raises KeyError; iterating over, slicing, or taking a column of a series with a categorical variable raises, since categorical_var is not passed on; TSIterator renames the column of a univariate series to 0, 1, 2, ...; a second loop over a TimeSeriesIterator gives nothing.
- C261: TimeSeriesData(value=pd.Series([0])) silently is an empty series.
- C262: an empty slice of a multivariate series is a univariate series named value.
- C263: TimeSeriesData(df, tz=...) ignores tz when the time column already holds datetimes.
- C264: with the default origin the grid starts at midnight, so interpolate() on daily data at ten o'clock with a missing day loses all values, and on a complete one moves the times to midnight; observations off the grid are lost silently.
- C265: interpolate(method='ffill') does not fill missing observations, and on complete data off the grid takes values from the future.
- C266: SeasonalityHandler refuses some regular series: every five hours from 01:00 on the first of a month (the seconds since the start of the month are a multiple of the gap, so the grid starts at midnight and misses the data), weekly series (pd.Timedelta of a calendar rule raises ValueError) unless ignore_irregular_freq, series faster than a second (modulo by zero).
- C266: the season of a handler is set to 7 when it is below two, even if there are only seven rows.
- C267: remove_seasonality() and get_seasonality() on several columns write the cells in place, so min and max of the result are those of the data.
- C268: TimeSeriesDecomposition(..., 'multiplicative') on zero or negative data logs an error and goes on; without a period sub-daily data get the period 2.
- C269: the log likelihood ratio of a split with equal means is negative.
- C271: the loop over the days starts with the window itself, which always counts with ratio at most one and never with a greater one; for decreases the values are negated and the ratio is the wrong way round, so with a ratio above one no drop can pass; a window that ends at the end of the series raises IndexError.
- C272: VectorizedCUSUMDetector marks a column as stable or not by the last round of all columns; detector_ takes the direction "both" and strings letter by letter and raises.
- C273: MultiCUSUMDetector subtracts the second half's likelihood: a change in the first half always has a negative statistic and is never reported.
- C274: almost_equal of change points is not symmetric.
- C275: a CUSUM model used again on data that contain its last change point raises IndexError in the loop but returns scores when vectorised.
- C276: VectorizedCUSUMDetectorModel starts with an empty TimeSeriesData, whose column is called value; when the history is as long as the historical window the scores of several columns come with an extra column value full of NaN.
- C276: with adapted_pre_mean and no row older than the scan window, CUSUMDetectorModel sets the level to NaN, VectorizedCUSUMDetectorModel keeps the old one.
- C277: the moving average that is scored counts zeros before the first row, so the first rows of a series without history are scored too low.
- C278: change_directions=['both'] is understood by the detector but not by the model: an alert is cleared by the next scan whatever the values are.
- C278: the change point is cut to whole seconds, so with times between seconds a change in the scored data raises IndexError.
- C279: in the trend model of BOCPD the shape of the variance posterior grows with the time, not with the run, so the variance is underestimated for short runs late in the series.
- C280: the trend model with choose_priors=True, the default, always raises: its setup() is not called in the search.
- C280: the readjusted prior of the variance has variance 1000 times its mean instead of 1000, and scale zero if the first points are on a line; the minimum for sums of likelihoods is int(sqrt(n) / 10000) = 0.
- C281: BOCPDetector.detector ignores changepoint_prior unless choose_priors=False, and then ignores cp_prior of the parameter object; the caller's parameter object is changed by the search.
- C281: values of alpha_prior, beta_prior or the trend parameters in prior_choice are tried but never set.
- C283: StatSigDetectorModel with rem_season=True and more than max_split_ts_length rows returns scores that are all zero and predictions that are the data plus their seasonal part: the local variable response still holds the initial response after _reorganize_back.
- C283: with rem_season the predicted_ts and the confidence band of MultiStatSigDetectorModel have columns 0, 1, ... instead of the names of the series.
- C283: with rem_season the new rows are decomposed on their own, so fewer than 7 new rows raise even with a long history.
- C284: a call of a two-sample interval detector overwrites variance_a and variance_b of the caller's data (or history) with the variances of the means: a second call with the same real-valued data multiplies the test statistic by the square root of the sample count.
- C284: fit_predict(consolidate_into_intervals=False) after a consolidating call predicts with the intervals of the earlier data.
- C284: fit_predict with historical_data extends the caller's history and returns rows for all of it; the history is not validated, and a failing call leaves it extended.
- C285: _if_level_shift compares the ratio of intercepts: adding a large constant to the data removes every level shift, and for a negative intercept the coefficient has no effect.
- C285: _if_volatility_change is true for two flat parts, since 0 >= coefficient * 0.
- C286: get_acfpacf_features with acfpacf_lag and a period below 5 returns y_acf5 with fewer than five squares; with the default period 7 it does not.
- C286: for a series of exactly `period` values seas_acf1 is the autocorrelation at lag period-1, since statsmodels returns at most n-1 lags.
- C286: get_acfpacf_features(extra_args=None), as documented, raises AttributeError.
- C287: get_seasonalities builds the differenced series with the scalar time len-1 for every row; TimeSeriesData sorts the rows by that constant with a sort that is not stable, so the FFT detector may see the differences in another order.
- C287: seasonality_mag is rounded to a whole number: a seasonality smaller than half a unit has size 0.
- C287: trend_strength and seasonality_strength have no lower bound; the usual definition takes the maximum with 0.
- C288: get_cusum_detector reports p-value 0 when no change point was found.
- C288: for extra_args=None, documented as disabling nothing, the features of the detectors are all NaN.
- C289: LSTMModel.fit on a series of at most time_window values raises UnboundLocalError (num_epochs >= 2) after having stored an untrained network; predict then answers with it when the series has exactly time_window values.
- C289: LSTMModel's fcst_lower and fcst_upper are 0.95 and 1.05 times the forecast: swapped for negative forecasts, of width 0 at 0, unrelated to any error.
- C290: with a covariance the run probability restarts after every test that does not reject as if the rest were independent of it; for m = 1 the covariance has no effect.
- C291: HoltWintersModel.predict(alpha=...) ignores the frequency, given or inferred: get_eci is called with its default freq='D', so hourly or monthly data get forecasts stamped on consecutive days.
- C291: predict(alpha=..., freq=...) still raises when the frequency cannot be inferred, because the backtest infers it again.
- C292: backtesters given the same error method twice add its errors up twice (errors is a dict, error_methods a list).
- C292: BackTesterExpandingWindow ignores end_train_percentage.
- C293: MLARModel._infer_freq replaces MS, BM and BMS by M; monthly data at month starts are reindexed to month ends and become all NaN (setting MLARParams(freq='MS') avoids it).
- C293: the frequency of the first series is used for all series and stays in the parameters; observations of other series off that grid are dropped.
- C294: metadata_detect_preprocessor scales the caller's dictionaries in place; metadata_detect_reader(df, 'A') followed by metadata_detect_reader(df, 'B') divides the windows by 86400 twice.
- C295: MetaDetectHptSelect.get_hpt_from_ts can never answer: np.asarray(dict.values()) is an array without dimensions.
- C295: get_const_params ignores NaN when it counts values but takes the first row's value, which may be NaN.
- C296: MetaDetectModelSelect trains on list(features.values()) of each row but predicts on a data frame aligned by name.
- C296: MetaDetectModelSelect.report_metrics tests `self.results is None`, but results starts as {}; before train it raises KeyError.
- C298: prepare_decoder copies the last max_dilation states of the encoder, not of the decoder; with a larger dilation in decoder_nn_structure the delayed state is silently replaced by the previous one.
- C298: DilatedRNNStack.forward appends to its stores before it computes; after a call that raised (input of the wrong width) an S2Cell or LSTM2Cell network raises IndexError on every further call until reset_state.
- C298: nn_structure with a dilation of 0 is accepted by the constructor and raises IndexError on the first call.
- C300: MLARModel.predict(steps) beyond the trained horizons with categoricals: the row forecast from has no label (all dummies 0), and as soon as the input window lies after the data, pd.CategoricalDtype raises because the first label is NaN.
- C300: _get_all_cat_labels is called again in _predict with the first rows of the windows; two series that exchanged labels during training have their dummy columns exchanged at prediction without notice.
- C299: predict(new_data) replaces all_series by the window; later predictions without new data are about the new data.
- C301: NeuralProphetModel.predict executes future['y'] = 0.0 on the frame of make_future_dataframe, which for n_lags > 0 holds the last observed values; the forecasts of autoregressive models do not see the history.
- C301: a lagged regressor with a list under 'names' passes validate_params, but set(_reqd_regressor_names) raises TypeError in the constructor.
- C302_twice_refuted: BocpdDetectorModel.fit_predict extends the caller's historical_data in place (bocpd_model.py:107, no copy, no validation), even when the call then raises. A second call with the same objects sees the data twice and reports scores for repeated times.
- C302_drift_refuted, C302_threshold_refuted: BocpdDetectorModel uses its threshold only as the argument of a call whose change points it throws away; giving any threshold to a detector made with slow_drift=True silently selects the level shift model (bocpd_model.py:134-140).
- C303_parameters_refuted: BocpdTrendDetectorModel(alpha, beta) never uses alpha and beta, and its fit_predict ignores historical_data (bocpd_model.py:240-249).
- C304_refit_refuted: TemporalHierarchicalModel.fit does not reset residuals and res_matrix; after the series is extended and fit again, reconciliation by struc/mse weights uses the residuals of the first fit (thm.py:122-149, 210-232).
- C304_long_refuted, C304_supplied_refuted: fit aggregates the series for all levels, also those with supplied forecasts, and raises when one is longer than the series; forecasts supplied together with a model name are silently ignored.
- C305_greater_refuted: median_validation compares with >= although the documentation says greater than; if all base forecasts agree with the median forecasts every level is reported as bad. The documented default threshold is 3, the code has 5.
- C305_short_refuted: median_validation with fewer steps than the highest level takes the mean of no forecasts, the bound is NaN and no level is reported.
- C306_hash_refuted: TimeSeriesChangePoint.__hash__ hashes a string without the f prefix (consts.py:153), so every change point has the same hash; CUSUMChangePoint defines __eq__ without __hash__ and cannot be put in a set or used as a key.
- C306_symmetric_refuted: bocpd_point == cusum_point answers, cusum_point == bocpd_point raises NotImplementedError (cusum_detection.py:251); NotImplementedError is raised where NotImplemented should be returned, so x in list_of_points can raise.
- C306_set_refuted: BOCPD change points of two series with the same times and confidence are equal (ts_name is not compared), and a set of the change points of a multivariate series loses some.
- C307_settings_refuted: CUSUMDetectorModel.__eq__ leaves out remove_seasonality, season_period_freq, vectorized and adapted_pre_mean.
- C308_alternating_refuted: fftfreq gives half the sampling rate as a negative frequency for series of even length and get_fft keeps positive frequencies only, so FFTDetector cannot see a season of two values.
- MLARModel: with a future covariate window larger than max_lags plus the horizon the covariate is NaN in prediction (or prediction raises), although training used it; cov_future_input_windows of 0 passes validation and raises in training; calendar columns are NaN in a forecast when the target ends before the series and the horizons have gaps (C309).
- MLARModel: 'auto' calendar and Fourier features are silently empty for inferred weekly (W-SUN), minute (T) and quarterly (QS-OCT) frequencies (C310).
- MLARModel with several targets: all targets are forecast from the last row where any of them has a value (C311).
- C312: a StatSigDetectorModel without time_unit keeps the unit inferred in its first successful call: used again for a series with another sampling gap, its windows have the wrong length and the scores differ from those of a new detector (stat_sig_detector.py:677-690). A gap below 0.1 ms is written with an exponent, which pandas does not read: the call raises ParameterError, and so does every later one.
- C313: get_default_lightgbm_parameter_search_space uses np.logspace(1e-3, 0.8), whose arguments are exponents: all 50 learning rates lie between 1.002 and 6.31 (parameter_tuning_utils.py:415-420).
- GMModel.train with test series: the first evaluation switches the network to its test mode, and the remaining epochs train in that mode; it also draws from numpy's global generator, so the same seed trains other weights than without test series (C314_mode_refuted, C314_test_refuted).
- GMModel.train called again continues from the trained weights, and an evaluation that fails (e.g. test_valid_TSs not given) is only noticed after the first epoch has changed the weights (C314_again_refuted, C314_failed_refuted).
- load_model_from_json: when a serialized Prophet model has to be read again, a time without a time-zone letter loses the last digit of its fraction of a second (the pattern's \w matches it), and one with an offset such as +00:00 keeps it (C315_unmarked_refuted, C315_moved, C315_offset_refuted).
- A global model with the feature tsfeatures alone, with ts2vec, or with an empty list of features is accepted and built, but every training or forecasting step raises a TypeError: get_on_the_fly_features returns None, respectively _get_ts2vec does, and torch.cat is given it (data_processor.py:646-650, utils.py:1060-1065; C316_once_refuted).
- C317: SynthMetadataReader builds the tables of all algorithms before it answers for one, so a single row that lacks one algorithm makes get_metadata raise KeyError for every algorithm; and it turns n_control and n_test into days, which metadata_detect_reader with its default list does not.
- DetectorModelRegistry.__new__ calls type.__new__ (detector.py:53), skipping ABCMeta.__new__: a subclass of DetectorModel that leaves methods unimplemented is registered and can be instantiated (C318_inherited_refuted).
- For the same reason isinstance(x, SomeDetectorModel) raises AttributeError ('_abc_impl') unless type(x) is exactly that class; in particular comparing a CUSUMDetectorModel with == to anything else, also to None or to a VectorizedCUSUMDetectorModel, raises (cusum_model.py:292; C318_isinstance_refuted).
- For the interval detectors, which also derive from ABC, isinstance uses the caches of ABC itself, shared by all of them: asked first whether a two-sample detector is a OneSampleIntervalDetectorModel, Python answers False to both that and to whether it is a TwoSampleIntervalDetectorModel; asked in the other order, True to both (C318_first_question, C318_isinstance_case).
- C320: GMBackTesterExpandingWindow fills holes with NaN rows, but calc_error refuses a fold without a known value: one long hole makes the whole backtest raise; a second run_backtest on the same object doubles the reported errors; end_train_percentage is ignored.
- load_data (data/utils.py:41) chooses the path inside the package by the current directory: from any directory whose path does not contain "kats" it looks for kats/data/... inside the package and raises FileNotFoundError (C321_elsewhere_refuted).
- StaticThresholdModel.fit_predict builds its result with sorted times and then assigns the values in the order of the input (threshold_detector.py:51-87): a series made with sort_by_time=False that is not in order gets scores at the wrong times (C322_unsorted_refuted).

Read in the code but not modelled:

- StatSigDetectorModel with rem_season on a series long enough to be split rebuilds the response from the zero-filled initial response, so the scores are lost (stat_sig_detector.py:316-392 uses the local `response`).
- thm.py _get_residual_matrix: with less than one period of residuals on some level, `residuals[k][-0:]` takes all residuals and the reshape raises.
- ensemble.py: BaseEnsemble.__init__ checks model names without lower(), fit looks them up with lower(); MedianEnsembleModel and WeightedAvgEnsemble skip that check altogether, and learners given twice under one name collapse into one (a failure of the first is never reported).
- rolling_stats_model.py: allow_expanding_window is documented for point_based=True only, but also decides whether a time based window that is a multiple of the frequency raises, while one that is not a multiple never raises.
- seasonality.py get_fft_peaks: a ratio of 1.005 to an earlier peak counts as a harmonic, so of two close but distinct frequencies the second is always dropped.
- hourly_ratio_detection.py _valid_frequency: any frequency given as a string (for example 'D') is accepted when an aggregation is given; only Timedelta frequencies are checked to be finer than an hour.
- trend_mk.py: the documented statistic is Kendall's Tau-b, but the divisor n(n-1)/2 ignores ties (Tau-a); a metric named 'overall' overwrites the overall result.
- ensemble_predict_interval.py: the projection has no time column; simple_heuristic_model.py: the constructor does not call params.validate_params; compat.py: Version defines __eq__ without __hash__, so versions cannot be put in sets.
- anomaly_postprocessing.py imports ChangeDirections from kats.detectors.utils, a module that is not in the repository, so it cannot be imported.
- tsfeatures.py get_seasonalities passes the same number as time of every row; _ewma shifts the averages when a value in between is missing (lemma ewma_misplaced).
- threshold_detector.py: StaticThresholdModel raises AttributeError for multivariate series (a DataFrame has no name).
- theta.py: the decomposition is not told the season length m: it uses its own (7, or the frequency's), while predict repeats the last m values of its seasonal component.
- bayesian_var.py: validate_params is never called, so a non-positive lag or tightness is accepted; both bounds are -1 in every row; _get_training_residuals formats times[0] only when there are no times.
- holtwinters.py: the argument multi is read, logged and not used (False is passed).
- stlf.py: an unknown decomposition raises only when method_params is None.
- ml_ar.py: with freq=None, month-start data get freq 'M', the grid of month ends, and reindexing leaves no value; weekly data are inferred as 'W-SUN' and the like, for which no automatic calendar or Fourier features exist.
- ml_ar.py: a future covariate window of 0 passes the validation and raises in training (index of length 1 for n + 1 rows); an unknown norm_sum_stat is taken as z-score; predict(steps) for fewer steps than the horizon returns the whole horizon; with several target variables the iterated rows have duplicate times.
- globalmodel/data_processor.py: `train_val += offset_val` raises for integer series (a float cannot be added to an integer array in place).
- globalmodel/data_processor.py: the keys of a dictionary become a numpy array; keys of mixed types turn into strings and are not found again.
- globalmodel/utils.py: fill_missing_value_na uses df.time and does not pass time_col_name: a series with another time column raises.
- globalmodel/utils.py: GMFeature(['tsfeatures']) has no on-the-fly feature; GMBatch.get_features passes the None to torch.cat, which raises.
- globalmodel/model.py: predict ignores its test_batch_size argument (batches of 500).
- globalmodel/model.py: when an rnn model is trained, the validation windows after the first use the actual validation values; evaluate does not.
- globalmodel/utils.py: GMParam does not compare the length of training_quantile with that of quantile; an empty quantile raises IndexError.
- globalmodel/ensemble.py, backtester.py: with multi=True the models are trained in threads (multiprocessing.dummy) that set the global random seeds, so the result depends on the schedule.
- globalmodel/ensemble.py: keys are put into a numpy array: tuples as keys, or keys of mixed types, make train raise.
- globalmodel/stdmodel.py: the period is not handed to TimeSeriesDecomposition, which infers its own; a misspelt include_historty is passed to ProphetModel.predict.
- globalmodel/backtester.py: max_core equal to the number of cores is refused although the message allows it.
- metalearner_predictability.py, metalearner_modelselect.py: pred_by_feature documents data frames as input and raises ValueError for them.
- metalearner_modelselect.py: MetaLearnModelSelect(metadata=None) raises TypeError (len of None) before the message for missing meta data; features given as text raise AttributeError for the first entry.
- metalearner_hpt.py: the constructor fills missing values in the caller's data_x in place; train refuses a batch size equal to the number of training rows, with a message saying it is larger.
- metalearner_modelselect.py: the columns of the features are named after the first entry, the values of the others are taken in their own order.
- time_series_parameter_tuning.py: with outcome constraints every metric evaluates each arm again; legit_arms_only evaluates all arms once more.
- time_series_parameter_tuning.py: the bounds of relative constraints (with %) are compared with the means themselves; NevergradOptSearch keeps the result of the last call only.
- models/prophet.py: a given future frame is changed in place (cap and floor columns); univariate data with cap=True raise AttributeError instead of the intended message.
- detectors/cusum_detection.py: the standard deviation before the change is that of ts[:cp], while mu0 is the mean of ts[:cp+1]; == on change points ignores p_value_int; the documentation of magnitude_comparable_day says maximal, the code takes it as minimal.
- detectors/cusum_model.py: monthly data have a frequency but uneven gaps, so the vectorised path scores them with misaligned windows; a VectorizedCUSUMDetectorModel built from a serialized model lacks serialized_model and raises AttributeError on one series; data shorter than a step with a history of exactly the historical window raise in the branch for remaining data.
- detectors/bocpd.py: mean_prec_prior and known_prec of several series are repeated only if mean_prior is given, since all three conditions test mu_0; get_run_length_matrix has its diagonal cleared when agg_cp is on (C46).
- detectors/interval_detector.py: fit() builds a NotImplementedError without raising it.
- utils/parameter_tuning_utils.py get_default_lightgbm_parameter_search_space: learning_rate is np.logspace(1e-3, 0.8), i.e. 10**0.001 … 10**0.8: every learning rate tried is above 1 (and n_estimators etc. are numpy integers).
- models/thm.py: the last_timestamp argument of predict is overwritten before it is used.
- detectors/interval_detector.py:1262-1269: fit creates a NotImplementedError without raising it.
- models/ml_ar.py: with calculate_fit and the log transform, the logged sMAPE compares log-scale outcomes with forecasts on the original scale.
- models/nowcasting/feature_extraction.py:180-305: functions defined after the return of MACD are never reached.
- models/neuralprophet.py:36-38 imports get_default_neuralprophet_parameter_search_space, which kats/utils/parameter_tuning_utils.py does not define: importing the module raises ImportError at this commit (NeuralModel.v models the code behind that import).

## Coverage of the code

Modelled (Model file, source, what is left out):

- `RunProbModel.v` — interval_detector.py: _w_independent, _probability_of_at_least_one_m_run_in_n_trials, _get_lowest_m, _get_lowest_p, _get_critical_value (state part). Left out: the correlated case (cov given), floating point rounding
- `IntervalRunsModel.v` — interval_detector.py: _get_true_run_indices, _get_intervals, anomaly_intervals, caution_intervals, _convert_intervals_to_predictions, ABInterval. Left out: pandas timestamps (integers here), plotting
- `TestDecisionModel.v` — interval_detector.py: CriticalValue, _get_critical_value, _absolute_difference_test_statistic, _relative_difference_test_statistic, _get_test_decision. Left out: stat_sig values, zero standard errors (NaN)
- `BacktestModel.v` — backtesters.py: _get_absolute_size, _return_fold_offsets, BackTesterSimple, BackTesterRollingOrigin, BackTesterFixedWindow, _create_model, calc_error, run_backtest, GenericBackTester-style _get_fold_errors/_summarize; datapartition.py: SimpleDataPartition, SimpleTimestampDataPartition, RollingOriginDataParition. Left out: process pools, plotting, model training (an arbitrary forecaster), float rounding of fractions
- `CusumModel.v` — cusum_detection.py: _get_change_point, the regression decision of detector; cusum_model.py: the alert state (set_alert_on/off, _if_normal, _fit), _reorganize_big_data, _reorganize_back, the window sizes, _time2idx, the row ranges of fit_predict. Left out: likelihood ratio tests and magnitude statistics (inputs of the state machine), smoothing and seasonality removal, score functions
- `TSDataModel.v` — consts.py: TimeSeriesData.__init__ (rows, sorting, duplicates), __getitem__, exclude, extend, validate_data, _get_binary_op_other_arg, _perform_op, infer_freq_robust. Left out: time parsing and time zones, categorical columns, interpolate, multivariate arithmetic
- `StatSigModel.v` — stat_sig_detector.py: _get_start_end_dates, _should_update, _handle_not_enough_history, the point loop of fit_predict, _get_anomaly_scores_only, _reorganize_big_data, _reorganize_back, the split decision; detector_consts.py: ChangePointInterval.data, inplace_update, get_last_n. Left out: the t statistic (an arbitrary function of the two windows), confidence bands and predictions (same loop), seasonality removal, FDR rescaling
- `ResponseModel.v` — detector_consts.py: AnomalyResponse (update, inplace_update, get_last_n, extend), ChangePointInterval (data, extend_data, mean_val, variance_val, spikes cache). Left out: column bookkeeping of multivariate responses, components sharing one series object, string formatting
- `PercChangeModel.v` — detector_consts.py: ChangePointInterval._detect_spikes (univariate), PercentageChange (all methods). Left out: the t and normal distribution, statsmodels' multiple testing, p values of the univariate path
- `DTWModel.v` — dtwcpd.py: DTWDistance, LB_Keogh, _get_nonzero_subsequences, _get_all_nonzero_subsequences, _calculate_distances_for_all_subsequences, _find_subsequences_anomalies, detector. Left out: square roots (distances are compared squared), np.percentile (the median is a parameter), time stamps of change points, logging
- `MetricsModel.v` — metrics.py: all metrics except those listed; registries and metadata.py. Left out: square roots and logarithms (RMSE, RMSLE, RMSPE are modelled by the squares), infinities in data, windows longer than the data in mult_coverage, mult_interval_score
- `BocpdModel.v` — bocpd.py: _BayesOnlineChangePoint (_find_posterior, _calc_agg_cppprob, _construct_output), _NormalKnownPrec (statistics), _PoissonProcessModel (statistics). Left out: log domain and rounding, the densities themselves (arbitrary positive numbers), Bayesian linear regression, prior search, plots, several series at once, change point objects
- `ThmModel.v` — thm.py: _get_m, get_S, _aggregate_data, get_W (struc, svar, hvar), _predict_origin, _predict, time stamps of predict; base_models.py: GetAggregateTS._aggregate_single. Left out: rounding, the solver (a parameter with the contract of an exact one), covariance weights (an arbitrary matrix), NaN residuals, median_validation, argument checks
- `EnsembleModel.v` — ensemble.py: BaseEnsemble.fit, _predict_all; median_ensemble.py: predict; weighted_avg_ensemble.py: _backtester_all, predict; kats_ensemble.py: validate_params, deseasonalize, reseasonalize, fit, fitExecutor, predict, forecast, forecastExecutor, aggregate, clean_dummy_CI, _backtester_all. Left out: the base learners, the back test, the seasonality test and the decomposition (parameters of the model), custom executors, negative season lengths, process pools beyond independence of jobs
- `RollingModel.v` — rolling_stats_model.py: all score functions, RollingStatsModel (_point_based_vectorized_data, _fit_predict_point_based, _check_window_sizes, fit_predict). Left out: the square root of the z-score, the seasonality decomposition (a parameter), pandas' inference of a regular frequency (a parameter), label slicing of unsorted indices, serialisation
- `DistDistModel.v` — distribution_distance_model.py: _merge_percentile, _percentile_to_prob, DistributionDistanceModel.fit_predict, _js_div_func. Left out: the distances (parameters), missing values, constructor checks, serialisation
- `SeasonModel.v` — seasonality.py: ACFDetector.detector, _get_seasonality_length; FFTDetector.detector, get_fft, get_fft_peaks (threshold and harmonics). Left out: the autocorrelation estimate, the Fourier transform and the peak finder (parameters), remover, plots
- `RobustModel.v` — robust_stat_detection.py: RobustStatDetector.detector. Left out: the normal tail (a parameter applied to the squared z-score), missing values, times of the change points
- `OutlierModel.v` — outlier.py: OutlierDetector (__clean_ts__, detector), MultivariateAnomalyDetector (_clean_data, _generate_forecast, _calc_anomaly_scores, detector, get_anomaly_timepoints, get_anomalous_metrics); detector.py: Detector.remover. Left out: frequency inference, polynomial interpolation, seasonal decomposition, vector autoregression, Mahalanobis distance and chi-square tail (parameters); constructor checks; rounding of the step to microseconds; plots
- `HourlyModel.v` — hourly_ratio_detection.py: HourlyRatioDetector (_valid_frequency, _preprocess, _mahalanobis_test, detector). Left out: robust covariance estimate and chi-square tail (parameters), NaN ratios (the fit raises), plots
- `TrendModel.v` — trend_mk.py: MKDetector (_remove_seasonality, _smoothing, MKtest, multivariate_MKtest, runDetector, detector, get_MK_results, _convert_detected_tps, get_top_k_metrics). Left out: the normal tail and quantile and the initial level of the smoothing (parameters); constructor checks; plots
- `CalendarModel.v` — feature_engineering.py: _map, date_features, time_features, circle_encode. Left out: fields copied from pandas (year, month, day, day and week of year, quarter, hour, ...), dst and utcoffset, timestamp_datetime_features
- `PipelineModel.v` — cupik.py: Pipeline (fit, __fit__, __detect__, __transform__, __model__). Left out: scikit-learn steps; the steps' own methods (parameters)
- `HeuristicModel.v` — simple_heuristic_model.py: SimpleHeuristicModel (fit, predict). Left out: intervals of constant width
- `EmpIntervalModel.v` — emp_confidence_int.py: EmpConfidenceInt.get_eci and the error matrix. Left out: the backtester that produces the errors (see Backtest*), diagnostics
- `EpiModel.v` — ensemble_predict_interval.py: ensemble_predict_interval (init, errors, projection, bands). Left out: the learners; the t quantile
- `RenameModel.v` — dataframe_utils.py: rename_columns_by_prefix. Left out: the other helpers
- `VersionModel.v` — compat.py: Version comparison. Left out: parsing of version strings
- `PostModel.v` — anomaly_postprocessing.py: AnomalyPostProcessHandler (thresholds, alerts, intervals, severity). Left out: anomaly types (t tests, line fits), plots
- `SerialModel.v` — serialize and the loading branch of the constructors: stat_sig_detector.py, rolling_stats_model.py, bocpd_model.py, cusum_model.py, distribution_distance_model.py, interval_detector.py, outlier_detector.py, multivariate_detector.py, prophet_detector.py, threshold_detector.py. Left out: the text form of JSON (numbers are exact); model_to_json of Prophet (a parameter)
- `FeatModel.v` — nowcasting/feature_extraction.py: ROC, MOM, MA, LAG, MACD, TRIX, EMA, TSI, RSI and the joins. Left out: zero and negative windows of pandas that raise
- `FeatBandModel.v` — nowcasting/feature_extraction.py: BBANDS. Left out: labels
- `NowcastModel.v` — nowcasting.py, nowcastingplus.py, dynamic_nowcasting.py: features, labels, fit, predict. Left out: regressors, scalers and the polynomial regression (parameters); the external df and model arguments; pickling
- `RunsModel.v` — evaluation/evaluator.py: Evaluator. Left out: generate_predictions (abstract there); input_data and model
- `ResidModel.v` — residual_translation.py: KDEResidualTranslator. Left out: the density estimate and the choice of its bandwidth; infinite residuals in fit
- `BinomModel.v` — interval_detector.py: OneSampleProportionIntervalDetectorModel (critical values, decision, stat_sig) per row. Left out: the confidence interval (beta.ppf); counts that are not whole
- `SimModel.v` — utils/simulator.py: all of Simulator but level_shift_multivariate_indep_sim and the sigmoid trend. Left out: random numbers (parameters), negative positions, integer series, time stamps of date_range
- `TsfModel.v` — tsfeatures.py: TsFeatures.__init__, feature_group_mapping, the selection of features in transform. Left out: which features a group emits when its computation fails; the threads of multivariate input
- `TsfValueModel.v` — tsfeatures.py: crossing_points, binarize_mean, level_shift, flat_spots, special_ac, lumpiness, stability. Left out: features that need statsmodels, scipy or a detector (stl, kpss, arch, holt, entropy, hurst, heterogeneity)
- `TsfNowModel.v` — tsfeatures.py: _ewma, nowcasting, time features. Left out: the reading of time zones; time stamps are records of calendar fields
- `TsfFourierModel.v` — tsfeatures.py: TsFourierFeatures over the reals. Left out: TsCalenderFeatures; integer times above the range of int64
- `WrapModel.v` — outlier_detector.py, multivariate_detector.py: fit, predict, fit_predict over a heap of the caller's series. Left out: multivariate series for the outlier model; series of the caller extended with themselves
- `LsqModel.v` — least squares coefficients and leverages, by orthogonalisation over the reals (numpy.linalg.lstsq, statsmodels OLS). Left out: rank deficient matrices other than by the zero vector, numerical error
- `RegModel.v` — linear_model.py, quadratic_model.py: fit, predict, with statsmodels add_constant and wls_prediction_std. Left out: plot, parameter search space; the t quantile is a parameter
- `StlfModel.v` — stlf.py: deseasonalize, predict. Left out: the decomposition and the inner models but the linear one; validation of parameters
- `ThetaModel.v` — theta.py: check_seasonality, deseasonalize, fit, predict. Left out: the choice of smoothing level and the decomposition, which are parameters
- `HarmonicModel.v` — harmonic_regression.py: parameters, fourier_series, fit_harmonics, predict. Left out: plot; curve_fit is the exact least squares solution
- `BvarModel.v` — bayesian_var.py: prior, _construct_z, _construct_Zt, training forecasts, predict. Left out: the posterior mean is a parameter: the inversions, sigma_ols; plot
- `SmModel.v` — sarima.py, var.py: predict; arima.py: fit, predict without history; the lags of var.py fit. Left out: what statsmodels computes; the history of ARIMA; Holt-Winters
- `MlarModel.v` — ml_ar.py: find_first_missing_number, normalize, denormalize, embed, _normalize_data, training pairs, forecasts of one pass. Left out: several targets, categoricals; the regressor and the features that do not depend on the target are parameters
- `MlarStepsModel.v` — ml_ar.py: predict(steps), the origin of the next pass. Left out: new_data; the forecast of one pass is a parameter
- `GmLoaderModel.v` — globalmodel/data_processor.py: GMDataLoader. Left out: the random generator (its draws are parameters), type checks
- `GmBatchModel.v` — globalmodel/data_processor.py: GMBatch._get_indices, _get_array, _get_seasonality, _fillin_nan_values. Left out: features, tensors
- `GmFillModel.v` — globalmodel/utils.py: get_filters, fill_missing_value_na, split, gmpreprocess, calc_min_input_length, calc_max_fcst_horizon, pad_ts. Left out: logging, type checks
- `GmLossModel.v` — globalmodel/utils.py: PinballLoss, AdjustedPinballLoss. Left out: tensors, gradients, rounding
- `GmFeatureModel.v` — globalmodel/utils.py: GMFeature. Left out: tsfeatures, logarithms of features
- `GmPassModel.v` — globalmodel/model.py: _process, _single_pass_rnn, the walks of _single_pass_rnn and _single_pass_s2s. Left out: the networks (parameters), gradients, rounding
- `GmFcstModel.v` — globalmodel/model.py: _adjust_pi, _format_fcst, evaluate. Left out: the metrics themselves (see MetricsModel.v)
- `GmS2sModel.v` — globalmodel/model.py: _fill_missing_with_seasonality, _get_median, _single_pass_s2s. Left out: the networks (parameters), gradients, rounding
- `GmParamModel.v` — globalmodel/utils.py: GMParam, gmparam_from_string; globalmodel/model.py: the schedules of train. Left out: JSON syntax itself (keys become decimal strings), pandas frequencies, type checks
- `GmEnsModel.v` — globalmodel/ensemble.py: train (choice of series), _combine_fcst; globalmodel/backtester.py: GMBackTester, GMBackTesterExpandingWindow; globalmodel/stdmodel.py: all but the Prophet branch. Left out: training itself, threads and random seeds, the decompositions
- `GmSaveModel.v` — globalmodel/model.py: save_model, load_gmmodel_from_file; globalmodel/ensemble.py: save_model, load_gmensemble_from_file; globalmodel/serialize.py. Left out: the encodings (pickle, JSON, float32), the networks
- `MetaModel.v` — metalearner/get_metadata.py: GetMetaData; metalearner/metalearner_predictability.py: labels, rows, threshold. Left out: the candidate models, the search over parameters, the features, the classifiers, files
- `MetaSelectModel.v` — metalearner/metalearner_modelselect.py: RandomDownSampler, preprocess, train (report), pred_by_feature, pred_fuzzy; metalearner/metalearner_predictability.py: preprocess, pred_by_feature. Left out: the classifiers, plots, files
- `MetaHptModel.v` — metalearner/metalearner_hpt.py: constructor, build_network, pred_by_feature, the loop of train. Left out: weights, gradients and losses (parameters), plots, files
- `TuneModel.v` — utils/time_series_parameter_tuning.py: compute_search_cardinality, evaluate_arm, fetch_trial_data, filter_violating_arms, NevergradOptSearch, SearchForMultipleSpaces. Left out: Ax and nevergrad themselves, Bayesian optimisation, the layout of the score table
- `ProphetModel.v, ProphetTrendModel.v` — models/prophet.py: parameters and their validation, the frame for fitting, the rows to predict for, forecast and intervals, sampled trends of all growths. Left out: prophet itself (fitting, seasonal and holiday features, the coefficients), floating point, plots, the parameter search space
- `ProphetDetModel.v` — detectors/prophet_detector.py: scores, seasonalities, masks, excluded ranges, outliers, saturation, predict, holidays, the trend detector. Left out: prophet itself, serialisation of models, how country holidays are listed, additional seasonalities
- `TsObjModel.v` — consts.py: TimeSeriesData as an object: both constructors, setters and cached bounds, extend, equality, slices, time zones, interpolation; TSIterator, TimeSeriesIterator. Left out: parsing of strings, dtypes other than numeric or not, plots; interpolation methods other than linear, ffill, bfill; frequencies that are not a length of time
- `DecompModel.v` — utils/decomposition.py: construction of SeasonalityHandler, its cache and both results; options, cleaning, default period and the STL branch of TimeSeriesDecomposition. Left out: STL, seasonal_decompose and polynomial interpolation (parameters with laws), series without a frequency (asfreq), the jump parameters of STL, plots
- `CusumDetModel.v` — detectors/cusum_detection.py: the likelihood ratio, the magnitude test, CUSUMDetector.detector, both detectors of VectorizedCUSUMDetector, MultiCUSUMDetector, comparison of change points. Left out: floating point, plots, conversion of results to TimeSeriesChangePoint; covariance matrices (given by an inverse), NaN in the data
- `CusumRunModel.v` — detectors/cusum_model.py: whole calls of CUSUMDetectorModel (both paths) and VectorizedCUSUMDetectorModel: scans, scores, smoothing, steps, remaining rows, frames of results. Left out: NaN in the data, removal of seasonality (C266-C267), np.std (a parameter), plots
- `BocpdTrendModel.v` — detectors/bocpd.py: the trend model: set up, prior line, posterior of each run, sampled predictive probability. Left out: the draws from the multivariate normal and inverse gamma distributions (parameters), floating point, plots
- `BocpdCallModel.v` — detectors/bocpd.py: BOCPDetector.detector, the search for priors, grouping, empirical priors. Left out: the search itself (the values tried are a parameter; see TuneModel.v), processes of the search, thresholds and priors per series, plots
- `StatSigSeasonModel.v` — detectors/stat_sig_detector.py: the full response with and without removal of seasonality, univariate and multivariate. Left out: the decomposition and the test statistic (parameters; C266-C267, C71-C76), the discarded split call, plots
- `IntervalCallModel.v` — detectors/interval_detector.py: fit_predict of the four two-sample detectors with everything it leaves behind. Left out: the search for duration and level (a parameter; C03-C05, C60-C61), plots, NaN
- `PostTypeModel.v` — detectors/anomaly_postprocessing.py: types of anomalies. Left out: the t test (a parameter), plots
- `TsfAcfModel.v` — tsfeatures/tsfeatures.py: get_acfpacf_features. Left out: the partial autocorrelations of statsmodels (a parameter)
- `TsfShapeModel.v` — tsfeatures/tsfeatures.py: spectral entropy, STL strengths, peak and trough, spikiness, Hurst exponent, linearity, gradient, histogram mode, seasonality features. Left out: STL, periodogram, FFT detector (parameters), KPSS and ARCH tests, Holt parameters
- `TsfDetModel.v` — tsfeatures/tsfeatures.py: features from the outputs of detectors. Left out: the detectors (parameters; see their own areas)
- `LstmModel.v` — models/lstm.py: scaling, training examples, training loop, predict. Left out: the LSTM itself and Adam (parameters), 32-bit floats, NaN, negative windows, the search space
- `WeightModel.v` — detectors/interval_detector.py: weights and run probability with a covariance. Left out: the normal integral (a parameter), its numerical error
- `HoltModel.v` — models/holtwinters.py: parameters, predict; utils/emp_confidence_int.py: composition of backtest, regression and forecast. Left out: statsmodels (a parameter), error metrics of the backtest, plots
- `CrossModel.v` — utils/backtesters.py: CrossValidation, expanding and rolling window, dict of errors. Left out: as BacktestModel.v; state after an exception
- `MlarGridModel.v` — models/ml_ar.py: _infer_freq, _check_single_ts, _valid_and_fillna. Left out: pandas offsets (grids, parameters), time zones
- `DetMetaModel.v` — detectors/meta_learning/metalearning_detection_model.py; hpt_tuning.py: reader. Left out: state after an exception, sharing of parameters between algorithms of a row, the classifier (a parameter; see MetaSelectModel.v)
- `DetHptModel.v` — detectors/meta_learning/hpt_tuning.py: MetaDetectHptSelect. Left out: the network and its training (parameters; see MetaHptModel.v), plots
- `RnnModel.v` — models/globalmodel/utils.py: LSTM2Cell, S2Cell, DilatedRNNStack. Left out: floating-point rounding, gradients, jit; torch.nn.LSTMCell and Linear from their documentation
- `MlarNewModel.v` — models/ml_ar.py: categorical_encode, _embed_categorical, _get_all_cat_labels, the windows of _predict. Left out: several targets, covariates other than one categorical, irregular frequencies (see MlarGridModel.v), LightGBM
- `NeuralModel.v` — models/neuralprophet.py: validate_params, __init__, _data_params_validation, _ts_to_df, fit, predict. Left out: the library (a parameter), logging, plot, repeated column names and columns called ds
- `kats/detectors/bocpd_model.py` — fit_predict of both detector models: the history, the choice of the BOCPD model, the response, the slopes of the trend detector. Left out: several columns; Holt-Winters itself (a parameter)
- `ThmObjModel.v` — models/reconciliation/base_models.py: BaseTHModel.__init__; thm.py: __init__, fit, _get_residuals, _get_all_residuals, median_validation. Left out: levels that are not integers; the training libraries and the robust covariance (parameters); _get_residual_matrix is in ThmModel.v
- `PointEqModel.v` — consts.py: TimeSeriesChangePoint.__eq__ and __hash__; the change point classes of the detectors; CUSUMChangePoint.__eq__; CUSUMDetectorModel.__eq__. Left out: NaT times, the repr strings
- `FftModel.v` — detectors/seasonality.py: FFTDetector.get_fft. Left out: rounding of the transform; an empty series
- `MlarFutModel.v` — models/ml_ar.py: the features of the time forecast, the automatic features, the matrix of all rows, _post_process. Left out: normalised future covariates, calls of LightGBM, logging
- `StatUnitModel.v` — detectors/stat_sig_detector.py: the time unit, over sequences of calls. Left out: the scores-only path, seasonality, the split of long series (other models)
- `SearchSpaceModel.v` — utils/parameter_tuning_utils.py and the search spaces and parameter classes of the models. Left out: the search library
- `GmTrainModel.v` — the training loop of the global models: schedules, steps, monitors, evaluation after each epoch, the mode of the network. Left out: the network, its gradients, the optimizer (parameters), logging
- `ProphetLoadModel.v` — the removal of time-zone marks from a serialized Prophet model. Left out: the parser of the library (a parameter), the message logged
- `GmShapeModel.v` — the sizes the networks of the global model are built for, and the features of the whole series joined with the calendar features. Left out: the values of the features; that the layers inside a network fit each other (RnnModel.v)
- `SynthMetaModel.v` — synth_metadata_reader.py: SynthMetadataReader.get_metadata and its two caches over sequences of calls. Left out: where the file is found, convert_dtypes, the index of the tables
- `DetRegModel.v` — detector.py: DetectorModelRegistry over sequences of class statements; isinstance on detector classes and CUSUMDetectorModel's == with other objects. Left out: how Python computes __mro__ (an input), register() of virtual subclasses
- `GmEvalModel.v` — evaluate of global models and their ensembles on collections of series. Left out: the metrics, the network (a parameter), whether a network can be run for zero steps; subclasses of list and dict
- `GmBtModel.v` — globalmodel/backtester.py: GMBackTesterExpandingWindow, from the constructor to the reported errors. Left out: raw_errors, the pool of processes, the state after an exception
- `LoadDataModel.v` — data/utils.py: load_data and load_air_passengers. Left out: reading CSV files, file names with . or .. in them, lower() of letters outside ASCII
- `ThresholdModel.v` — threshold_detector.py: StaticThresholdModel.fit_predict and predict. Left out: names of columns, series of several variables, fit (which only calls fit_predict)
- `PySlice.v` — Python slicing. Left out: steps other than 1

Not modelled:


## Trusted base

- The Coq 8.16.1 kernel (including its `vm_compute` reduction, used for concrete witnesses).
- No axioms of our own. Theorems stated over `Q`, `Z`, `nat`, lists are closed under the global context. Theorems stated over `R` (C06 and others marked so in their file) list only axioms of the standard library: `ClassicalDedekindReals.sig_not_dec`, `ClassicalDedekindReals.sig_forall_dec`, `FunctionalExtensionality.functional_extensionality_dep`, and `Classical_Prop.classic` where real analysis needs it. Every `…Props.v` file ends with `Print Assumptions` for each of its theorems, so the build log shows the list.
- The reading of the Python source: the model is written by hand from the text of `/repo` and was not executed against it. numpy, pandas and scipy primitives are modelled by their documented behaviour; each model definition says which.
- Exact arithmetic: floats are rationals or reals. Rounding, overflow and denormals are outside the model; NaN and infinities are modelled where the comment says so.
