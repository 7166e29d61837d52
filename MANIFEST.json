{
 "claims": [
  {
   "property": "C01",
   "status": "proved",
   "theorems": [
    "C01_runs_exact",
    "C01_raises_only_on_empty",
    "C01_each_true_index_once"
   ],
   "note": "Proved for every boolean list; the failure on an empty list is characterised."
  },
  {
   "property": "C02",
   "status": "proved",
   "theorems": [
    "C02_flags",
    "C02_anomaly_and_caution",
    "C02_interval_times",
    "C02_intervals_raise"
   ],
   "note": "Proved from the mask to the flags and the two interval lists, including when interval construction raises."
  },
  {
   "property": "C03",
   "status": "proved",
   "theorems": [
    "C03_run_probability_exact",
    "C03_run_probability_raises",
    "C03_event_meaning"
   ],
   "note": "Exact arithmetic, independent trials (cov=None). The spec sums over all 2^n outcomes."
  },
  {
   "property": "C04",
   "status": "proved",
   "theorems": [
    "C04_run_probability_range",
    "C04_monotone_in_p",
    "C04_monotone_in_n",
    "C04_antitone_in_m",
    "C04_union_bound",
    "C04_block_bound"
   ],
   "note": "All six inequalities."
  },
  {
   "property": "C05",
   "status": "proved",
   "theorems": [
    "C05_lowest_m_sound",
    "C05_lowest_m_raises",
    "C05_lowest_p_sound",
    "C05_lowest_p_full_length",
    "C05_bracket",
    "C05_lowest_p_succeeds"
   ],
   "note": "Soundness and completeness of both searches; m-th roots enter as any numbers satisfying the defining inequalities; convergence is proved through a Lipschitz bound when 2^max_iter is large enough."
  },
  {
   "property": "C06",
   "status": "partial",
   "theorems": [
    "C06_absolute_agrees_partial",
    "C06_relative_agrees_partial",
    "C06_two_sided_is_disjunction",
    "C06_one_sided_refuted"
   ],
   "note": "Real arithmetic; norm.ppf is any symmetric increasing function. Partial: holds for two-sided tests and one-sided levels up to 1/2; refuted for one-sided levels above 1/2, which the level search does produce for long durations."
  },
  {
   "property": "C07",
   "status": "proved",
   "theorems": [
    "C07_simple",
    "C07_fixed_window",
    "C07_rolling_origin",
    "C07_rolling_rows",
    "C07_simple_defined",
    "C07_rolling_defined",
    "C07_fixed_defined"
   ],
   "note": "Bounds for all three window backtesters, the rows each fold uses for the rolling one, and definedness."
  },
  {
   "property": "C08",
   "status": "proved",
   "theorems": [
    "C08_backtester_offsets",
    "C08_offsets_defined",
    "C08_partition_offsets",
    "C08_partition_folds"
   ],
   "note": "Both offset computations; float linspace is exact here."
  },
  {
   "property": "C09",
   "status": "partial",
   "theorems": [
    "C09_one_score_per_fold_partial",
    "C09_all_failing_raises",
    "C09_average_partial",
    "C09_weighted_refuted",
    "C09_weighted_partial",
    "C09_weighted_nan_refuted"
   ],
   "note": "Partial: one score per fold and the average summary hold; the weighted summary raises when any fold failed, and is not a weighted mean when a score is NaN."
  },
  {
   "property": "C10",
   "status": "partial",
   "theorems": [
    "C10_train_frac_partial",
    "C10_train_size",
    "C10_train_length",
    "C10_frac_size",
    "C10_explicit_test",
    "C10_zero_frac_refuted",
    "C10_rolling_rows"
   ],
   "note": "Partial: train_frac=0.0 is accepted and gives train = test = whole series; everything else is proved, including the rolling partition."
  },
  {
   "property": "C11",
   "status": "partial",
   "theorems": [
    "C11_second_run_refuted",
    "C11_first_run_partial"
   ],
   "note": "Refuted: a second run doubles every error. Partial: the first run gives the row-weighted mean of the fold errors."
  },
  {
   "property": "C12",
   "status": "partial",
   "theorems": [
    "C12_splits_partial",
    "C12_window_partial",
    "C12_defined",
    "C12_stable_is_fixed_point",
    "C12_two_points_refuted",
    "C12_two_point_window_refuted"
   ],
   "note": "Partial: proved from three points (or three points of interest window) on; refuted with two."
  },
  {
   "property": "C13",
   "status": "proved",
   "theorems": [
    "C13_reachable",
    "C13_step",
    "C13_change_points_were_found",
    "C13_normal"
   ],
   "note": "Every history from a fresh model; the detector's findings and the scan statistics are arbitrary inputs."
  },
  {
   "property": "C14",
   "status": "proved",
   "theorems": [
    "C14_round_trip",
    "C14_vectorised_path",
    "C14_step_points"
   ],
   "note": "Round trip of the columns and the split of a call into vectorised and remaining rows. Scores stand for rows."
  },
  {
   "property": "C15",
   "status": "proved",
   "theorems": [
    "C15_scores",
    "C15_scores_only",
    "C15_regular_windows"
   ],
   "note": "Any statistic of the two windows; strictly increasing time stamps, regular or not; the scores-only path uses the same windows."
  },
  {
   "property": "C16",
   "status": "partial",
   "theorems": [
    "C16_split_same_scores_partial",
    "C16_multiple_of_split_refuted",
    "C16_min_change_ignored_refuted",
    "C16_raises_refuted"
   ],
   "note": "Partial: equal scores unless the number of scored points is a multiple of the split length, where every score is zero (refuted for all such inputs). Also refuted: min_perc_change is not passed to the split path; with one control and one test point the split raises."
  },
  {
   "property": "C17",
   "status": "proved",
   "theorems": [
    "C17_padding",
    "C17_response_covers_data"
   ],
   "note": "All boundary positions, and that the response covers the data."
  },
  {
   "property": "C18",
   "status": "partial",
   "theorems": [
    "C18_statsig_partial",
    "C18_statsig_refuted",
    "C18_multi_partial",
    "C18_multi_refuted",
    "C18_rolling_refuted",
    "C18_bocpd_partial",
    "C18_bocpd_refuted",
    "C18_bocpd_trend_refuted",
    "C18_cusum",
    "C18_cusum_new",
    "C18_vcusum_refuted",
    "C18_distance",
    "C18_interval",
    "C18_outlier",
    "C18_multivariate_refuted",
    "C18_prophet_partial",
    "C18_prophet_refuted",
    "C18_static_refuted"
   ],
   "note": "Proved for CUSUM (with its state), distribution distance, interval and outlier detectors; partial for StatSig, MultiStatSig, BOCPD and Prophet (the lost parameters are named); refuted for those, and never possible for rolling statistics, BOCPD trend, vectorised CUSUM, multivariate and static threshold detectors."
  },
  {
   "property": "C19",
   "status": "partial",
   "theorems": [
    "C19_alerting",
    "C19_intervals",
    "C19_covered_partial",
    "C19_last_refuted"
   ],
   "note": "Order, disjointness and maximality proved; coverage proved except for a lone alert at the last row, which is refuted."
  },
  {
   "property": "C20",
   "status": "proved",
   "theorems": [
    "C20_least_warping_path",
    "C20_empty_series",
    "C20_unrestricted"
   ],
   "note": "For every pair of nonempty series and every width, over the code's asymmetric band, with the empty cases separately. The square root is left out."
  },
  {
   "property": "C21",
   "status": "proved",
   "theorems": [
    "C21_lower_bound"
   ],
   "note": "Equal lengths and width at least one, as claimed."
  },
  {
   "property": "C22",
   "status": "proved",
   "theorems": [
    "C22_pruned_search_exact",
    "C22_closest_match",
    "C22_short_windows_raise"
   ],
   "note": "Windows of at least three points: same farthest window, first closest match and distance as the exhaustive search, ties included. With windows of one or two points the search raises (shown)."
  },
  {
   "property": "C23",
   "status": "partial",
   "theorems": [
    "C23_self_zero_partial",
    "C23_wide_symmetric_partial",
    "C23_zero_width_refuted",
    "C23_symmetry_refuted"
   ],
   "note": "Partial: self distance zero for width >= 1 and symmetry when the band covers both series; refuted for width 0 and, in general, for symmetry."
  },
  {
   "property": "C24",
   "status": "proved",
   "theorems": [
    "C24_sorted_permutation",
    "C24_drop_duplicates",
    "C24_unsorted",
    "C24_columns"
   ],
   "note": "Any row type; the sort is stable in the model but no theorem uses that."
  },
  {
   "property": "C25",
   "status": "partial",
   "theorems": [
    "C25_extend_keeps_everything",
    "C25_same_columns_append",
    "C25_validation",
    "C25_rejected_unchanged_refuted"
   ],
   "note": "Multi-column rows with missing cells. Refuted: a rejected extension has already overwritten the receiver. pd.infer_freq is an arbitrary predicate."
  },
  {
   "property": "C26",
   "status": "partial",
   "theorems": [
    "C26_slice_positions_partial",
    "C26_slice_last_partial",
    "C26_slices_rejoin_partial",
    "C26_slice_rows",
    "C26_slices_rejoin_unsorted_refuted",
    "C26_exclude",
    "C26_exclude_rows"
   ],
   "note": "Partial: positions and rejoining hold for series in time order; a series built with sort_by_time=False is re-sorted by every slice, so rejoining is refuted there. Exclusion holds for all."
  },
  {
   "property": "C27",
   "status": "partial",
   "theorems": [
    "C27_series_partial",
    "C27_constant_partial",
    "C27_different_times_rejected",
    "C27_other_name_loses_values_refuted",
    "C27_repeated_times_refuted"
   ],
   "note": "Partial: holds for distinct ordered time stamps and equal column names; refuted with repeated time stamps (rows multiply) and with different column names (all values become NaN)."
  },
  {
   "property": "C28",
   "status": "partial",
   "theorems": [
    "C28_most_common_gap_partial",
    "C28_majority_partial",
    "C28_after_extend_refuted"
   ],
   "note": "Partial: holds whenever the stored rows are in order or the series was built unsorted; refuted after an extend with earlier points (negative frequency)."
  },
  {
   "property": "C29",
   "status": "proved",
   "theorems": [
    "C29_sliding_window",
    "C29_lengths",
    "C29_absent_components"
   ],
   "note": "All six components by name, any number of updates; the length statement needs no order of time stamps."
  },
  {
   "property": "C30",
   "status": "partial",
   "theorems": [
    "C30_last_n_partial",
    "C30_absent_components",
    "C30_zero_refuted"
   ],
   "note": "Partial: holds for n >= 1; refuted for n = 0 (everything is returned)."
  },
  {
   "property": "C31",
   "status": "partial",
   "theorems": [
    "C31_held_points",
    "C31_mean_and_variance",
    "C31_spikes_stale_refuted",
    "C31_first_spikes_partial"
   ],
   "note": "Held points for every sequence of set/extend operations, mean and variance of them. Refuted: spikes are cached at the first reading and never follow the data again."
  },
  {
   "property": "C32",
   "status": "proved",
   "theorems": [
    "C32_percentages",
    "C32_medians",
    "C32_median_percentage",
    "C32_symmetric",
    "C32_scaled_error",
    "C32_probability_scores",
    "C32_probability_missing",
    "C32_frequency",
    "C32_pinball",
    "C32_pinball_levels",
    "C32_means",
    "C32_zero_iff_perfect",
    "C32_ranges",
    "C32_tracking_signal",
    "C32_lengths_checked"
   ],
   "note": "Each metric is the mean of its pointwise errors over the complete pairs; ranges and zero sets follow."
  },
  {
   "property": "C33",
   "status": "partial",
   "theorems": [
    "C33_bounds_partial",
    "C33_smape_refuted",
    "C33_mape_refuted",
    "C33_names_refuted",
    "C33_core_names_partial"
   ],
   "note": "Partial: bounds hold for the metrics listed; refuted for sMAPE, MAPE and one metadata name; the core registry holds metrics that cannot be called with two vectors."
  },
  {
   "property": "C34",
   "status": "proved",
   "theorems": [
    "C34_pointwise",
    "C34_coverage_is_share",
    "C34_wider_covers_more",
    "C34_quantile_minimises_pinball",
    "C34_interval_score"
   ],
   "note": "Share of points covered, monotone under widening, quantile minimises pinball, interval score."
  },
  {
   "property": "C35",
   "status": "proved",
   "theorems": [
    "C35_scores",
    "C35_deseasonalised",
    "C35_only_window",
    "C35_time_based",
    "C35_regular_grid"
   ],
   "note": "Point based and time based windows, expanding windows, when the call raises, and that nothing outside the window matters. Each statistic is specified by medians, quartiles, mean and variance; the z-score is carried as z*|z|."
  },
  {
   "property": "C36",
   "status": "partial",
   "theorems": [
    "C36_repeat_partial",
    "C36_repeat_time_partial",
    "C36_history_refuted",
    "C36_window_refuted"
   ],
   "note": "Refuted twice: the caller's history is extended in place, and a time based window is overwritten by its number of points. Proved for point based calls without history and for the time based loop."
  },
  {
   "property": "C37",
   "status": "proved",
   "theorems": [
    "C37_merge"
   ],
   "note": "Proved: the merged list is exactly the distribution of the entries."
  },
  {
   "property": "C38",
   "status": "partial",
   "theorems": [
    "C38_vectors",
    "C38_mass_partial",
    "C38_mass_refuted",
    "C38_same"
   ],
   "note": "Proved what both vectors are (shares, and increments of the interpolated distribution function); that the interpolated one sums to 1 is refuted, and proved when both lists reach the same maximum."
  },
  {
   "property": "C39",
   "status": "proved",
   "theorems": [
    "C39_lengths"
   ],
   "note": "Proved from the series: the reported lags are the fundamental ones among the significant lags of the differenced series."
  },
  {
   "property": "C40",
   "status": "proved",
   "theorems": [
    "C40_points"
   ],
   "note": "Proved with the spikes specified as differences of smoothed values and significance through their z-scores."
  },
  {
   "property": "C41",
   "status": "proved",
   "theorems": [
    "C41_fences",
    "C41_scores"
   ],
   "note": "Proved with the frequency inference, interpolation and decomposition as parameters; the daily grid is modelled. Scores are proved to lie outside [0,1] exactly for outliers when the residuals have spread; without spread no score is finite."
  },
  {
   "property": "C42",
   "status": "proved",
   "theorems": [
    "C42_independent",
    "C42_hourly",
    "C42_refused",
    "C42_aggregated"
   ],
   "note": "Proved with and without aggregation, from the observations of each calendar day. Sums to one unless the day's total is zero."
  },
  {
   "property": "C43",
   "status": "partial",
   "theorems": [
    "C43_univariate",
    "C43_multivariate",
    "C43_raises",
    "C43_first_refuted",
    "C43_short_refuted"
   ],
   "note": "Each tested window, its statistic, variance and decision are proved from the cleaned values; that the first full window is tested is refuted."
  },
  {
   "property": "C44",
   "status": "proved",
   "theorems": [
    "C44_exact_posterior",
    "C44_distribution"
   ],
   "note": "Posterior as share of the total weight of all 2^i histories. In this recursion a point is scored by the run it finds and then may start a new run of which it is the first point; the specification states that process."
  },
  {
   "property": "C45",
   "status": "proved",
   "theorems": [
    "C45_aggregated",
    "C45_lagged",
    "C45_probabilities"
   ],
   "note": "Both reporting modes, threshold rule, range, and the failure for lags not below the length."
  },
  {
   "property": "C46",
   "status": "partial",
   "theorems": [
    "C46_matrix_lagged_partial",
    "C46_matrix_aggregated_refuted"
   ],
   "note": "Holds without aggregation; with aggregation (the default) refuted for every row of every run."
  },
  {
   "property": "C47",
   "status": "partial",
   "theorems": [
    "C47_kats_forecast",
    "C47_kats_fit_partial",
    "C47_kats_fit_refuted",
    "C47_names",
    "C47_registered",
    "C47_weights",
    "C47_forecast"
   ],
   "note": "Weights and weighted forecasts for the weighted average ensemble and for forecast() of the decomposition based one. fit()/predict() pair weights and forecasts by position: proved for names without the reserved mark, refuted with."
  },
  {
   "property": "C48",
   "status": "proved",
   "theorems": [
    "C48_kats_aggregate",
    "C48_median",
    "C48_order"
   ],
   "note": "Both ensembles; the order of learners is irrelevant."
  },
  {
   "property": "C49",
   "status": "partial",
   "theorems": [
    "C49_forecast_partial",
    "C49_fit_partial",
    "C49_fit_refuted",
    "C49_plain_forecast",
    "C49_plain_predict"
   ],
   "note": "Holds for forecast(); refuted for fit(), which trains the extra seasonal learners on the deseasonalised series."
  },
  {
   "property": "C50",
   "status": "proved",
   "theorems": [
    "C50_coherent",
    "C50_times"
   ],
   "note": "Every method, every horizon, and any requested levels; also that a level k forecast carries the time of the last level 1 forecast it sums."
  },
  {
   "property": "C51",
   "status": "proved",
   "theorems": [
    "C51_lcm",
    "C51_summation_matrix",
    "C51_rows"
   ],
   "note": "Least common multiple and the summation matrix."
  },
  {
   "property": "C52",
   "status": "proved",
   "theorems": [
    "C52_fixed_point",
    "C52_predict"
   ],
   "note": "Bottom-up and all weighted methods (diagonal and full weights) under the contract of an exact solver; horizons of whole periods."
  },
  {
   "property": "C53",
   "status": "partial",
   "theorems": [
    "C53_weekday",
    "C53_map",
    "C53_flags",
    "C53_quarter_end_refuted",
    "C53_season_refuted",
    "C53_weekofmonth",
    "C53_weekofmonth_zone_refuted",
    "C53_time"
   ],
   "note": "Weekday, maps, flags and week of month without time zone proved for all dates; quarter end, seasons and week of month with a time zone refuted."
  },
  {
   "property": "C54",
   "status": "partial",
   "theorems": [
    "C54_shared_refuted",
    "C54_single_partial",
    "C54_metadata",
    "C54_metadata_last"
   ],
   "note": "Refuted for lists; proved for single series and for detector results."
  },
  {
   "property": "C55",
   "status": "partial",
   "theorems": [
    "C55_line",
    "C55_contains_partial",
    "C55_late_partial",
    "C55_constant",
    "C55_refuted"
   ],
   "note": "The interval is the forecast -+ quantile times the least-squares line; containment proved for late horizons, non-decreasing deviations and constant ones, refuted in general."
  },
  {
   "property": "C56",
   "status": "proved",
   "theorems": [
    "C56_settings",
    "C56_blocks",
    "C56_errors",
    "C56_projection",
    "C56_ensemble"
   ],
   "note": "Proved."
  },
  {
   "property": "C57",
   "status": "partial",
   "theorems": [
    "C57_forecast",
    "C57_last",
    "C57_percentile_range",
    "C57_raises",
    "C57_history",
    "C57_unfitted_refuted"
   ],
   "note": "Proved; predicting before fitting is refuted to raise."
  },
  {
   "property": "C58",
   "status": "partial",
   "theorems": [
    "C58_raises",
    "C58_result",
    "C58_distinct_partial",
    "C58_duplicates_refuted"
   ],
   "note": "Raising and the result proved; distinctness of the resulting labels proved under a condition, refuted in general."
  },
  {
   "property": "C59",
   "status": "proved",
   "theorems": [
    "C59_preorder",
    "C59_consistent",
    "C59_equal",
    "C59_release",
    "C59_epoch",
    "C59_stages",
    "C59_text"
   ],
   "note": "Proved."
  },
  {
   "property": "C60",
   "status": "partial",
   "theorems": [
    "C60_repeatable_with_duration_partial",
    "C60_repeatable_refuted"
   ],
   "note": "Partial: holds when a duration is given; refuted with automatic duration (the first call stores the duration, the second takes the other branch)."
  },
  {
   "property": "C61",
   "status": "partial",
   "theorems": [
    "C61_auto_duration_error_refuted",
    "C61_auto_duration_error_partial"
   ],
   "note": "Partial: refuted at alpha=0.05, n=24, r_tol=0.1; holds when the stored level does not exceed alpha."
  },
  {
   "property": "C62",
   "status": "partial",
   "theorems": [
    "C62_alignment_partial",
    "C62_offset_refuted"
   ],
   "note": "Partial: holds when offset equals the gap (fixed window, or offset 0); refuted for simple/rolling with an offset."
  },
  {
   "property": "C64",
   "status": "proved",
   "theorems": [
    "C64_timestamp_partition"
   ],
   "note": "Missing bounds are None."
  },
  {
   "property": "C65",
   "status": "proved",
   "theorems": [
    "C65_best_split",
    "C65_regression_direction"
   ],
   "note": "Fixed points on the clipped boundary are not covered (there the reported point is the clipped one)."
  },
  {
   "property": "C66",
   "status": "partial",
   "theorems": [
    "C66_tiles_partial",
    "C66_zero_rows_partial",
    "C66_raises_only_partial",
    "C66_crash_refuted"
   ],
   "note": "Partial: every returned result tiles the data; refuted by a crash whose condition is characterised."
  },
  {
   "property": "C67",
   "status": "partial",
   "theorems": [
    "C67_clears_partial",
    "C67_one_direction",
    "C67_constant_history_refuted"
   ],
   "note": "Partial: holds when both directions are watched or the baseline varies; refuted for a constant baseline and one watched direction."
  },
  {
   "property": "C68",
   "status": "partial",
   "theorems": [
    "C68_long_history_unchanged_partial",
    "C68_short_history_extended_refuted",
    "C68_scores_only_refuted",
    "C68_second_call_differs_refuted"
   ],
   "note": "Partial: a long enough history is untouched; refuted for short histories and always for anomaly_scores_only."
  },
  {
   "property": "C69",
   "status": "proved",
   "theorems": [
    "C69_inplace",
    "C69_absent_components",
    "C69_order"
   ],
   "note": "Point-wise for every component, plus commutation."
  },
  {
   "property": "C70",
   "status": "partial",
   "theorems": [
    "C70_appends_partial",
    "C70_mismatch_unchanged",
    "C70_failed_validation_refuted"
   ],
   "note": "Partial: appends, or refuses responses of different shape unchanged; refuted when a validation fails after the first component."
  },
  {
   "property": "C71",
   "status": "proved",
   "theorems": [
    "C71_pooled_statistic",
    "C71_shift_invariant",
    "C71_scale_invariant",
    "C71_swap_negates",
    "C71_clipping"
   ],
   "note": "Over R with sqrt."
  },
  {
   "property": "C72",
   "status": "partial",
   "theorems": [
    "C72_score_sign",
    "C72_direction_partial",
    "C72_negative_baseline_refuted"
   ],
   "note": "Partial: refuted for negative control means, where the direction is inverted."
  },
  {
   "property": "C73",
   "status": "partial",
   "theorems": [
    "C73_intervals",
    "C73_constant_refuted",
    "C73_single_point_refuted"
   ],
   "note": "The interval laws hold; refuted: identical constant windows, and any comparison with a one-point window, are reported significant."
  },
  {
   "property": "C74",
   "status": "proved",
   "theorems": [
    "C74_rescaled"
   ],
   "note": "For every symmetric distribution; scipy's t distribution and statsmodels' correction are abstracted by their properties."
  },
  {
   "property": "C75",
   "status": "partial",
   "theorems": [
    "C75_same_score_partial",
    "C75_uncorrected_refuted"
   ],
   "note": "Partial: holds with corrected scores, refuted without."
  },
  {
   "property": "C76",
   "status": "proved",
   "theorems": [
    "C76_spikes",
    "C76_few_spikes",
    "C76_upward_only"
   ],
   "note": "Over R; upward deviations only, as coded."
  },
  {
   "property": "C77",
   "status": "proved",
   "theorems": [
    "C77_windows_considered",
    "C77_each_window_once"
   ],
   "note": "Exact characterisation, each window once."
  },
  {
   "property": "C78",
   "status": "proved",
   "theorems": [
    "C78_reported_fraction",
    "C78_equal_distances_silent",
    "C78_not_every_series"
   ],
   "note": "For any value of the median."
  },
  {
   "property": "C79",
   "status": "partial",
   "theorems": [
    "C79_repeatable_partial",
    "C79_repeat_refuted"
   ],
   "note": "Partial: holds unless exactly one series is active, refuted there."
  },
  {
   "property": "C80",
   "status": "partial",
   "theorems": [
    "C80_missing_ignored_partial",
    "C80_percentage_refuted",
    "C80_coverage_refuted",
    "C80_tracking_refuted"
   ],
   "note": "Partial: eight metrics; refuted for percentage metrics, coverage and the tracking signal."
  },
  {
   "property": "C81",
   "status": "partial",
   "theorems": [
    "C81_actual_direction_partial",
    "C81_documented_refuted",
    "C81_many_thresholds"
   ],
   "note": "Refuted as documented; the direction actually computed and the block structure are proved."
  },
  {
   "property": "C82",
   "status": "partial",
   "theorems": [
    "C82_rolling_coverage",
    "C82_edges_refuted"
   ],
   "note": "Exact away from the ends, range everywhere, refuted at the ends."
  },
  {
   "property": "C83",
   "status": "partial",
   "theorems": [
    "C83_weighted_mae",
    "C83_weighted_mse_partial",
    "C83_weighted_mse_missing_refuted",
    "C83_weighted_errors_add_up"
   ],
   "note": "Absolute error for all patterns of missing values; squared error for complete data only (refuted otherwise)."
  },
  {
   "property": "C84",
   "status": "partial",
   "theorems": [
    "C84_unit_free_partial",
    "C84_mase_refuted"
   ],
   "note": "Five metrics; refuted for the scaled error."
  },
  {
   "property": "C85",
   "status": "partial",
   "theorems": [
    "C85_prior_mean_refuted",
    "C85_conjugate_partial"
   ],
   "note": "Variance and run windows right; the prior mean is ignored, for all data."
  },
  {
   "property": "C86",
   "status": "proved",
   "theorems": [
    "C86_conjugate"
   ],
   "note": "Proved for all run lengths."
  },
  {
   "property": "C87",
   "status": "partial",
   "theorems": [
    "C87_predictive_partial",
    "C87_first_point_refuted"
   ],
   "note": "Partial: the likelihood of the second point is missing from the score."
  },
  {
   "property": "C88",
   "status": "partial",
   "theorems": [
    "C88_new_run_is_prior",
    "C88_lag_zero_refuted",
    "C88_aggregated_at_least_prior"
   ],
   "note": "Refuted for lag 0, whose probabilities are the prior for all data; aggregated probabilities never fall below the prior."
  },
  {
   "property": "C89",
   "status": "proved",
   "theorems": [
    "C89_more_data",
    "C89_density_units"
   ],
   "note": "Proved; also independence of the unit of the densities."
  },
  {
   "property": "C90",
   "status": "partial",
   "theorems": [
    "C90_padding_ignored_refuted",
    "C90_repeats_last_refuted",
    "C90_whole_periods_partial",
    "C90_too_few"
   ],
   "note": "Refuted: with a horizon that is not a whole number of periods the padding enters the output. Proved for the whole periods."
  },
  {
   "property": "C91",
   "status": "proved",
   "theorems": [
    "C91_weights_positive",
    "C91_least_squares",
    "C91_solvable",
    "C91_weights"
   ],
   "note": "Minimality, positivity of the weights and solvability; which residuals each weight comes from."
  },
  {
   "property": "C92",
   "status": "proved",
   "theorems": [
    "C92_blocks",
    "C92_compose"
   ],
   "note": "Proved."
  },
  {
   "property": "C93",
   "status": "partial",
   "theorems": [
    "C93_median_refuted",
    "C93_median_partial"
   ],
   "note": "Refuted for coherence; what the method computes is proved."
  },
  {
   "property": "C94",
   "status": "partial",
   "theorems": [
    "C94_median_partial",
    "C94_weighted_partial",
    "C94_median_refuted",
    "C94_multiplicative_refuted"
   ],
   "note": "Proved when all bounds are given and non-zero; refuted for genuine zero bounds and for the zero placeholders of the multiplicative decomposition."
  },
  {
   "property": "C95",
   "status": "partial",
   "theorems": [
    "C95_dates",
    "C95_weighted_dates",
    "C95_off_calendar_refuted"
   ],
   "note": "Proved on the calendar; off it no forecast is produced."
  },
  {
   "property": "C96",
   "status": "proved",
   "theorems": [
    "C96_reseasonalize",
    "C96_exact",
    "C96_accepted"
   ],
   "note": "Proved."
  },
  {
   "property": "C97",
   "status": "partial",
   "theorems": [
    "C97_metric_partial",
    "C97_seasonal_refuted"
   ],
   "note": "Holds without seasonality only."
  },
  {
   "property": "C98",
   "status": "partial",
   "theorems": [
    "C98_iqr_base_partial",
    "C98_iqr_base_refuted"
   ],
   "note": "Proved for point based windows; the time based loop always uses 1.5."
  },
  {
   "property": "C99",
   "status": "proved",
   "theorems": [
    "C99_units",
    "C99_relative"
   ],
   "note": "Proved for all six statistics."
  },
  {
   "property": "C100",
   "status": "partial",
   "theorems": [
    "C100_direction_partial",
    "C100_constant_refuted",
    "C100_negative_refuted",
    "C100_relative_partial"
   ],
   "note": "Proved for windows with spread, and for the relative deviation with a positive median."
  },
  {
   "property": "C101",
   "status": "proved",
   "theorems": [
    "C101_compared",
    "C101_raises"
   ],
   "note": "Proved for rows in strict time order; the exact condition for raising is proved for the distances other than Jensen-Shannon."
  },
  {
   "property": "C102",
   "status": "partial",
   "theorems": [
    "C102_swap_partial",
    "C102_swap_refuted"
   ],
   "note": "Proved for different numbers of distinct values; refuted for equally many."
  },
  {
   "property": "C103",
   "status": "proved",
   "theorems": [
    "C103_trend"
   ],
   "note": "Proved."
  },
  {
   "property": "C104",
   "status": "partial",
   "theorems": [
    "C104_peaks",
    "C104_accounted_refuted"
   ],
   "note": "What is reported is proved exactly; that every dropped peak is a near multiple of a reported one is refuted."
  },
  {
   "property": "C105",
   "status": "proved",
   "theorems": [
    "C105_units",
    "C105_constant"
   ],
   "note": "Proved."
  },
  {
   "property": "C106",
   "status": "partial",
   "theorems": [
    "C106_examined_partial",
    "C106_examined_refuted"
   ],
   "note": "Proved for regular series; refuted for others."
  },
  {
   "property": "C107",
   "status": "partial",
   "theorems": [
    "C107_removed",
    "C107_raises",
    "C107_own_outliers_refuted",
    "C107_before"
   ],
   "note": "Positionwise result and exact condition for raising proved; that the detector's own outliers can be removed is refuted."
  },
  {
   "property": "C108",
   "status": "partial",
   "theorems": [
    "C108_units_partial",
    "C108_multiplicative_refuted"
   ],
   "note": "Proved for additive decompositions, refuted for multiplicative ones."
  },
  {
   "property": "C109",
   "status": "proved",
   "theorems": [
    "C109_schedule",
    "C109_off_grid"
   ],
   "note": "Proved, with the model as a parameter."
  },
  {
   "property": "C110",
   "status": "partial",
   "theorems": [
    "C110_cleaned_partial",
    "C110_symmetric_refuted",
    "C110_constant_refuted"
   ],
   "note": "Refuted on the lower side and for constant columns."
  },
  {
   "property": "C111",
   "status": "partial",
   "theorems": [
    "C111_level_refuted",
    "C111_level_partial"
   ],
   "note": "Refuted for every strictly decreasing tail function."
  },
  {
   "property": "C112",
   "status": "partial",
   "theorems": [
    "C112_order_partial",
    "C112_metrics_refuted"
   ],
   "note": "Order proved; the p-value is listed as a metric."
  },
  {
   "property": "C113",
   "status": "partial",
   "theorems": [
    "C113_dates_refuted",
    "C113_hours_refuted",
    "C113_dates_partial"
   ],
   "note": "Refuted without aggregation, proved with it."
  },
  {
   "property": "C114",
   "status": "proved",
   "theorems": [
    "C114_flagged"
   ],
   "note": "Proved with the covariance estimate and the chi-square tail as parameters."
  },
  {
   "property": "C115",
   "status": "partial",
   "theorems": [
    "C115_typical_refuted"
   ],
   "note": "Refuted for every series: the typical pattern itself is 23 times itself away from the centre."
  },
  {
   "property": "C116",
   "status": "partial",
   "theorems": [
    "C116_weekday_refuted",
    "C116_zero_refuted",
    "C116_frequency",
    "C116_runs_partial"
   ],
   "note": "Refuted (weekday without a complete day; day with total zero); proved when every weekday has a kept day and values are positive."
  },
  {
   "property": "C117",
   "status": "proved",
   "theorems": [
    "C117_units"
   ],
   "note": "Proved for all aggregations."
  },
  {
   "property": "C118",
   "status": "partial",
   "theorems": [
    "C118_level_refuted",
    "C118_reported_refuted"
   ],
   "note": "Refuted: the level is never used; 0.05 always is."
  },
  {
   "property": "C119",
   "status": "proved",
   "theorems": [
    "C119_reported"
   ],
   "note": "Proved."
  },
  {
   "property": "C120",
   "status": "proved",
   "theorems": [
    "C120_tau",
    "C120_overall",
    "C120_units"
   ],
   "note": "Proved; units with any initial level of the smoothing that is affine in the data."
  },
  {
   "property": "C121",
   "status": "partial",
   "theorems": [
    "C121_causal",
    "C121_latest_refuted",
    "C121_anchor_refuted"
   ],
   "note": "Independence of later data proved; the latest observation is refuted to have any influence, in both modes."
  },
  {
   "property": "C122",
   "status": "partial",
   "theorems": [
    "C122_anchor",
    "C122_ignored",
    "C122_weekly_refuted"
   ],
   "note": "What is tested is proved; refuted that it is a full window."
  },
  {
   "property": "C123",
   "status": "proved",
   "theorems": [
    "C123_top",
    "C123_anchor"
   ],
   "note": "Proved in both modes."
  },
  {
   "property": "C124",
   "status": "partial",
   "theorems": [
    "C124_univariate_refuted",
    "C124_multivariate_refuted",
    "C124_complete_partial"
   ],
   "note": "Refuted for missing values; proved that exactly the complete metrics of a multivariate series are tested."
  },
  {
   "property": "C125",
   "status": "proved",
   "theorems": [
    "C125_circle"
   ],
   "note": "Proved over the reals."
  },
  {
   "property": "C126",
   "status": "partial",
   "theorems": [
    "C126_caller_partial",
    "C126_caller_refuted"
   ],
   "note": "Refuted for outlier steps with removal; proved for all other pipelines."
  },
  {
   "property": "C127",
   "status": "partial",
   "theorems": [
    "C127_steps_refuted",
    "C127_usable_partial"
   ],
   "note": "Refuted for every detector but MKDetector and for TsFeatures; proved usable: MKDetector and the models."
  },
  {
   "property": "C128",
   "status": "partial",
   "theorems": [
    "C128_coverage_refuted",
    "C128_low_level_refuted",
    "C128_monotone"
   ],
   "note": "Refuted: level p covers 2p-1, and below one half the interval is inverted; widening with the level proved."
  },
  {
   "property": "C129",
   "status": "partial",
   "theorems": [
    "C129_dates_partial",
    "C129_off_grid_refuted"
   ],
   "note": "Proved when the last date is on the grid of the frequency; refuted otherwise."
  },
  {
   "property": "C130",
   "status": "proved",
   "theorems": [
    "C130_bands",
    "C130_levels"
   ],
   "note": "Proved; the quantile of the t distribution is a parameter."
  },
  {
   "property": "C131",
   "status": "partial",
   "theorems": [
    "C131_pool_refuted",
    "C131_one_worker"
   ],
   "note": "Refuted for one process per path; a single worker equals the sequential run."
  },
  {
   "property": "C132",
   "status": "partial",
   "theorems": [
    "C132_first_refuted",
    "C132_spaced_partial"
   ],
   "note": "Refuted for the first row; proved for the rest."
  },
  {
   "property": "C133",
   "status": "partial",
   "theorems": [
    "C133_volume",
    "C133_area_partial",
    "C133_area_refuted",
    "C133_magnitude"
   ],
   "note": "Formulas proved; area under the excess proved for even spacing, refuted with gaps."
  },
  {
   "property": "C134",
   "status": "partial",
   "theorems": [
    "C134_raises_refuted",
    "C134_overall_partial"
   ],
   "note": "Refuted without alerts; proved with."
  },
  {
   "property": "C135",
   "status": "partial",
   "theorems": [
    "C135_causal",
    "C135_roc_refuted",
    "C135_rsi_refuted"
   ],
   "note": "Proved for every feature with windows of at least one row and an index from 0; refuted for ROC with n = 0 and for RSI with another index."
  },
  {
   "property": "C136",
   "status": "partial",
   "theorems": [
    "C136_lag",
    "C136_mom",
    "C136_ma",
    "C136_ma_zero",
    "C136_roc_partial",
    "C136_roc_refuted"
   ],
   "note": "Proved for LAG, MOM and MA; ROC proved to compare n - 1 rows back and refuted against its documentation."
  },
  {
   "property": "C137",
   "status": "proved",
   "theorems": [
    "C137_ema",
    "C137_within",
    "C137_constant",
    "C137_macd_constant",
    "C137_macd_diff"
   ],
   "note": "Proved; the pandas loop (adjust, no gaps ignored) is modelled."
  },
  {
   "property": "C138",
   "status": "proved",
   "theorems": [
    "C138_rsi_range",
    "C138_rsi_full",
    "C138_tsi_range"
   ],
   "note": "Proved."
  },
  {
   "property": "C139",
   "status": "partial",
   "theorems": [
    "C139_columns",
    "C139_columns_refuted"
   ],
   "note": "Proved for the features whose label names the column; refuted for EMA, TRIX, TSI and RSI."
  },
  {
   "property": "C140",
   "status": "proved",
   "theorems": [
    "C140_bands",
    "C140_missing"
   ],
   "note": "Proved over the reals."
  },
  {
   "property": "C141",
   "status": "proved",
   "theorems": [
    "C141_training",
    "C141_no_leak",
    "C141_step"
   ],
   "note": "Proved."
  },
  {
   "property": "C142",
   "status": "partial",
   "theorems": [
    "C142_predict_partial",
    "C142_count_refuted",
    "C142_stale_refuted"
   ],
   "note": "Refuted in number and when the last row is incomplete; the last number proved otherwise."
  },
  {
   "property": "C143",
   "status": "partial",
   "theorems": [
    "C143_forecast_partial",
    "C143_exact_partial",
    "C143_steps_refuted",
    "C143_day_refuted",
    "C143_missing_refuted"
   ],
   "note": "Proved for the last number (complete series on a daily grid, more than a day, a curve that is injective on the minutes); refuted for the others, for less data and for missing values."
  },
  {
   "property": "C144",
   "status": "partial",
   "theorems": [
    "C144_features",
    "C144_dynamic_partial",
    "C144_dynamic_refuted"
   ],
   "note": "What is learnt and returned proved for complete series; the error for a right regressor is given exactly (zero for step 1)."
  },
  {
   "property": "C145",
   "status": "proved",
   "theorems": [
    "C145_exists",
    "C145_raises",
    "C145_independent",
    "C145_fresh"
   ],
   "note": "Proved for all histories."
  },
  {
   "property": "C146",
   "status": "partial",
   "theorems": [
    "C146_failure_partial",
    "C146_results",
    "C146_metric_refuted",
    "C146_failure_refuted"
   ],
   "note": "Results proved; a failing evaluation is refuted to leave the run unchanged (labels), predictions and results proved unchanged."
  },
  {
   "property": "C147",
   "status": "partial",
   "theorems": [
    "C147_arguments",
    "C147_values",
    "C147_rows_partial",
    "C147_rows_refuted",
    "C147_caller_refuted"
   ],
   "note": "Arguments and residuals proved; returned rows proved to be those with a residual, refuted to be all; the caller's residuals lose rows."
  },
  {
   "property": "C148",
   "status": "partial",
   "theorems": [
    "C148_training",
    "C148_default_refuted",
    "C148_constant_refuted",
    "C148_fit"
   ],
   "note": "Proved: strictly between the quantiles; refuted for the default levels."
  },
  {
   "property": "C63",
   "status": "partial",
   "theorems": [
    "C63_level_refuted",
    "C63_level_partial"
   ],
   "note": "Refuted for all sample sizes, proportions and levels; the excess of the one-sided tests is bounded by the probability of one outcome."
  },
  {
   "property": "C149",
   "status": "partial",
   "theorems": [
    "C149_pvalue_lower",
    "C149_pvalue_refuted",
    "C149_upper_agrees",
    "C149_lower_partial",
    "C149_lower_refuted",
    "C149_two_sided_refuted"
   ],
   "note": "Reported value proved for the lower test and refuted (too small by one outcome) for the upper one; decision agrees for the upper test, one direction for the lower, refuted otherwise."
  },
  {
   "property": "C150",
   "status": "partial",
   "theorems": [
    "C150_documented_refuted",
    "C150_rows_partial"
   ],
   "note": "Documented call refuted; the accepted calls proved exactly."
  },
  {
   "property": "C151",
   "status": "partial",
   "theorems": [
    "C151_rows_partial",
    "C151_step_refuted"
   ],
   "note": "Proved exactly; that the last step of each segment rises by the trend too is refuted (C151_step_refuted): the step into the next segment is not raised."
  },
  {
   "property": "C152",
   "status": "proved",
   "theorems": [
    "C152_moving_average",
    "C152_spikes"
   ],
   "note": "Proved."
  },
  {
   "property": "C153",
   "status": "partial",
   "theorems": [
    "C153_accepted",
    "C153_levels",
    "C153_anomaly_partial",
    "C153_anomaly_refuted",
    "C153_period_refuted",
    "C153_length_refuted"
   ],
   "note": "Accepted calls and levels proved; anomalies on change points and first row, the period and the lengthening refuted."
  },
  {
   "property": "C154",
   "status": "partial",
   "theorems": [
    "C154_trend_partial",
    "C154_first_row_refuted",
    "C154_seed_refuted"
   ],
   "note": "Proved for change points after the first row; first row and seed refuted."
  },
  {
   "property": "C155",
   "status": "proved",
   "theorems": [
    "C155_equation",
    "C155_unit_roots"
   ],
   "note": "Proved for all orders, lengths, burn-ins and unit roots."
  },
  {
   "property": "C156",
   "status": "partial",
   "theorems": [
    "C156_additive",
    "C156_order",
    "C156_multiplicative_refuted",
    "C156_multiplicative",
    "C156_trend",
    "C156_season"
   ],
   "note": "Proved; leading multiplicative components refuted to have an effect."
  },
  {
   "property": "C157",
   "status": "partial",
   "theorems": [
    "C157_independent_refuted",
    "C157_latest_partial",
    "C157_names_partial"
   ],
   "note": "Refuted with a two-step history; proved for the extractor constructed last, and one direction for the names of the others."
  },
  {
   "property": "C158",
   "status": "partial",
   "theorems": [
    "C158_reports",
    "C158_raises",
    "C158_order_refuted",
    "C158_keyword_refuted"
   ],
   "note": "Proved for a first extractor (with C157 for the others); order of a list and single features of opt-in groups refuted."
  },
  {
   "property": "C159",
   "status": "partial",
   "theorems": [
    "C159_crossing_partial",
    "C159_crossing_refuted",
    "C159_binarize"
   ],
   "note": "Crossings proved when no value equals the median, refuted otherwise; binarised mean proved."
  },
  {
   "property": "C160",
   "status": "partial",
   "theorems": [
    "C160_level_shift",
    "C160_step_refuted"
   ],
   "note": "Position and maximum proved; the size is the step divided by the window, refuted as its height."
  },
  {
   "property": "C161",
   "status": "partial",
   "theorems": [
    "C161_flat_spots",
    "C161_longest_refuted"
   ],
   "note": "Proved per bin; refuted as longest run, for every constant series."
  },
  {
   "property": "C162",
   "status": "partial",
   "theorems": [
    "C162_firstmin",
    "C162_firstzero_partial",
    "C162_firstzero_refuted"
   ],
   "note": "First minimum proved; first zero refuted in three ways, proved otherwise."
  },
  {
   "property": "C163",
   "status": "partial",
   "theorems": [
    "C163_features_partial",
    "C163_short_refuted",
    "C163_window_refuted",
    "C163_roc_refuted"
   ],
   "note": "Means proved for long enough series; short series and window one give seven NaN; rate of change refuted (off by one row)."
  },
  {
   "property": "C164",
   "status": "partial",
   "theorems": [
    "C164_pieces_partial",
    "C164_window_refuted",
    "C164_units"
   ],
   "note": "Pieces proved (sizes at most the window and at most one apart) for windows of two or more; window one refuted; units proved."
  },
  {
   "property": "C165",
   "status": "partial",
   "theorems": [
    "C165_counts",
    "C165_days_partial",
    "C165_days_refuted",
    "C165_weekdays",
    "C165_span"
   ],
   "note": "Proved but for the number of days."
  },
  {
   "property": "C166",
   "status": "partial",
   "theorems": [
    "C166_columns",
    "C166_names",
    "C166_period",
    "C166_offset_refuted"
   ],
   "note": "Proved but for the offset zero."
  },
  {
   "property": "C167",
   "status": "partial",
   "theorems": [
    "C167_fresh_partial",
    "C167_stale_refuted",
    "C167_second_refuted",
    "C167_history_refuted",
    "C167_twice_refuted"
   ],
   "note": "Proved for a new model, raising included; refuted in four ways for used models and for the caller's arguments."
  },
  {
   "property": "C168",
   "status": "partial",
   "theorems": [
    "C168_aligned_partial",
    "C168_history_refuted",
    "C168_later_refuted",
    "C168_position_refuted"
   ],
   "note": "Alignment proved for regular series with training over whole steps; predict on other data and the caller's history refuted."
  },
  {
   "property": "C169",
   "status": "partial",
   "theorems": [
    "C169_rows_partial",
    "C169_one_step_refuted",
    "C169_off_grid_refuted"
   ],
   "note": "Rows proved with history or for two and more steps; one step without history always raises; a last time off the grid raises."
  },
  {
   "property": "C170",
   "status": "proved",
   "theorems": [
    "C170_least"
   ],
   "note": ""
  },
  {
   "property": "C171",
   "status": "proved",
   "theorems": [
    "C171_affine",
    "C171_exact"
   ],
   "note": ""
  },
  {
   "property": "C172",
   "status": "proved",
   "theorems": [
    "C172_middle",
    "C172_nested",
    "C172_exact",
    "C172_width",
    "C172_wider"
   ],
   "note": ""
  },
  {
   "property": "C173",
   "status": "partial",
   "theorems": [
    "C173_season_partial",
    "C173_history_partial",
    "C173_history_refuted"
   ],
   "note": "Proved without history; with history the phase is proved to be that of the length, so right exactly when the season divides the length; refuted for every other length."
  },
  {
   "property": "C174",
   "status": "proved",
   "theorems": [
    "C174_order"
   ],
   "note": ""
  },
  {
   "property": "C175",
   "status": "partial",
   "theorems": [
    "C175_exact_partial",
    "C175_one_step_refuted"
   ],
   "note": "Proved for two and more steps; one step raises."
  },
  {
   "property": "C176",
   "status": "proved",
   "theorems": [
    "C176_mean",
    "C176_half_slope"
   ],
   "note": ""
  },
  {
   "property": "C177",
   "status": "proved",
   "theorems": [
    "C177_middle",
    "C177_wider"
   ],
   "note": ""
  },
  {
   "property": "C178",
   "status": "partial",
   "theorems": [
    "C178_seasonal",
    "C178_season_partial",
    "C178_small_refuted",
    "C178_history"
   ],
   "note": "Proved for seasons away from zero; refuted where the log announces the fall-back."
  },
  {
   "property": "C179",
   "status": "proved",
   "theorems": [
    "C179_checked",
    "C179_least",
    "C179_periodic",
    "C179_short"
   ],
   "note": ""
  },
  {
   "property": "C180",
   "status": "partial",
   "theorems": [
    "C180_exact_partial",
    "C180_level_refuted",
    "C180_constant_refuted"
   ],
   "note": "Waves exact; the mean subtracted before the fit is never added back."
  },
  {
   "property": "C181",
   "status": "partial",
   "theorems": [
    "C181_fitted",
    "C181_ahead_partial",
    "C181_time_refuted"
   ],
   "note": "Fitted values proved; forecasts proved when no equation depends on time; in general off by the trend over T - 1 steps."
  },
  {
   "property": "C182",
   "status": "partial",
   "theorems": [
    "C182_again",
    "C182_prefix",
    "C182_history",
    "C182_again_refuted"
   ],
   "note": "All sequences proved for calls without history; the second call with history raises."
  },
  {
   "property": "C183",
   "status": "partial",
   "theorems": [
    "C183_mean",
    "C183_variance",
    "C183_units_refuted"
   ],
   "note": "Means, variances proved; a smaller unit makes the prior of the other equations looser instead of tighter."
  },
  {
   "property": "C184",
   "status": "partial",
   "theorems": [
    "C184_rows",
    "C184_history_partial",
    "C184_blank_refuted",
    "C184_alpha_refuted"
   ],
   "note": "Without history proved; with history the first k + 1 rows are blanked, future ones included when the data are short, and the bounds of the history ignore alpha."
  },
  {
   "property": "C185",
   "status": "partial",
   "theorems": [
    "C185_rows_partial",
    "C185_ignored_refuted"
   ],
   "note": "Neither argument has an effect."
  },
  {
   "property": "C186",
   "status": "partial",
   "theorems": [
    "C186_rows_partial",
    "C186_off_grid_refuted"
   ],
   "note": "Proved on the grid; off the grid one step late."
  },
  {
   "property": "C187",
   "status": "partial",
   "theorems": [
    "C187_lags_partial",
    "C187_shared_refuted"
   ],
   "note": "Proved for fresh parameters; later models use the lags of the first."
  },
  {
   "property": "C188",
   "status": "proved",
   "theorems": [
    "C188_embed"
   ],
   "note": ""
  },
  {
   "property": "C189",
   "status": "partial",
   "theorems": [
    "C189_round_trip_partial",
    "C189_default_min_refuted"
   ],
   "note": "Proved without default_min; with it denormalize subtracts where it should add."
  },
  {
   "property": "C190",
   "status": "partial",
   "theorems": [
    "C190_scale_and_level",
    "C190_log_scale",
    "C190_default_min_refuted"
   ],
   "note": "Proved for all regressors without default_min, also for logged data."
  },
  {
   "property": "C191",
   "status": "proved",
   "theorems": [
    "C191_pairs"
   ],
   "note": ""
  },
  {
   "property": "C192",
   "status": "partial",
   "theorems": [
    "C192_forecast",
    "C192_exact_partial",
    "C192_default_min_refuted"
   ],
   "note": "Exactness is proved with default_min off (C189); with it and the difference as normalisation it is refuted for every series: the forecast is too low by twice default_min."
  },
  {
   "property": "C193",
   "status": "proved",
   "theorems": [
    "C193_first_missing"
   ],
   "note": ""
  },
  {
   "property": "C194",
   "status": "partial",
   "theorems": [
    "C194_prefix",
    "C194_terminates",
    "C194_hangs_refuted",
    "C194_all_steps_partial",
    "C194_all_steps_refuted"
   ],
   "note": "Termination with horizon 1, all steps for an integer horizon, unchanged first forecasts proved; infinite loop and missing steps exhibited."
  },
  {
   "property": "C195",
   "status": "partial",
   "theorems": [
    "C195_epoch_partial",
    "C195_failed_call_refuted",
    "C195_magnitude_refuted"
   ],
   "note": "Proved for all histories of valid calls; a failing call and a non-positive magnitude refute the rest."
  },
  {
   "property": "C196",
   "status": "partial",
   "theorems": [
    "C196_lengths",
    "C196_test_partial",
    "C196_test_refuted",
    "C196_refused"
   ],
   "note": "Lengths proved for all data; the order by test length needs the same key order."
  },
  {
   "property": "C197",
   "status": "proved",
   "theorems": [
    "C197_training",
    "C197_validation",
    "C197_testing",
    "C197_short"
   ],
   "note": ""
  },
  {
   "property": "C198",
   "status": "partial",
   "theorems": [
    "C198_offset_partial",
    "C198_ratio_refuted",
    "C198_missing_refuted"
   ],
   "note": "Proved for ratios above 1 and validation series with a value."
  },
  {
   "property": "C199",
   "status": "partial",
   "theorems": [
    "C199_independent_partial",
    "C199_independent_refuted"
   ],
   "note": "Proved for positive values, refuted otherwise."
  },
  {
   "property": "C200",
   "status": "partial",
   "theorems": [
    "C200_values",
    "C200_times_partial",
    "C200_times_refuted",
    "C200_validation",
    "C200_testing"
   ],
   "note": "Values proved; the times of padded values refuted."
  },
  {
   "property": "C201",
   "status": "partial",
   "theorems": [
    "C201_first_season",
    "C201_missing_refuted",
    "C201_season_refuted"
   ],
   "note": "Filling proved for every row that is made; that a row is made is refuted in two cases."
  },
  {
   "property": "C202",
   "status": "proved",
   "theorems": [
    "C202_factors"
   ],
   "note": ""
  },
  {
   "property": "C203",
   "status": "partial",
   "theorems": [
    "C203_phase",
    "C203_gap",
    "C203_values",
    "C203_filled",
    "C203_no_long_hole",
    "C203_off_grid_refuted",
    "C203_repeated_refuted"
   ],
   "note": "Proved for series whose times lie on a grid without repetition; refuted otherwise."
  },
  {
   "property": "C204",
   "status": "partial",
   "theorems": [
    "C204_partial",
    "C204_lost_refuted",
    "C204_overlap",
    "C204_validation"
   ],
   "note": "Proved when the remainder is at most the quotient; otherwise the last series are in no part."
  },
  {
   "property": "C205",
   "status": "partial",
   "theorems": [
    "C205_train",
    "C205_test",
    "C205_keys",
    "C205_too_short_refuted",
    "C205_discarded_refuted"
   ],
   "note": "The cutting is proved; that kept training series can be batched and that usable test series are kept are refuted."
  },
  {
   "property": "C206",
   "status": "partial",
   "theorems": [
    "C206_partial",
    "C206_length_refuted"
   ],
   "note": "One row, n steps before the first, with the first observed value, is proved to be added; that there are n rows is refuted."
  },
  {
   "property": "C207",
   "status": "proved",
   "theorems": [
    "C207_value",
    "C207_shape",
    "C207_zero",
    "C207_default"
   ],
   "note": ""
  },
  {
   "property": "C208",
   "status": "proved",
   "theorems": [
    "C208_quantile"
   ],
   "note": ""
  },
  {
   "property": "C209",
   "status": "partial",
   "theorems": [
    "C209_reduction",
    "C209_shapes",
    "C209_target_partial",
    "C209_target_refuted"
   ],
   "note": "The caller's target is changed in place if it has missing values."
  },
  {
   "property": "C210",
   "status": "partial",
   "theorems": [
    "C210_first",
    "C210_smape",
    "C210_others",
    "C210_nonneg",
    "C210_perfect",
    "C210_original_refuted"
   ],
   "note": "Proved on logarithmic scale, refuted on the original scale."
  },
  {
   "property": "C211",
   "status": "partial",
   "theorems": [
    "C211_hour",
    "C211_date_partial",
    "C211_date_distinct",
    "C211_date_refuted",
    "C211_month_partial",
    "C211_december_refuted",
    "C211_next_series_refuted"
   ],
   "note": "Hours proved; the day of the week is refuted on Sundays and the month in December."
  },
  {
   "property": "C212",
   "status": "proved",
   "theorems": [
    "C212_width",
    "C212_clock"
   ],
   "note": ""
  },
  {
   "property": "C213",
   "status": "partial",
   "theorems": [
    "C213_positive",
    "C213_raises",
    "C213_flat",
    "C213_range",
    "C213_future",
    "C213_smoothing_refuted"
   ],
   "note": "Proved for smoothing parameters in (0, 1); init_smoothing_params above 1 are accepted and refute positivity."
  },
  {
   "property": "C214",
   "status": "proved",
   "theorems": [
    "C214_scale",
    "C214_causal"
   ],
   "note": ""
  },
  {
   "property": "C215",
   "status": "partial",
   "theorems": [
    "C215_visited",
    "C215_forecasts_partial",
    "C215_single_refuted",
    "C215_skipped_refuted",
    "C215_s2s",
    "C215_stride"
   ],
   "note": "Proved for at least two training steps; refuted for one."
  },
  {
   "property": "C216",
   "status": "partial",
   "theorems": [
    "C216_median",
    "C216_continuous",
    "C216_shape",
    "C216_order_refuted",
    "C216_jump_refuted"
   ],
   "note": "Median, continuity and shape proved; the order of the quantiles is refuted."
  },
  {
   "property": "C217",
   "status": "proved",
   "theorems": [
    "C217_frame",
    "C217_windows",
    "C217_series"
   ],
   "note": ""
  },
  {
   "property": "C218",
   "status": "partial",
   "theorems": [
    "C218_windows",
    "C218_metrics_partial",
    "C218_exceed_refuted"
   ],
   "note": "The comparison is proved; that each metric is reported is proved for three quantiles and refuted for two."
  },
  {
   "property": "C219",
   "status": "proved",
   "theorems": [
    "C219_seen",
    "C219_raises",
    "C219_periodic",
    "C219_scale",
    "C219_causal",
    "C219_parts"
   ],
   "note": ""
  },
  {
   "property": "C220",
   "status": "partial",
   "theorems": [
    "C220_sound",
    "C220_copy",
    "C220_text",
    "C220_checks_refuted"
   ],
   "note": "The stated facts are proved; further checks the messages or the training need are missing (C220_checks_refuted)."
  },
  {
   "property": "C221",
   "status": "proved",
   "theorems": [
    "C221_schedule",
    "C221_unique"
   ],
   "note": ""
  },
  {
   "property": "C222",
   "status": "proved",
   "theorems": [
    "C222_combined",
    "C222_order",
    "C222_frame"
   ],
   "note": ""
  },
  {
   "property": "C223",
   "status": "partial",
   "theorems": [
    "C223_held_out",
    "C223_all_held_out_refuted",
    "C223_parts",
    "C223_unseen"
   ],
   "note": "Proved; that series are left for training is proved for test_size < 1 and two series or more, and refuted otherwise (the message excludes 1, the check does not)."
  },
  {
   "property": "C224",
   "status": "partial",
   "theorems": [
    "C224_cut",
    "C224_size_partial",
    "C224_size_refuted",
    "C224_rows",
    "C224_unseen_partial",
    "C224_second_run_refuted"
   ],
   "note": "The cut and the rows are proved; that models have not seen the test series is proved for the first run and refuted for the second; a fractional test_size is refuted for small data."
  },
  {
   "property": "C225",
   "status": "proved",
   "theorems": [
    "C225_aligned"
   ],
   "note": ""
  },
  {
   "property": "C226",
   "status": "partial",
   "theorems": [
    "C226_season",
    "C226_exact",
    "C226_original_refuted",
    "C226_short_refuted"
   ],
   "note": "Proved for fit_trend and the deseasoned series; refuted for fit_original and short series."
  },
  {
   "property": "C227",
   "status": "partial",
   "theorems": [
    "C227_model",
    "C227_untrained",
    "C227_file_partial",
    "C227_ids_refuted",
    "C227_json_partial",
    "C227_json_refuted"
   ],
   "note": "Models: proved in full. Ensembles: all but the test ids, which are written to the file but never read; JSON only if trained without test series."
  },
  {
   "property": "C228",
   "status": "partial",
   "theorems": [
    "C228_split",
    "C228_scaled_partial",
    "C228_scaled_refuted",
    "C228_unseen_refuted"
   ],
   "note": "The cut is proved; rescaling is proved for a positive maximum and refuted otherwise; with rescaling the training part depends on the test part."
  },
  {
   "property": "C229",
   "status": "partial",
   "theorems": [
    "C229_tuned",
    "C229_best",
    "C229_failed_refuted"
   ],
   "note": "Proved; if every model fails, the first one is still reported as the best (C229_failed_refuted)."
  },
  {
   "property": "C230",
   "status": "partial",
   "theorems": [
    "C230_aligned_partial",
    "C230_aligned_refuted"
   ],
   "note": "Proved if an error can be read wherever features can; refuted otherwise."
  },
  {
   "property": "C231",
   "status": "partial",
   "theorems": [
    "C231_rows_partial",
    "C231_rows_refuted"
   ],
   "note": "Proved with a test part; refuted without."
  },
  {
   "property": "C232",
   "status": "partial",
   "theorems": [
    "C232_threshold_partial",
    "C232_perfect_refuted",
    "C232_recall_refuted",
    "C232_use"
   ],
   "note": "Proved if the best precision with the recall is below 1 and every threshold of that precision has the recall; refuted otherwise: with precision 1 the search always fails and 0.5 is used."
  },
  {
   "property": "C233",
   "status": "proved",
   "theorems": [
    "C233_balanced"
   ],
   "note": ""
  },
  {
   "property": "C234",
   "status": "proved",
   "theorems": [
    "C234_top",
    "C234_fuzzy"
   ],
   "note": ""
  },
  {
   "property": "C235",
   "status": "proved",
   "theorems": [
    "C235_oracle",
    "C235_constant"
   ],
   "note": ""
  },
  {
   "property": "C236",
   "status": "partial",
   "theorems": [
    "C236_standard",
    "C236_standard_down",
    "C236_same_partial",
    "C236_twice_refuted",
    "C236_nan_refuted",
    "C236_down_refuted"
   ],
   "note": "Proved for learners preprocessed at most once; refuted for a second call, for missing features in pred_by_feature of the model selection, and for downsampling after scaling."
  },
  {
   "property": "C237",
   "status": "partial",
   "theorems": [
    "C237_codes",
    "C237_recommended",
    "C237_parameters",
    "C237_missing_refuted"
   ],
   "note": "Proved but for missing values, whose class -1 no network has."
  },
  {
   "property": "C238",
   "status": "partial",
   "theorems": [
    "C238_layers",
    "C238_defaults",
    "C238_numerical_only_refuted",
    "C238_categorical_only_refuted"
   ],
   "note": "Proved; parameters of one kind only are refuted when the other list is left out (its default)."
  },
  {
   "property": "C239",
   "status": "partial",
   "theorems": [
    "C239_batches",
    "C239_stopping",
    "C239_patience_refuted"
   ],
   "note": "Proved with the constant 20 of the code; with a smaller patience training goes on for 22 epochs."
  },
  {
   "property": "C240",
   "status": "partial",
   "theorems": [
    "C240_grid",
    "C240_format",
    "C240_default_refuted"
   ],
   "note": "Proved, with Ax's factorial generator taken as the combinations of values; leaving out the parameters is refuted."
  },
  {
   "property": "C241",
   "status": "proved",
   "theorems": [
    "C241_records",
    "C241_metrics",
    "C241_failure",
    "C241_no_arms",
    "C241_processes"
   ],
   "note": ""
  },
  {
   "property": "C242",
   "status": "partial",
   "theorems": [
    "C242_legit_partial",
    "C242_metrics_refuted"
   ],
   "note": "Proved for constraints on one metric; with constraints on two metrics no arm is ever kept."
  },
  {
   "property": "C243",
   "status": "partial",
   "theorems": [
    "C243_space",
    "C243_evaluated",
    "C243_reported_refuted",
    "C243_workers",
    "C243_options_refuted"
   ],
   "note": "Proved for the calls of the evaluation function and the number of workers of given options; refuted for the reported parameters and for options given to the factory."
  },
  {
   "property": "C244",
   "status": "partial",
   "theorems": [
    "C244_independent",
    "C244_bayes_refuted",
    "C244_spaces"
   ],
   "note": "Independence proved; Bayesian optimisation is refuted."
  },
  {
   "property": "C245",
   "status": "proved",
   "theorems": [
    "C245_params"
   ],
   "note": "Equivalence proved; the accepted shapes are listed in the statement."
  },
  {
   "property": "C246",
   "status": "proved",
   "theorems": [
    "C246_frame",
    "C246_accepted",
    "C246_capacity"
   ],
   "note": ""
  },
  {
   "property": "C247",
   "status": "partial",
   "theorems": [
    "C247_steps",
    "C247_history_partial",
    "C247_history_refuted",
    "C247_floor_refuted",
    "C247_multivariate_refuted",
    "C247_given_refuted"
   ],
   "note": "The steps without history are proved; with the history refuted when values are missing or a floor is not used; a given frame is never checked."
  },
  {
   "property": "C248",
   "status": "partial",
   "theorems": [
    "C248_bands",
    "C248_contains_refuted",
    "C248_samples"
   ],
   "note": "The bounds are proved to be the quantiles with the margin; that they contain the forecast is refuted."
  },
  {
   "property": "C249",
   "status": "proved",
   "theorems": [
    "C249_draw",
    "C249_history"
   ],
   "note": ""
  },
  {
   "property": "C250",
   "status": "partial",
   "theorems": [
    "C250_grid_partial",
    "C250_lost_refuted",
    "C250_end_refuted"
   ],
   "note": "Proved for changepoints before the end and a step apart; otherwise shifts are lost, or an exception is raised."
  },
  {
   "property": "C251",
   "status": "partial",
   "theorems": [
    "C251_history",
    "C251_centred",
    "C251_first_refuted",
    "C251_capacity_refuted"
   ],
   "note": "Zero over the history and centred: proved. The first row after the history has no uncertainty, and samples can exceed the capacity: refuted."
  },
  {
   "property": "C252",
   "status": "partial",
   "theorems": [
    "C252_continuous",
    "C252_rates_partial",
    "C252_shifts",
    "C252_later_partial",
    "C252_zero_refuted"
   ],
   "note": "Continuity and totals are proved; the rates under the hypothesis that no partial rate is exactly zero. C252_zero_refuted shows what fails where one is."
  },
  {
   "property": "C253",
   "status": "proved",
   "theorems": [
    "C253_deviation",
    "C253_z_score",
    "C253_wider"
   ],
   "note": ""
  },
  {
   "property": "C254",
   "status": "partial",
   "theorems": [
    "C254_process",
    "C254_names",
    "C254_weekend_partial",
    "C254_twice_refuted",
    "C254_epoch_refuted",
    "C254_masks"
   ],
   "note": "Proved for times after 1970 without repetition; refuted for a repeated time and for 1970-01-01."
  },
  {
   "property": "C255",
   "status": "partial",
   "theorems": [
    "C255_excluded",
    "C255_outliers",
    "C255_training",
    "C255_logistic_refuted",
    "C255_saturation",
    "C255_history_refuted"
   ],
   "note": "The rows are proved; accepted options that cannot be trained and the changed history are refuted."
  },
  {
   "property": "C256",
   "status": "partial",
   "theorems": [
    "C256_rows",
    "C256_scores",
    "C256_holidays_refuted",
    "C256_reloaded_refuted",
    "C256_unknown_refuted"
   ],
   "note": "Rows and scores are proved; refuted: multiplier without holidays, saved detectors with listed holidays, unknown score functions."
  },
  {
   "property": "C257",
   "status": "partial",
   "theorems": [
    "C257_scores",
    "C257_rows",
    "C257_missing_refuted"
   ],
   "note": "Proved without missing values; refuted with them."
  },
  {
   "property": "C258",
   "status": "partial",
   "theorems": [
    "C258_bounds",
    "C258_in_place_refuted"
   ],
   "note": "The invariant is proved for all histories; a write through the returned Series (ts.value.iloc[i] = x) leaves stale bounds."
  },
  {
   "property": "C259",
   "status": "partial",
   "theorems": [
    "C259_reflexive_symmetric",
    "C259_univariate",
    "C259_multivariate",
    "C259_column_order",
    "C259_transitive_refuted",
    "C259_same_rows_refuted"
   ],
   "note": "Reflexive, symmetric and independent of the order of columns: proved; not transitive, and the index of dropped rows makes series with the same rows different."
  },
  {
   "property": "C260",
   "status": "partial",
   "theorems": [
    "C260_points_partial",
    "C260_dropped_refuted",
    "C260_categorical_refuted",
    "C260_names_refuted",
    "C260_columns",
    "C260_again_refuted"
   ],
   "note": "Proved for numeric series with a complete index; otherwise the walk raises, and names are lost. The column iterator can be used once."
  },
  {
   "property": "C261",
   "status": "partial",
   "theorems": [
    "C261_frame",
    "C261_parts",
    "C261_refused",
    "C261_values_only_refuted"
   ],
   "note": "Rows proved for both ways of construction; a single zero value without times gives an empty series."
  },
  {
   "property": "C262",
   "status": "partial",
   "theorems": [
    "C262_slice_partial",
    "C262_categorical_refuted",
    "C262_empty_slice_refuted"
   ],
   "note": "Proved for sorted numeric series and slices with a row."
  },
  {
   "property": "C263",
   "status": "partial",
   "theorems": [
    "C263_convert",
    "C263_set",
    "C263_set_raises",
    "C263_parse",
    "C263_datetimes_refuted"
   ],
   "note": "Proved for all zones; for a column of datetimes the zone asked for is ignored."
  },
  {
   "property": "C264",
   "status": "partial",
   "theorems": [
    "C264_times",
    "C264_kept_partial",
    "C264_line",
    "C264_ends",
    "C264_off_grid_refuted",
    "C264_moved_refuted",
    "C264_twice"
   ],
   "note": "Times, lines, ends and the second interpolation are proved; observations are kept exactly if they are on the grid."
  },
  {
   "property": "C265",
   "status": "partial",
   "theorems": [
    "C265_forward_partial",
    "C265_backward_partial",
    "C265_missing_refuted",
    "C265_ahead_refuted"
   ],
   "note": "Proved for series that are not complete."
  },
  {
   "property": "C266",
   "status": "partial",
   "theorems": [
    "C266_accepted",
    "C266_period",
    "C266_refused",
    "C266_regular",
    "C266_regular_partial",
    "C266_regular_refuted",
    "C266_calendar_refuted",
    "C266_fast_refuted",
    "C266_season_refuted"
   ],
   "note": "What an accepted series satisfies, and the exact condition under which a regular one is accepted, are proved; gaps that do not divide a day, weekly data and data faster than a second are refused; the season of short data is set to 7, which can exceed half of the data."
  },
  {
   "property": "C267",
   "status": "partial",
   "theorems": [
    "C267_history",
    "C267_sum",
    "C267_bounds_refuted"
   ],
   "note": "Proved for one column and all sequences of calls; the components of several columns are written in place and the bounds of the result are stale."
  },
  {
   "property": "C268",
   "status": "partial",
   "theorems": [
    "C268_parts",
    "C268_positive_refuted",
    "C268_options",
    "C268_period_refuted"
   ],
   "note": "Proved for STL over the reals; non-positive data are only logged, and without a period hourly data are decomposed with period 2."
  },
  {
   "property": "C269",
   "status": "partial",
   "theorems": [
    "C269_value",
    "C269_units",
    "C269_reversed",
    "C269_least",
    "C269_negative_refuted",
    "C269_significance",
    "C269_step"
   ],
   "note": "Closed form, invariance, lower bound and the link to p-values are proved over the reals; the ratio of equal means is negative, so it is no likelihood ratio of nested models."
  },
  {
   "property": "C270",
   "status": "proved",
   "theorems": [
    "C270_asked",
    "C270_refused",
    "C270_reported",
    "C270_constant",
    "C270_returns"
   ],
   "note": "Proved for every series and every combination of options, with the magnitude test as a condition."
  },
  {
   "property": "C271",
   "status": "partial",
   "theorems": [
    "C271_days_refuted",
    "C271_decrease_refuted",
    "C271_increase_partial",
    "C271_last_refuted",
    "C271_negative"
   ],
   "note": "Only the test for rises on the days before the first is as described."
  },
  {
   "property": "C272",
   "status": "partial",
   "theorems": [
    "C272_empty",
    "C272_columns",
    "C272_raises",
    "C272_stable_refuted",
    "C272_stable",
    "C272_other_partial",
    "C272_other_refuted"
   ],
   "note": "Index, means, statistics and decision of each column are proved to be those of the column alone; the stable flag depends on the other columns, and detector_ takes other spellings of the direction."
  },
  {
   "property": "C273",
   "status": "partial",
   "theorems": [
    "C273_value",
    "C273_reversed_refuted",
    "C273_index",
    "C273_early_refuted"
   ],
   "note": "The statistic is 2 n0 n1 (n0 - n1) / n^2 times the distance of the means: a minus sign where a sum belongs."
  },
  {
   "property": "C274",
   "status": "partial",
   "theorems": [
    "C274_close",
    "C274_enough",
    "C274_symmetry_refuted"
   ],
   "note": "Bounds in both directions are proved; the relative test divides by the first number, so the order matters."
  },
  {
   "property": "C275",
   "status": "partial",
   "theorems": [
    "C275_same",
    "C275_raises",
    "C275_next",
    "C275_new",
    "C275_reused_refuted"
   ],
   "note": "Proved for evenly spaced times in whole seconds; both calls also raise together without the magnitude test. A model with an alert whose change point lies in the new data raises in the loop and returns in the vectorised path."
  },
  {
   "property": "C276",
   "status": "partial",
   "theorems": [
    "C276_columns",
    "C276_raises",
    "C276_value",
    "C276_value_refuted",
    "C276_adapted_refuted"
   ],
   "note": "Proved without adapted_pre_mean; the frame has an extra column called value without scores if the history is as long as the historical window."
  },
  {
   "property": "C277",
   "status": "proved",
   "theorems": [
    "C277_scan",
    "C277_rows",
    "C277_vectorized",
    "C277_windows"
   ],
   "note": "Proved for all times without vectorization, and with it for evenly spaced ones. The moving average has zeros before the first row."
  },
  {
   "property": "C278",
   "status": "partial",
   "theorems": [
    "C278_both_refuted",
    "C278_subsecond_refuted"
   ],
   "note": "Both are general refutations: any values, any state with an alert."
  },
  {
   "property": "C279",
   "status": "partial",
   "theorems": [
    "C279_posterior",
    "C279_line",
    "C279_shape_refuted"
   ],
   "note": "The line and the precision are proved to be those of the conjugate model; the shape counts the rows up to the current time instead of the rows of the run."
  },
  {
   "property": "C280",
   "status": "partial",
   "theorems": [
    "C280_search_refuted",
    "C280_prior",
    "C280_readjust_partial",
    "C280_variance_refuted",
    "C280_exact_refuted",
    "C280_floor_refuted"
   ],
   "note": "The prior line and the mean of the readjusted prior are proved, as is positivity of the probabilities. Refuted: its variance is 1000 times its mean; for points on a line its scale is zero; the floor is zero below 10^8 samples; the search for priors never calls setup(), so the default call raises."
  },
  {
   "property": "C281",
   "status": "partial",
   "theorems": [
    "C281_reported",
    "C281_probabilities",
    "C281_best",
    "C281_prior_refuted",
    "C281_field_refuted",
    "C281_space_refuted",
    "C281_raises",
    "C281_group"
   ],
   "note": "Reporting, choice and grouping are proved for every predictive model. Refuted: changepoint_prior has no effect when priors are searched (the default), cp_prior of the parameters has none when they are not, and other names in the search space of the trend and the Poisson model do nothing."
  },
  {
   "property": "C282",
   "status": "proved",
   "theorems": [
    "C282_when",
    "C282_values",
    "C282_units"
   ],
   "note": ""
  },
  {
   "property": "C283",
   "status": "partial",
   "theorems": [
    "C283_season_partial",
    "C283_raises",
    "C283_long_refuted",
    "C283_names_refuted",
    "C283_multi",
    "C283_kind",
    "C283_quiet"
   ],
   "note": "Proved when the series is not split. Refuted: for a split series all scores are zero, because the seasonal part is added to the response made at the start; prediction and band of several series lose their column names; a processed part or history of fewer than 7 rows raises, so a detector fed one row at a time never works with rem_season."
  },
  {
   "property": "C284",
   "status": "partial",
   "theorems": [
    "C284_call",
    "C284_times_refuted",
    "C284_data_refuted",
    "C284_repeat_refuted",
    "C284_repeat_partial",
    "C284_stale_refuted",
    "C284_refused",
    "C284_range",
    "C284_unchecked_refuted",
    "C284_returns",
    "C284_integers"
   ],
   "note": "Scores and predictions are proved for every call that returns, as are the refusals. Refuted: the response covers the history too; the caller's variance columns are overwritten by the variances of the means, so a second call with real values has a statistic sqrt(n) times as large; without consolidation the predictions of an earlier call are returned; history and signs of counts are not checked."
  },
  {
   "property": "C285",
   "status": "partial",
   "theorems": [
    "C285_individual",
    "C285_trend",
    "C285_fit",
    "C285_volatility",
    "C285_level",
    "C285_units_partial",
    "C285_offset_refuted",
    "C285_negative_refuted",
    "C285_flat_refuted",
    "C285_grid_refuted",
    "C285_all"
   ],
   "note": "Each type is characterised by lines of least squares and standard deviations; three are independent of unit and origin. Refuted: the level shift compares intercepts by their ratio, so it depends on the origin and ignores the factor below zero; two flat parts are a change of volatility; for an anomaly that ends between two rows of the data one row is left out."
  },
  {
   "property": "C286",
   "status": "partial",
   "theorems": [
    "C286_bounds",
    "C286_values_partial",
    "C286_five_refuted",
    "C286_one_period_refuted",
    "C286_none_refuted",
    "C286_undefined",
    "C286_off",
    "C286_returns",
    "C286_units"
   ],
   "note": "Proved for every series with at least ten values when the period is at least five and below the length. Refuted: with a shorter period y_acf5 sums only that many squares while the features of the differences sum five; for a series of exactly one period seas_acf1 is the autocorrelation one lag before; extra_args=None raises though the documentation says it disables nothing."
  },
  {
   "property": "C287",
   "status": "partial",
   "theorems": [
    "C287_hurst_units",
    "C287_hurst_power",
    "C287_mode",
    "C287_period_refuted",
    "C287_linearity",
    "C287_line",
    "C287_derivative",
    "C287_trend_slope",
    "C287_size_partial",
    "C287_size_refuted",
    "C287_peak",
    "C287_strength_partial",
    "C287_strength_refuted",
    "C287_entropy",
    "C287_spikiness",
    "C287_spikiness_zero",
    "C287_spikiness_units"
   ],
   "note": "Everything is proved but three parts. Refuted: nothing keeps the strengths above 0 (they are at most 1, and at least 0 when component and remainder are not negatively correlated); seasonality_mag is rounded to a whole number; the differences whose period is detected all get the same time stamp and are sorted by it, so any permutation of them may be what the detector sees."
  },
  {
   "property": "C288",
   "status": "partial",
   "theorems": [
    "C288_counts",
    "C288_first",
    "C288_nothing",
    "C288_pvalue_refuted",
    "C288_means",
    "C288_tau_partial",
    "C288_tau_refuted",
    "C288_nan",
    "C288_none_refuted",
    "C288_switches"
   ],
   "note": "Refuted: without a change point cusum_p_value is 0, the value of the most significant one; a point whose Tau is not a float counts as 0 in trend_avg_abs_tau; extra_args=None switches every feature off."
  },
  {
   "property": "C289",
   "status": "partial",
   "theorems": [
    "C289_training",
    "C289_forecast",
    "C289_again",
    "C289_band_partial",
    "C289_band_refuted",
    "C289_units",
    "C289_unfitted",
    "C289_short_refuted",
    "C289_zero_window"
   ],
   "note": "Proved for every series longer than the window. Refuted: the bounds are 95 and 105 per cent of the forecast, so they are swapped for negative forecasts; for a series not longer than the window fit raises (an unbound loss) or trains nothing, but leaves a network that predict uses."
  },
  {
   "property": "C290",
   "status": "partial",
   "theorems": [
    "C290_weights",
    "C290_independent",
    "C290_range",
    "C290_all",
    "C290_correlation_refuted",
    "C290_sum_refuted"
   ],
   "note": "Weights, their sum, range and the case of m tests are proved for stationary statistics. Refuted: for other statistics the weights do not add up to 1; for more than m tests the covariance between them is not used, so perfectly correlated tests get 1-(1-p)^n."
  },
  {
   "property": "C291",
   "status": "partial",
   "theorems": [
    "C291_plain",
    "C291_off_grid_refuted",
    "C291_interval",
    "C291_same_forecasts",
    "C291_interval_times",
    "C291_interval_times_refuted",
    "C291_given_frequency_refuted",
    "C291_short_refuted",
    "C291_enough",
    "C291_history",
    "C291_unfitted",
    "C291_parameters"
   ],
   "note": "Proved for forecasts, bounds, history and parameters, and that ten points on their frequency's grid are enough for intervals. Refuted: with alpha the rows are one day apart whatever the frequency; a series whose frequency cannot be inferred gets no intervals even if freq is given; fewer than ten points get none with the default settings; a series that ends off the grid of freq gets no forecast."
  },
  {
   "property": "C292",
   "status": "partial",
   "theorems": [
    "C292_accepted",
    "C292_before",
    "C292_mean",
    "C292_unknown",
    "C292_listed_twice_refuted",
    "C292_folds",
    "C292_zero_folds_refuted",
    "C292_again_refuted",
    "C292_runs",
    "C292_end_percentage_refuted"
   ],
   "note": "Proved for metrics listed once. Refuted: a metric listed twice is reported as twice its mean; num_folds = 0 is accepted but run_cv raises; a second run_cv doubles every error; the end_train_percentage of BackTesterExpandingWindow has no effect."
  },
  {
   "property": "C293",
   "status": "partial",
   "theorems": [
    "C293_accepted",
    "C293_frame",
    "C293_kept",
    "C293_dropped_refuted",
    "C293_one_frequency",
    "C293_times",
    "C293_rename",
    "C293_month_start_refuted",
    "C293_shared",
    "C293_shared_refuted"
   ],
   "note": "Proved for observations on the grid of the frequency. Refuted: observations off the grid are dropped without notice; for data at the starts of months the inferred frequency MS is replaced by M (month ends), so every observation becomes NaN. C293_shared, C293_shared_refuted: parameters used for several datasets keep the frequency inferred for the first one."
  },
  {
   "property": "C294",
   "status": "partial",
   "theorems": [
    "C294_read_partial",
    "C294_texts",
    "C294_second_read_refuted",
    "C294_shared_refuted",
    "C294_unreadable",
    "C294_word"
   ],
   "note": "Proved for tables in which no two rows hold the same dictionary. Refuted: the windows are scaled in place, so reading the same table a second time (for another algorithm) divides by 86400 once more; rows that share a dictionary are scaled once per row."
  },
  {
   "property": "C295",
   "status": "partial",
   "theorems": [
    "C295_accepted",
    "C295_train",
    "C295_recommended_partial",
    "C295_answers",
    "C295_failed_train",
    "C295_untrained",
    "C295_from_series_refuted",
    "C295_missing_refuted",
    "C295_twice_refuted",
    "C295_precedence"
   ],
   "note": "Proved for names given once and columns with at least one value. Refuted: get_hpt_from_ts always raises; a column with a missing first value and one other value is recommended as NaN; a name given both as categorical and numerical takes the place of another column."
  },
  {
   "property": "C296",
   "status": "partial",
   "theorems": [
    "C296_accepted",
    "C296_untrained",
    "C296_report_refuted",
    "C296_rounded",
    "C296_predict",
    "C296_by_name",
    "C296_trained_partial",
    "C296_again",
    "C296_order_refuted"
   ],
   "note": "Proved for rows with their features in the same order. Refuted: training takes each row's values in the row's own order, prediction by name, so rows with the same features in different orders are mixed up; report_metrics before train raises instead of training."
  },
  {
   "property": "C297",
   "status": "proved",
   "theorems": [
    "C297_shapes",
    "C297_alone",
    "C297_bounded",
    "C297_range",
    "C297_states"
   ],
   "note": "Exact real arithmetic; the constructor's check does not exclude dilations of zero or negative sizes of the hidden state, which the theorem assumes away (see C298_zero_dilation)."
  },
  {
   "property": "C298",
   "status": "partial",
   "theorems": [
    "C298_window",
    "C298_decoder_partial",
    "C298_decoder_refuted",
    "C298_reset",
    "C298_spoilt",
    "C298_zero_dilation"
   ],
   "note": "Proved for decoders whose dilations are at most the encoder's largest. Refuted: prepare_decoder cuts the states by the encoder's largest dilation, so a decoder with a larger one looks at the last state instead of the delayed one. Also shown: a call with an input of the wrong width leaves an empty entry behind, after which every call raises until reset_state; a dilation of zero is accepted and every call raises."
  },
  {
   "property": "C299",
   "status": "partial",
   "theorems": [
    "C299_accepted",
    "C299_window",
    "C299_no_future",
    "C299_no_new",
    "C299_again",
    "C299_pure",
    "C299_forgets_refuted",
    "C299_one_origin",
    "C299_late_refuted",
    "C299_iterated"
   ],
   "note": "Refuted: the window replaces the stored series, so a prediction without new data after one with new data is no longer about the training data; new data with covariates only that begin later than just after the training data leave no row to forecast from."
  },
  {
   "property": "C300",
   "status": "partial",
   "theorems": [
    "C300_columns",
    "C300_rows",
    "C300_missing_first",
    "C300_same_partial",
    "C300_changed_refuted",
    "C300_swapped_refuted",
    "C300_iterated_refuted",
    "C300_iterated_fails_refuted"
   ],
   "note": "Proved for labels that never change or miss, without iteration. Refuted: the labels are collected again from the first row of each window, so a label that changed since the start of training gives other columns or the same columns in another order; windows filled with the model's own forecasts have no label there, so steps past the horizon are forecast with no category at all, and fail once the window is past the end of the data."
  },
  {
   "property": "C301",
   "status": "partial",
   "theorems": [
    "C301_params",
    "C301_construct",
    "C301_lists_refuted",
    "C301_training",
    "C301_frame",
    "C301_refused",
    "C301_y_ignored",
    "C301_history_refuted",
    "C301_made",
    "C301_steps_refuted",
    "C301_caller_refuted",
    "C301_columns",
    "C301_documented_refuted"
   ],
   "note": "Refuted: predict sets y to zero in the whole frame, including the rows of history that the library puts there for its lags, so an autoregressive model forecasts from zeros; a frame longer than steps gives a forecast for all its rows; the documented columns time, fcst, fcst_lower and fcst_upper never appear (the library's ds and yhat\u2026 do); the caller's frame is sorted and its y overwritten; lagged regressors given as a list of names are accepted by the parameters and then always raise in the constructor."
  },
  {
   "property": "C302",
   "status": "partial",
   "theorems": [
    "C302_reported",
    "C302_probabilities",
    "C302_refused",
    "C302_threshold_refuted",
    "C302_drift_refuted",
    "C302_caller_refuted",
    "C302_twice_refuted",
    "C302_state"
   ],
   "note": "Answer, probabilities and refusal proved; refuted: the threshold has no effect on the answer (C302_threshold_refuted), with a threshold slow_drift has none (C302_drift_refuted), the data are appended to the caller's history (C302_caller_refuted), so the same call made twice answers for other times (C302_twice_refuted)."
  },
  {
   "property": "C303",
   "status": "partial",
   "theorems": [
    "C303_reported",
    "C303_parameters_refuted",
    "C303_history_refuted",
    "C303_raises"
   ],
   "note": "Slopes, times and exceptions proved; refuted: the smoothing parameters of the constructor (C303_parameters_refuted) and the history (C303_history_refuted) are not used."
  },
  {
   "property": "C304",
   "status": "partial",
   "theorems": [
    "C304_base",
    "C304_construct",
    "C304_fit",
    "C304_supplied_refuted",
    "C304_long_refuted",
    "C304_residuals",
    "C304_refit_refuted"
   ],
   "note": "Acceptance, levels, training and residuals proved; refuted: supplied forecasts are trained over when a name is given too (C304_supplied_refuted), a level longer than the series is refused although its forecasts are supplied (C304_long_refuted), residuals computed once stay after another fit (C304_refit_refuted)."
  },
  {
   "property": "C305",
   "status": "partial",
   "theorems": [
    "C305_reported",
    "C305_half",
    "C305_greater_refuted",
    "C305_short_refuted"
   ],
   "note": "The bound and the half proved; refuted: with equal distances every level is reported (C305_greater_refuted), with fewer steps than the highest level none ever is (C305_short_refuted)."
  },
  {
   "property": "C306",
   "status": "partial",
   "theorems": [
    "C306_base",
    "C306_cusum",
    "C306_equivalence",
    "C306_symmetric_refuted",
    "C306_plain_refuted",
    "C306_details_refuted",
    "C306_arrays_refuted",
    "C306_hash",
    "C306_hash_refuted",
    "C306_set",
    "C306_set_refuted"
   ],
   "note": "Proved for change points other than CUSUM's, and for those of CUSUM for one series; refuted: comparisons with a CUSUM change point raise on one side and hold on the other (C306_symmetric_refuted, C306_plain_refuted), attributes of the detector are not compared (C306_details_refuted), CUSUM change points of several series cannot be compared even with themselves (C306_arrays_refuted), all hashes are one constant and CUSUM change points have none (C306_hash_refuted), a set merges the change points of different series (C306_set_refuted)."
  },
  {
   "property": "C307",
   "status": "partial",
   "theorems": [
    "C307_equal",
    "C307_reload",
    "C307_settings_refuted"
   ],
   "note": "Which attributes are compared and equality after reloading proved; refuted: remove_seasonality, season_period_freq, vectorized and adapted_pre_mean are not compared (C307_settings_refuted)."
  },
  {
   "property": "C308",
   "status": "partial",
   "theorems": [
    "C308_rows",
    "C308_offset",
    "C308_scale",
    "C308_wave",
    "C308_alternating_refuted",
    "C308_period"
   ],
   "note": "All proved over the reals except the last clause; refuted: a season of two values in a series of even length has its power at half the sampling rate, which has no row (C308_alternating_refuted)."
  },
  {
   "property": "C309",
   "status": "partial",
   "theorems": [
    "C309_training",
    "C309_forecast",
    "C309_gap_refuted",
    "C309_predict_refuted",
    "C309_window_refuted",
    "C309_zero_refuted"
   ],
   "note": "Proved for training, and for forecasts under the stated relations between windows; refuted: the calendar columns are NaN when the target ends before its series and the horizons are not contiguous, future covariates are NaN in prediction when their window exceeds max_lags plus the horizon, prediction raises when it exceeds the forecast window although training did not, and a window of 0 is accepted and raises."
  },
  {
   "property": "C310",
   "status": "partial",
   "theorems": [
    "C310_calendar",
    "C310_fourier",
    "C310_inferred_refuted"
   ],
   "note": "Proved for the documented names; refuted for inferred weekly, minute and anchored quarterly frequencies, which get no features."
  },
  {
   "property": "C311",
   "status": "partial",
   "theorems": [
    "C311_rows",
    "C311_training",
    "C311_pairs",
    "C311_one_hot",
    "C311_latest",
    "C311_result",
    "C311_origin_refuted"
   ],
   "note": "Proved, with the training pairs of C191 as the special case of one target; refuted: a target that ends before another one is forecast from a row where it is missing."
  },
  {
   "property": "C312",
   "status": "partial",
   "theorems": [
    "C312_given",
    "C312_invalid",
    "C312_inferred",
    "C312_short",
    "C312_cover",
    "C312_reused_partial",
    "C312_reused_refuted",
    "C312_saved",
    "C312_saved_given",
    "C312_unreadable_refuted"
   ],
   "note": "C312_given, C312_invalid: a unit given is used for every call, a name gets a one in front, anything else is refused. C312_inferred, C312_short, C312_cover: all histories of a detector without unit. C312_reused_partial: a used detector answers like a new one when all calls have the same gap; C312_reused_refuted: not in general, the gap of the first call is kept (hourly data, then daily data). C312_saved, C312_saved_given: saving keeps the unit, also an inferred one. C312_unreadable_refuted: a gap whose text has an exponent (below 0.1 ms) makes this and all later calls raise."
  },
  {
   "property": "C313",
   "status": "partial",
   "theorems": [
    "C313_accepted",
    "C313_sensible_partial",
    "C313_learning_rate_refuted",
    "C313_ordered",
    "C313_distinct",
    "C313_types_partial",
    "C313_types_refuted",
    "C313_lags",
    "C313_missing_refuted",
    "C313_call",
    "C313_checked"
   ],
   "note": "C313_accepted for every point of every space; C313_sensible_partial: all values but the learning rates of the space for LightGBM, which are all above one (C313_learning_rate_refuted: np.logspace takes exponents). C313_types_partial and C313_types_refuted: the seasonal orders of SARIMA are tuples declared as texts (the metadata code turns the texts back). C313_missing_refuted: VAR has no space, the space of ARNet has no model."
  },
  {
   "property": "C314",
   "status": "partial",
   "theorems": [
    "C314_schedule",
    "C314_mode_partial",
    "C314_mode_refuted",
    "C314_monitors",
    "C314_recorded",
    "C314_first",
    "C314_test_partial",
    "C314_resume_partial",
    "C314_valid",
    "C314_test_refuted",
    "C314_again_refuted",
    "C314_failed_refuted"
   ],
   "note": "Evaluating test series during training draws from the generator that makes the batches, so it changes the learnt weights (C314_test_refuted) unless it draws nothing (C314_test_partial); it also leaves the network in test mode from the second epoch on (C314_mode_refuted). C314_resume_partial: with constant schedules and memoryless batches, training twice equals one longer training; in general the loader and the schedules start again. C314_again_refuted: a second training does not start from new weights. C314_failed_refuted: an evaluation that raises does so after the weights have changed."
  },
  {
   "property": "C315",
   "status": "partial",
   "theorems": [
    "C315_marked",
    "C315_unmarked_refuted",
    "C315_moved",
    "C315_plain",
    "C315_offset_refuted",
    "C315_load"
   ],
   "note": "Proved for texts whose times all end in a one-letter mark. Refuted for a time without a mark: the pattern takes the last digit of the fraction of its second for the mark and removes it (C315_unmarked_refuted), which moves the time back unless the digit is a zero (C315_moved). A mark in the form of an offset stays (C315_offset_refuted)."
  },
  {
   "property": "C316",
   "status": "partial",
   "theorems": [
    "C316_features",
    "C316_raises",
    "C316_once_refuted",
    "C316_rnn",
    "C316_outputs",
    "C316_s2s",
    "C316_decoder_outputs",
    "C316_rnn_inside",
    "C316_s2s_inside"
   ],
   "note": "The sizes fit whenever the features can be computed at all (C316_features, C316_rnn, C316_outputs, C316_s2s) and the windows lie inside of the batch (C316_rnn_inside, C316_s2s_inside). C316_raises says exactly when the features cannot be computed; C316_once_refuted: that is so for tsfeatures alone, for ts2vec and for an empty list, which the constructors accept."
  },
  {
   "property": "C317",
   "status": "partial",
   "theorems": [
    "C317_read",
    "C317_unknown",
    "C317_history",
    "C317_hole_refuted",
    "C317_other_reader_refuted"
   ],
   "note": "C317_read for files in order, C317_history for sequences of calls and C317_unknown hold. C317_hole_refuted: one row without one of the algorithms makes every call fail, also for algorithms tried in every row. C317_other_reader_refuted: metadata_detect_reader leaves n_control and n_test in seconds, SynthMetadataReader gives them in days."
  },
  {
   "property": "C318",
   "status": "partial",
   "theorems": [
    "C318_by_name",
    "C318_attribute",
    "C318_complete",
    "C318_abstract_partial",
    "C318_inherited_refuted",
    "C318_isinstance_refuted",
    "C318_fresh_partial",
    "C318_first_question"
   ],
   "note": "C318_by_name and C318_complete hold for all programs. That nothing unimplemented is offered is only proved for methods declared abstract in the class itself or in an ordinary abstract class among its direct bases (C318_abstract_partial): a class that inherits abstract methods of a detector class is offered (C318_inherited_refuted), because the metaclass calls type.__new__ instead of ABCMeta's, so that __abstractmethods__ is never set. For the same reason isinstance raises AttributeError on most detector classes unless the object is of exactly the class (C318_isinstance_refuted), and on classes that also derive from ABC all answers about an object repeat the first one (C318_first_question, C318_isinstance_case). C318_attribute says which class decides whether a method is implemented; C318_fresh_partial: the first answer of isinstance about the instances of a class is right."
  },
  {
   "property": "C319",
   "status": "partial",
   "theorems": [
    "C319_accepted",
    "C319_rows",
    "C319_own",
    "C319_silent_refuted",
    "C319_series"
   ],
   "note": "C319_accepted, C319_rows and C319_own hold for all collections. C319_silent_refuted: a series without values to compare with has no row in the result, and nothing says so. That a window does not depend on how many windows follow is part of the model."
  },
  {
   "property": "C320",
   "status": "partial",
   "theorems": [
    "C320_accepted",
    "C320_folds",
    "C320_runs",
    "C320_mean",
    "C320_again_refuted",
    "C320_hole_refuted"
   ],
   "note": "C320_accepted, C320_folds, C320_runs and, for the first run and metrics listed once, C320_mean hold. C320_again_refuted: a second run doubles every error. C320_hole_refuted: a fold whose rows are all missing makes the whole backtest raise. The forecasts of a fold come from one call of predict for the rows before each of the folds; that predict treats the series of a call separately is not part of the claim."
  },
  {
   "property": "C321",
   "status": "partial",
   "theorems": [
    "C321_found_partial",
    "C321_elsewhere_refuted",
    "C321_columns",
    "C321_air_passengers"
   ],
   "note": "Refuted in general: from a directory without \"kats\" (in any case) in its path no data file is found (C321_elsewhere_refuted), because the path given to pkgutil, which is relative to the package, is chosen by the current directory. C321_found_partial covers the other directories; C321_columns holds everywhere."
  },
  {
   "property": "C322",
   "status": "partial",
   "theorems": [
    "C322_scores_partial",
    "C322_times",
    "C322_unsorted_refuted"
   ],
   "note": "C322_scores_partial: for series in the order of time. C322_times: for all series the times are those of the series, sorted, and the values are in their old order; C322_unsorted_refuted: hence any series built with sort_by_time=False that is out of order gets the value of another time as the score of some time, if its times and its values are distinct."
  }
 ]
}
