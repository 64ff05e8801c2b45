{
 "claims": [
  {
   "property": "C01",
   "status": "proved",
   "theorems": [
    "rollback_rotates",
    "rollback_empty_refuted"
   ],
   "note": "Any element type. Empty arrays take a modulo by zero."
  },
  {
   "property": "C02",
   "status": "proved",
   "theorems": [
    "fused_rollback_add_rotates"
   ],
   "note": "Any element type and addition."
  },
  {
   "property": "C03",
   "status": "proved",
   "theorems": [
    "circular_prefix_sum_correct"
   ],
   "note": "Exact arithmetic; any number of wraps; frame included."
  },
  {
   "property": "C04",
   "status": "partial",
   "theorems": [
    "py_circular_prefix_sum_partial",
    "py_circular_prefix_sum_refuted"
   ],
   "note": "False as stated: refuted for every nsum > len(x) in every arithmetic; proved for nsum <= len(x)."
  },
  {
   "property": "C05",
   "status": "proved",
   "theorems": [
    "ffa2_float_fold",
    "ffa2_exact_fold",
    "ffa2_no_rows_refuted",
    "ffa2_no_columns_refuted"
   ],
   "note": "Totality, memory safety and independence of scratch contents, any element type; up to 2^22 rows with binary32 indices, up to 2^64 with exact ones. Empty shapes are shown to fail."
  },
  {
   "property": "C06",
   "status": "proved",
   "theorems": [
    "ffa2_float_fold",
    "ffa2_exact_fold"
   ],
   "note": "The shift family and summation tree are chosen before the data."
  },
  {
   "property": "C07",
   "status": "proved",
   "theorems": [
    "ffa2_exact_fold",
    "ffa2_float_deviation"
   ],
   "note": "(ceil(log2 m) - 1)/2 bins with exact index arithmetic, ceil(log2 m) - 1 bins with binary32."
  },
  {
   "property": "C08",
   "status": "proved",
   "theorems": [
    "ffa2_extreme_rows"
   ],
   "note": "Exact sums, binary32 indices."
  },
  {
   "property": "C09",
   "status": "proved",
   "theorems": [
    "ffa2_conserves",
    "ffa2_linear",
    "ffa2_rotation"
   ],
   "note": "Exact sums, binary32 indices."
  },
  {
   "property": "C10",
   "status": "proved",
   "theorems": [
    "ffa2_float_fold"
   ],
   "note": "Both contraction modes."
  },
  {
   "property": "C100",
   "status": "proved",
   "theorems": [
    "periodogram_expected_snr"
   ],
   "note": "exact arithmetic; the distribution of the noise is a monotone linear expectation"
  },
  {
   "property": "C101",
   "status": "proved",
   "theorems": [
    "ffa_search_detects"
   ],
   "note": "exact arithmetic"
  },
  {
   "property": "C102",
   "status": "proved",
   "theorems": [
    "ffa2_response_bound",
    "ffa2_aligned"
   ],
   "note": "merge indices in single precision, sums in exact arithmetic"
  },
  {
   "property": "C103",
   "status": "proved",
   "theorems": [
    "circular_prefix_sum_rounding"
   ],
   "note": "single precision values, no overflow; operations in the order of the source"
  },
  {
   "property": "C104",
   "status": "proved",
   "theorems": [
    "snr_rounding",
    "boxcar_snr_rounding"
   ],
   "note": "single precision values, no overflow; operations in the order of the source, with or without fused multiply-add"
  },
  {
   "property": "C105",
   "status": "proved",
   "theorems": [
    "downsample_rounding"
   ],
   "note": "single precision samples, no overflow; sums in the order of the source, with or without fused multiply-add"
  },
  {
   "property": "C106",
   "status": "proved",
   "theorems": [
    "periodogram_rounding"
   ],
   "note": "Model in Flocq rounding to nearest (FLT, no overflow); log and pow of libm abstract."
  },
  {
   "property": "C107",
   "status": "proved",
   "theorems": [
    "periodogram_float_covers"
   ],
   "note": "For the model in floating point (numF). Assumes the accuracy of log() and pow() (Spec/Libm.v)."
  },
  {
   "property": "C108",
   "status": "proved",
   "theorems": [
    "periodogram_float_detects"
   ],
   "note": "For the model in floating point (numF). Assumes the accuracy of log() and pow() (Spec/Libm.v)."
  },
  {
   "property": "C109",
   "status": "proved",
   "theorems": [
    "rseek_arguments"
   ],
   "note": "After the conversion of the texts by argparse, which is not modelled."
  },
  {
   "property": "C11",
   "status": "partial",
   "theorems": [
    "ffa2_huge_refuted",
    "ffa2_float_fold"
   ],
   "note": "False as stated: no input with 2^24+1 rows is transformed (out-of-bounds read). ffa2_float_fold: the transform up to the size where the row arithmetic is exact."
  },
  {
   "property": "C110",
   "status": "proved",
   "theorems": [
    "ieee_double",
    "ieee_single",
    "ieee_integers"
   ],
   "note": ""
  },
  {
   "property": "C111",
   "status": "proved",
   "theorems": [
    "periodogram_ieee"
   ],
   "note": "The bound 2^40 on the samples leaves a factor 2^6 to the range of float32 in the worst case (S/N below 2^122). log and pow are parameters that return finite values."
  },
  {
   "property": "C112",
   "status": "proved",
   "theorems": [
    "normalise_ieee",
    "normalise_constant_nan"
   ],
   "note": "Samples are summed in order; numpy's pairwise order is not modelled."
  },
  {
   "property": "C113",
   "status": "proved",
   "theorems": [
    "ffa_search_ieee",
    "ffa_search_constant_nan"
   ],
   "note": "deredden=False."
  },
  {
   "property": "C114",
   "status": "partial",
   "theorems": [
    "normalise_float32",
    "normalise_inplace_float32_refuted"
   ],
   "note": "True of the object normalise() returns; refuted for inplace=True, where numpy 2 leaves float64 data."
  },
  {
   "property": "C115",
   "status": "proved",
   "theorems": [
    "normalise_rounding",
    "standard_sums",
    "standard_max"
   ],
   "note": ""
  },
  {
   "property": "C116",
   "status": "proved",
   "theorems": [
    "ffa_search_float_detects",
    "response_change"
   ],
   "note": "float_search and double ducy are hypotheses; the accuracy of log and pow is part of float_search"
  },
  {
   "property": "C117",
   "status": "proved",
   "theorems": [
    "width_trials_float"
   ],
   "note": ""
  },
  {
   "property": "C118",
   "status": "proved",
   "theorems": [
    "cluster1d_float_friends",
    "cluster1d_float_exact_radius_refuted"
   ],
   "note": "both halves of the statement"
  },
  {
   "property": "C119",
   "status": "proved",
   "theorems": [
    "find_peaks_float"
   ],
   "note": "the fit of the threshold and numpy.argsort are arguments; no overflow in this arithmetic"
  },
  {
   "property": "C12",
   "status": "proved",
   "theorems": [
    "ffa2_rounding_error"
   ],
   "note": "For binary32 inputs and round-to-nearest additions, u = 2^-24."
  },
  {
   "property": "C120",
   "status": "proved",
   "theorems": [
    "segment_stats_float"
   ],
   "note": "percentile as the model writes it, a + (b - a) t in double precision"
  },
  {
   "property": "C121",
   "status": "proved",
   "theorems": [
    "running_median_of_quiet_data",
    "pulse_train_is_mostly_quiet"
   ],
   "note": ""
  },
  {
   "property": "C122",
   "status": "proved",
   "theorems": [
    "rseek_finds_pulses",
    "worker_finds_pulses"
   ],
   "note": ""
  },
  {
   "property": "C123",
   "status": "proved",
   "theorems": [
    "process_finds_pulses"
   ],
   "note": ""
  },
  {
   "property": "C124",
   "status": "proved",
   "theorems": [
    "sum_any_order",
    "downsample_any_order"
   ],
   "note": "The terms of a sum are values and products of two values. All float theorems quantify over builds."
  },
  {
   "property": "C125",
   "status": "proved",
   "theorems": [
    "deredden_ieee",
    "ffa_search_deredden_ieee"
   ],
   "note": "IEEE arithmetic, width up to 2^51 samples"
  },
  {
   "property": "C126",
   "status": "proved",
   "theorems": [
    "deredden_rounding"
   ],
   "note": ""
  },
  {
   "property": "C127",
   "status": "proved",
   "theorems": [
    "ffa_search_deredden_float_detects"
   ],
   "note": ""
  },
  {
   "property": "C128",
   "status": "proved",
   "theorems": [
    "normalise_not_finite",
    "deredden_not_finite",
    "ffa_search_not_finite",
    "find_peaks_nan",
    "worker_not_finite",
    "rseek_not_finite"
   ],
   "note": "IEEE semantics; a compiler given -ffinite-math-only need not honour it in the C++ part (the running median and the S/Ns). What numpy.polyfit does with NaNs is a parameter: an exception ends the worker."
  },
  {
   "property": "C129",
   "status": "proved",
   "theorems": [
    "rseek_report_float",
    "worker_float_finds_pulses",
    "rseek_float_finds_pulses"
   ],
   "note": "Conditional on the run returning: numpy.polyfit() may raise, and a range may have too few trials for its segments."
  },
  {
   "property": "C13",
   "status": "proved",
   "theorems": [
    "ffa1_checks",
    "ffa1_folds"
   ],
   "note": ""
  },
  {
   "property": "C130",
   "status": "proved",
   "theorems": [
    "fold_rounding",
    "fold_float_returns"
   ],
   "note": "data of at most 33554432 samples, tsamp at least 2^-200"
  },
  {
   "property": "C131",
   "status": "proved",
   "theorems": [
    "run_keeps_peaks",
    "run_returns"
   ],
   "note": "For every arithmetic. The concrete case executes a whole run in IEEE arithmetic."
  },
  {
   "property": "C132",
   "status": "proved",
   "theorems": [
    "run_float_finds_pulses"
   ],
   "note": "numF arithmetic (round to nearest, no overflow). The run is assumed to return; a run that returns is executed in IEEE arithmetic under C131."
  },
  {
   "property": "C133",
   "status": "partial",
   "theorems": [
    "benchmark_ffa2_correct",
    "benchmark_ffa2_overflow_refuted",
    "benchmark_ffa2_no_rows_refuted"
   ],
   "note": "Correct within the bounds stated; refuted outside of them (wrap-around of rows*cols, no rows)."
  },
  {
   "property": "C134",
   "status": "partial",
   "theorems": [
    "trial_periods_float",
    "trial_periods_float_refuted"
   ],
   "note": "Range and order up to rounding for every search; strict increase refuted in binary64 (C28 proves it in exact arithmetic)."
  },
  {
   "property": "C135",
   "status": "partial",
   "theorems": [
    "parse_args_correct",
    "cli_status",
    "cli_cwd_refuted"
   ],
   "note": "Parser and exit status for all options; that a given output directory suffices is refuted when os.getcwd() raises."
  },
  {
   "property": "C136",
   "status": "proved",
   "theorems": [
    "process_fname_float_total",
    "segments_range",
    "near_trial",
    "trial_count"
   ],
   "note": "numpy.polyfit() and numpy.argsort() are any functions; data that are constant once the running medians are subtracted divide by zero, which the real arithmetic of the model gives a value (see C128 for the exact IEEE behaviour)"
  },
  {
   "property": "C137",
   "status": "proved",
   "theorems": [
    "run_float_total",
    "run_always",
    "worker_ok_float",
    "fold_float_safe",
    "htest_float"
   ],
   "note": "prepare() is assumed to have returned; the arithmetic has no overflow (see DESIGN.md)"
  },
  {
   "property": "C138",
   "status": "proved",
   "theorems": [
    "select_dms_total"
   ],
   "note": ""
  },
  {
   "property": "C139",
   "status": "proved",
   "theorems": [
    "select_dms_float"
   ],
   "note": "x ** -2 is computed as 1 / (x * x); the arithmetic has no overflow (see DESIGN.md)"
  },
  {
   "property": "C14",
   "status": "proved",
   "theorems": [
    "ffafreq_checks",
    "ffafreq_trials"
   ],
   "note": "exact arithmetic"
  },
  {
   "property": "C140",
   "status": "proved",
   "theorems": [
    "dm_iterator_float",
    "dm_iterator_reduces"
   ],
   "note": "numF for every build. The theorem supposes a usual band (17/16 fmin <= fmax <= 4 fmin, up to 16384 channels), which the rounding bound needs; dm_iterator_reduces, the reduction of the constructor to select_dms(), holds for all bands."
  },
  {
   "property": "C141",
   "status": "proved",
   "theorems": [
    "prepare_float_total",
    "prepare_float_validated",
    "run_float_prepared"
   ],
   "note": "numF for every build. The run corollary replaces the hypothesis of C137 that prepare() returned by conditions on the files and the configuration."
  },
  {
   "property": "C142",
   "status": "proved",
   "theorems": [
    "ffafreq_float"
   ],
   "note": "numF for every build; f0**2 is taken as a rounded product, as C pow() gives for a square. The exact order and drift are C14."
  },
  {
   "property": "C143",
   "status": "proved",
   "theorems": [
    "htest_float_distances"
   ],
   "note": "numF for every build. The band satisfies 17/16 fmin <= fmax <= 4 fmin; the DMs are equal or differ by at least 2^-100. fmin**-2 is taken as the rounded inverse of the rounded square."
  },
  {
   "property": "C144",
   "status": "proved",
   "theorems": [
    "validated_ranges_fold_float"
   ],
   "note": "C50 in floating point with the margin that makes it true"
  },
  {
   "property": "C145",
   "status": "proved",
   "theorems": [
    "parse_float_coord_float"
   ],
   "note": "C56 in floating point; minutes and seconds above 60 are left to C56"
  },
  {
   "property": "C146",
   "status": "proved",
   "theorems": [
    "flag_harmonics_float",
    "candidate_filters_float",
    "get_search_range_float",
    "flag_harmonics_same",
    "candidate_filters_same",
    "get_search_range_same"
   ],
   "note": "C45, C47 and C49 for doubles"
  },
  {
   "property": "C15",
   "status": "proved",
   "theorems": [
    "downsample_integrates"
   ],
   "note": "exact arithmetic"
  },
  {
   "property": "C16",
   "status": "proved",
   "theorems": [
    "downsample_conserves",
    "downsample_linear"
   ],
   "note": "exact arithmetic; monotone in the sense that bounds on the input bound the output"
  },
  {
   "property": "C17",
   "status": "proved",
   "theorems": [
    "downsample_float_memory_safe",
    "downsample_float_check"
   ],
   "note": "binary64 coordinates, fused or not, N up to 2^50"
  },
  {
   "property": "C18",
   "status": "partial",
   "theorems": [
    "downsampled_noise",
    "downsampled_variance_drift",
    "downsampled_variance_small_drift",
    "downsampled_variance_partial",
    "downsampled_variance_refuted"
   ],
   "note": "the value is the mean of the true variances over the bin phases once these drift through a whole sample, and exceeds the mean by (k-1)(k-2) otherwise (k = floor f): exact for f < 3, refuted for every integer f >= 3 because the code squares k - 1"
  },
  {
   "property": "C19",
   "status": "proved",
   "theorems": [
    "snr_matched_filter",
    "boxcar_snr_matched_filter"
   ],
   "note": "exact arithmetic; profiles of fewer than 2^64 bins"
  },
  {
   "property": "C20",
   "status": "proved",
   "theorems": [
    "snr_invariances"
   ],
   "note": "exact arithmetic"
  },
  {
   "property": "C21",
   "status": "proved",
   "theorems": [
    "snr_best_width"
   ],
   "note": "exact arithmetic"
  },
  {
   "property": "C22",
   "status": "proved",
   "theorems": [
    "snr_checks",
    "snr2_checks",
    "snr_no_widths_refuted"
   ],
   "note": "for every arithmetic; empty width list is undefined behaviour"
  },
  {
   "property": "C23",
   "status": "proved",
   "theorems": [
    "width_trials"
   ],
   "note": "exact arithmetic"
  },
  {
   "property": "C24",
   "status": "proved",
   "theorems": [
    "nth_element_selects"
   ],
   "note": "termination, memory safety and permutation for any comparison"
  },
  {
   "property": "C25",
   "status": "proved",
   "theorems": [
    "running_median_correct",
    "median_unique_R"
   ],
   "note": ""
  },
  {
   "property": "C26",
   "status": "partial",
   "theorems": [
    "fast_running_median_correct",
    "fast_running_median_values",
    "fast_running_median_short_refuted"
   ],
   "note": "exact arithmetic. The claim that it always returns is false: exact failure condition proved, with a witness whose width is valid for running_median"
  },
  {
   "property": "C27",
   "status": "proved",
   "theorems": [
    "periodogram_trials",
    "periodogram_checks",
    "periodogram_float_safe"
   ],
   "note": "Announced length equals the number of trials written and all accesses are in bounds: exact arithmetic (periodogram_trials) and binary64 with any log/pow ordered correctly around 1, at most 2^22 periods per fold and counts that fit size_t (periodogram_float_safe). periodogram_checks: rejected arguments raise ValueError."
  },
  {
   "property": "C28",
   "status": "proved",
   "theorems": [
    "periodogram_trials"
   ],
   "note": "Exact arithmetic; see C134 for what rounding leaves of it (trial_periods_float, trial_periods_float_refuted)."
  },
  {
   "property": "C29",
   "status": "proved",
   "theorems": [
    "periodogram_coverage"
   ],
   "note": "Exact arithmetic; the data hold at least two of the longest period."
  },
  {
   "property": "C30",
   "status": "proved",
   "theorems": [
    "periodogram_snr"
   ],
   "note": "Exact arithmetic."
  },
  {
   "property": "C31",
   "status": "partial",
   "theorems": [
    "periodogram_period_max_refuted",
    "periodogram_returns",
    "periodogram_trials"
   ],
   "note": "The property is false of the code: with period_max too long for the data, ValueError is raised by downsample. periodogram_returns gives the exact condition (exact arithmetic) under which a result is returned, and that ValueError is raised otherwise."
  },
  {
   "property": "C32",
   "status": "partial",
   "theorems": [
    "ffa_search_fpmin_refuted"
   ],
   "note": "False as stated: for every fpmin, all trial periods exceed length/fpmin as soon as period_min does."
  },
  {
   "property": "C33",
   "status": "proved",
   "theorems": [
    "normalise_standard"
   ],
   "note": "exact arithmetic: zero mean, unit variance"
  },
  {
   "property": "C34",
   "status": "proved",
   "theorems": [
    "timeseries_not_inplace",
    "timeseries_inplace",
    "timeseries_isolated",
    "timeseries_copy_independent"
   ],
   "note": "every history of operations on a heap of arrays; the one caller array kept by TimeSeries(data) without a copy is in the model"
  },
  {
   "property": "C35",
   "status": "partial",
   "theorems": [
    "timeseries_tobs",
    "timeseries_tobs_refuted"
   ],
   "note": "False as stated: in-place downsampling keeps the old tobs (refuted theorem). Proved for every history without in-place downsampling."
  },
  {
   "property": "C36",
   "status": "proved",
   "theorems": [
    "fold_correct"
   ],
   "note": "exact arithmetic"
  },
  {
   "property": "C37",
   "status": "proved",
   "theorems": [
    "fold_correct",
    "fold_profile_sums"
   ],
   "note": "exact arithmetic"
  },
  {
   "property": "C38",
   "status": "partial",
   "theorems": [
    "fold_rows_refuted",
    "fold_rows_float_partial"
   ],
   "note": "False as stated (7 sub-integrations of 9 periods give 6 rows); proved: at most one row is lost."
  },
  {
   "property": "C39",
   "status": "proved",
   "theorems": [
    "cluster1d_friends"
   ],
   "note": "exact arithmetic; for every order argsort may give to ties"
  },
  {
   "property": "C40",
   "status": "proved",
   "theorems": [
    "find_peaks_correct"
   ],
   "note": "exact arithmetic; the polynomial fit and argsort are arbitrary functions (argsort a sorting permutation)"
  },
  {
   "property": "C41",
   "status": "proved",
   "theorems": [
    "select_dms_correct"
   ],
   "note": "Real arithmetic. Selection increasing, a subset, extremes of the range kept, and everything any input DM would cover is covered (so a gap remains only where no input DM helps)."
  },
  {
   "property": "C42",
   "status": "partial",
   "theorems": [
    "select_dms_correct",
    "select_dms_minimum_refuted"
   ],
   "note": "Minimal among all selections covering the same set of DMs, for at least two channels. The stronger reading (fewest to cover only the interval between first and last DM) is refuted."
  },
  {
   "property": "C43",
   "status": "proved",
   "theorems": [
    "dm_iterator_correct",
    "dm_iterator_all_files"
   ],
   "note": "Chunks of the given size, last one possibly smaller, concatenation lists the selected trials in order; each file once when DMs and names are distinct."
  },
  {
   "property": "C44",
   "status": "partial",
   "theorems": [
    "dm_iterator_all_files",
    "dm_iterator_all_files_refuted"
   ],
   "note": "Holds when no two files share a DM; refuted otherwise: only the last file of a DM is handed out."
  },
  {
   "property": "C45",
   "status": "proved",
   "theorems": [
    "flag_harmonics_correct",
    "flag_harmonics_total",
    "flag_harmonics_depth"
   ],
   "note": ""
  },
  {
   "property": "C46",
   "status": "partial",
   "theorems": [
    "htest_correct",
    "htest_denominator_refuted"
   ],
   "note": "Fraction is the best approximation, coprime, positive; related exactly when the three distances are within limits; denominator bound refuted when the roles are inverted."
  },
  {
   "property": "C47",
   "status": "proved",
   "theorems": [
    "candidate_filters_correct",
    "candidate_filters_total",
    "candidate_filters_none"
   ],
   "note": ""
  },
  {
   "property": "C48",
   "status": "partial",
   "theorems": [
    "build_candidates_correct",
    "build_candidates_load_refuted"
   ],
   "note": "Failures to fold are isolated. A failure to find, load or prepare a DM trial's time series is not: it aborts everything, which is proved by an example."
  },
  {
   "property": "C49",
   "status": "partial",
   "theorems": [
    "get_search_range_correct",
    "get_search_range_validated_refuted"
   ],
   "note": "True for contiguous ranges that are the right way around. The validation does not check period_min < period_max; with a reversed range a period in between gets None."
  },
  {
   "property": "C50",
   "status": "partial",
   "theorems": [
    "validated_ranges_fold_partial",
    "validated_ranges_fold_refuted"
   ],
   "note": "True unless the period is exactly bins * tsamp, where it is refuted. Exact arithmetic."
  },
  {
   "property": "C51",
   "status": "proved",
   "theorems": [
    "pool_map_correct",
    "pool_map_sound",
    "search_correct",
    "search_independent",
    "iterate_filenames_chunks"
   ],
   "note": "Over all schedules of a transition system of multiprocessing.Pool.map. pool_map_sound does not even ask that no element has undefined behaviour. That clustering depends only on the multiset of peaks is cluster1d_friends (C40)."
  },
  {
   "property": "C52",
   "status": "proved",
   "theorems": [
    "candidate_fname_injective",
    "candidate_files_any_point",
    "save_products_correct"
   ],
   "note": "All interleavings of the writers, failed writes and killed processes included. The PNG files are covered as files of their own name; their contents are opaque."
  },
  {
   "property": "C53",
   "status": "proved",
   "theorems": [
    "base64_roundtrip",
    "base64_correct",
    "base64_shape"
   ],
   "note": "base64 encoder against the RFC 4648 table, decoder as binascii does it"
  },
  {
   "property": "C54",
   "status": "partial",
   "theorems": [
    "json_roundtrip",
    "json_roundtrip_exact",
    "json_reload_stable",
    "json_unknown_object",
    "json_metadata_refuted",
    "json_tuple_refuted",
    "json_type_key_refuted",
    "json_dataframe_dtypes_refuted",
    "json_read_only_refuted",
    "json_empty_series_refuted"
   ],
   "note": "Every savable value loads as loaded(v), equal to v for plain values and stable afterwards. Full equality is refuted: Metadata, tuples, numpy scalars, mixed column types, writability and empty series are not preserved. The JSON text between dumps and loads is not modelled."
  },
  {
   "property": "C55",
   "status": "proved",
   "theorems": [
    "sigproc_header_roundtrip",
    "sigproc_header_terminates",
    "sigproc_header_accepts",
    "sigproc_header_complete",
    "sigproc_header_strict_refuted"
   ],
   "note": "Round trip for any attribute list and payload, termination on every byte string, and an exact description of the accepted files. sigproc_header_strict_refuted: a header whose HEADER_END has a negative or excessive size is accepted when it is at the end of the file."
  },
  {
   "property": "C56",
   "status": "proved",
   "theorems": [
    "parse_float_coord_correct",
    "parse_float_coord_total"
   ],
   "note": "Over exact reals."
  },
  {
   "property": "C57",
   "status": "proved",
   "theorems": [
    "inf2dict_radio",
    "inf2dict_high_energy",
    "inf2dict_other_band",
    "inf2dict_fake"
   ],
   "note": "ASCII text; conversion of decimal numbers to floats is a parameter."
  },
  {
   "property": "C58",
   "status": "partial",
   "theorems": [
    "config_validation_exact",
    "config_validation_idempotent",
    "config_ranges_readable",
    "validate_ranges_correct",
    "config_subints_null_refuted",
    "config_blank_find_peaks_refuted",
    "config_no_ranges_refuted",
    "config_bool_int_refuted",
    "config_even_minpts_refuted",
    "config_inverted_range_refuted",
    "config_infinite_period_refuted"
   ],
   "note": "Exactly the dictionaries of Spec.ConfigSpec are accepted, with numbers converted as stated there; validation is idempotent; accepted ranges are contiguous and fine enough. The documented constraints differ in the ways of the refuted theorems, and a range that ends before it starts is accepted."
  },
  {
   "property": "C59",
   "status": "proved",
   "theorems": [
    "cluster_peaks_correct"
   ],
   "note": ""
  },
  {
   "property": "C60",
   "status": "proved",
   "theorems": [
    "rseek_report_correct",
    "rseek_report_none"
   ],
   "note": ""
  },
  {
   "property": "C61",
   "status": "partial",
   "theorems": [
    "fold_whole_length_refuted",
    "fold_correct"
   ],
   "note": "False as stated: ZeroDivisionError witness in IEEE arithmetic. fold_correct: what is returned otherwise."
  },
  {
   "property": "C62",
   "status": "proved",
   "theorems": [
    "ffa_search_correct"
   ],
   "note": "exact arithmetic, without dereddening"
  },
  {
   "property": "C63",
   "status": "proved",
   "theorems": [
    "ffa_search_affine"
   ],
   "note": "exact arithmetic; on constant data the model's 0/0 stands for NaN"
  },
  {
   "property": "C64",
   "status": "proved",
   "theorems": [
    "segment_stats_correct"
   ],
   "note": ""
  },
  {
   "property": "C65",
   "status": "partial",
   "theorems": [
    "find_peaks_one_trial_refuted",
    "segment_stats_correct"
   ],
   "note": "Refuted: one trial always gives ZeroDivisionError. segment_stats_correct: the statistics for several trials."
  },
  {
   "property": "C66",
   "status": "partial",
   "theorems": [
    "htest_snr_doc_refuted",
    "htest_correct"
   ],
   "note": "Refuted: documented and coded S/N rules disagree. htest_correct: the coded rule."
  },
  {
   "property": "C67",
   "status": "partial",
   "theorems": [
    "build_candidates_twice_refuted",
    "build_candidates_correct"
   ],
   "note": "False: candidates are appended to those of the first run. build_candidates_correct: a first run."
  },
  {
   "property": "C68",
   "status": "partial",
   "theorems": [
    "stale_candidates_refuted",
    "save_products_correct"
   ],
   "note": "False: candidate files of an earlier run with more candidates remain. The current candidates are all there."
  },
  {
   "property": "C69",
   "status": "proved",
   "theorems": [
    "pool_map_terminates",
    "pool_map_returns"
   ],
   "note": ""
  },
  {
   "property": "C70",
   "status": "proved",
   "theorems": [
    "from_sigproc_correct",
    "from_sigproc_one_channel_refuted"
   ],
   "note": "Assumes tsamp > 0; without it a file with a negative channel count and negative tsamp is loaded (refuted theorem)."
  },
  {
   "property": "C71",
   "status": "proved",
   "theorems": [
    "data_fname_inf",
    "from_presto_inf_correct",
    "data_fname_same_directory_refuted"
   ],
   "note": "For files named stem.inf; a name without extension in a directory with a dot in its name points to a .dat file outside this directory (refuted theorem)."
  },
  {
   "property": "C72",
   "status": "proved",
   "theorems": [
    "worker_series_objects",
    "worker_common_preprocessing",
    "worker_ffa_search"
   ],
   "note": "Any arithmetic. worker_series_objects ties the values used here to the heap objects of Model.TimeSeries."
  },
  {
   "property": "C73",
   "status": "proved",
   "theorems": [
    "process_fname_correct",
    "median_of_unique"
   ],
   "note": "Exact arithmetic; the polynomial threshold fit is a parameter."
  },
  {
   "property": "C74",
   "status": "partial",
   "theorems": [
    "deredden_accepts",
    "process_fname_total",
    "deredden_defaults_refuted",
    "worker_no_dm_refuted",
    "worker_even_width_refuted"
   ],
   "note": "False as stated (three refutations). Proved: exactly which windows deredden accepts, and that a worker succeeds when the DM is present, the window is accepted, 3 pmax fits in the data and every range has more trials than segments."
  },
  {
   "property": "C75",
   "status": "proved",
   "theorems": [
    "dm_iterator_band",
    "dm_iterator_refuses"
   ],
   "note": ""
  },
  {
   "property": "C76",
   "status": "proved",
   "theorems": [
    "process_correct"
   ],
   "note": "hypotheses: positive radius and filters, files whose data agree with their headers, fit and argsort oracles as numpy documents them"
  },
  {
   "property": "C77",
   "status": "proved",
   "theorems": [
    "cluster_table_correct"
   ],
   "note": ""
  },
  {
   "property": "C78",
   "status": "proved",
   "theorems": [
    "process_files",
    "save_products_files"
   ],
   "note": ""
  },
  {
   "property": "C79",
   "status": "proved",
   "theorems": [
    "process_determined",
    "save_products_determined"
   ],
   "note": ""
  },
  {
   "property": "C80",
   "status": "proved",
   "theorems": [
    "process_total"
   ],
   "note": "sufficient conditions; the ones on each file are those of process_fname_total"
  },
  {
   "property": "C81",
   "status": "proved",
   "theorems": [
    "best_response_nonneg",
    "snr_nonneg"
   ],
   "note": ""
  },
  {
   "property": "C82",
   "status": "proved",
   "theorems": [
    "sigproc_metadata",
    "presto_metadata",
    "sigproc_files_agree",
    "presto_files_agree"
   ],
   "note": "realpath, galactic coordinates, SkyCoord and float() are parameters"
  },
  {
   "property": "C83",
   "status": "proved",
   "theorems": [
    "rseek_correct",
    "rseek_safe",
    "rseek_total",
    "rseek_report_correct",
    "rseek_report_none"
   ],
   "note": "the layout of the printed table is not modelled"
  },
  {
   "property": "C84",
   "status": "partial",
   "theorems": [
    "rseek_minpts_refuted"
   ],
   "note": "false of the code: argparse makes the option a float, which pybind11 refuses to convert to size_t whenever the data are scrunched"
  },
  {
   "property": "C85",
   "status": "proved",
   "theorems": [
    "dm_curve_correct"
   ],
   "note": ""
  },
  {
   "property": "C86",
   "status": "proved",
   "theorems": [
    "profile_correct"
   ],
   "note": ""
  },
  {
   "property": "C87",
   "status": "proved",
   "theorems": [
    "plot_correct",
    "process_plottable",
    "process_plots",
    "process_plots_total"
   ],
   "note": "the image file is a function of the data handed to matplotlib"
  },
  {
   "property": "C88",
   "status": "partial",
   "theorems": [
    "plot_candidates_refuted"
   ],
   "note": "false of the code: candidates.subints = 1 is accepted by the validation, but the plot then unpacks the shape of a 1-D array; process_plottable gives the exact condition and process_plots_total the true version"
  },
  {
   "property": "C89",
   "status": "proved",
   "theorems": [
    "config_read",
    "config_means_unique"
   ],
   "note": ""
  },
  {
   "property": "C90",
   "status": "proved",
   "theorems": [
    "main_configuration"
   ],
   "note": ""
  },
  {
   "property": "C91",
   "status": "proved",
   "theorems": [
    "main_correct",
    "main_total",
    "main_determined"
   ],
   "note": "Exact arithmetic. The hypotheses are on the environment (allocation, sorting, library functions return or raise, symbolic links resolved), on the band being known, and that sizes fit the C types."
  },
  {
   "property": "C92",
   "status": "proved",
   "theorems": [
    "main_files"
   ],
   "note": "Same hypotheses as C91; figures and JSON texts are functions of what they show."
  },
  {
   "property": "C93",
   "status": "partial",
   "theorems": [
    "clrad_null_refuted",
    "minpts_float_refuted",
    "main_total"
   ],
   "note": "False as stated: the validation accepts 'clrad: null' and a float for rmed_minpts, but with clrad null, or with a float x for rmed_minpts and windows of at least 2x samples, every run with a file in the DM range raises and writes nothing. main_total gives conditions under which an accepted configuration runs."
  },
  {
   "property": "C94",
   "status": "proved",
   "theorems": [
    "von_mises_shape",
    "von_mises_unique",
    "generate_signal_correct",
    "pulse_train_unique",
    "pulse_train_periodic"
   ],
   "note": "exact arithmetic"
  },
  {
   "property": "C95",
   "status": "proved",
   "theorems": [
    "generate_signal_snr"
   ],
   "note": "exact arithmetic; noise is any zero-mean uncorrelated source of the given variance"
  },
  {
   "property": "C96",
   "status": "proved",
   "theorems": [
    "ts_generate_correct",
    "ts_generate_raises"
   ],
   "note": "exact arithmetic"
  },
  {
   "property": "C97",
   "status": "proved",
   "theorems": [
    "series_constructors",
    "series_narrow"
   ],
   "note": ""
  },
  {
   "property": "C98",
   "status": "proved",
   "theorems": [
    "pgram_freqs",
    "pgram_plot",
    "pgram_plot_index"
   ],
   "note": "exact arithmetic"
  },
  {
   "property": "C99",
   "status": "proved",
   "theorems": [
    "periodogram_detects"
   ],
   "note": "exact arithmetic"
  }
 ]
}
