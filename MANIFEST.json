{
 "claims": [
  {
   "property": "C01",
   "status": "proved",
   "theorems": [
    "C01_balanced",
    "C01_each_item_exactly_once",
    "C01_float_map_exact",
    "C01_only_existing_ranks"
   ],
   "note": "All processes, list lengths and items. The binary64 process map is shown to equal the integer map for n*p <= 2^53 (Flocq; uses the axioms of Coq's Reals)."
  },
  {
   "property": "C02",
   "status": "partial",
   "theorems": [
    "C02_joint_norm_refuted",
    "C02_process_count_irrelevant_partial",
    "C02_process_count_matters_refuted",
    "C02_whitening_rowwise_partial"
   ],
   "note": "Holds for every configuration of functions that work trace by trace (any number of processes); spectral whitening qualifies only if no spectral sample is zero. The full property is false of the code: a zero spectral sample switches off whitening for all traces on the same process, and joint_norm raises AssertionError depending on the process count (both refuted with witnesses). FFT and correlation arithmetic are abstract parameters."
  },
  {
   "property": "C03",
   "status": "partial",
   "theorems": [
    "C03_balanced_runs_complete_partial",
    "C03_completes_iff_equal_totals",
    "C03_failure_deadlock_refuted",
    "C03_failures_mix_times_refuted",
    "C03_regular_runs_complete_partial",
    "C03_unequal_totals_deadlock"
   ],
   "note": "False of the code (two refutations): a processing error on one process makes it skip collectives - the run deadlocks, or, if the failures balance out, windows of different times are combined. Proved: without preprocess_subdiv the run completes iff all processes have the same total number of windows; with equal window counts per increment it completes in both modes and every process sees what a single process holding all data would. How many windows obspy's slide yields is an input of the model."
  },
  {
   "property": "C04",
   "status": "proved",
   "theorems": [
    "C04_crash_keeps_flushed",
    "C04_crash_prefix",
    "C04_only_appends",
    "C04_written_exactly_once"
   ],
   "note": "Every window sequence and every crash point of the loop. A crash inside one file write is outside the model."
  },
  {
   "property": "C05",
   "status": "partial",
   "theorems": [
    "C05_batches_are_shifted_partial",
    "C05_batches_never_increments_refuted",
    "C05_single_window_partial"
   ],
   "note": "False of the code: the write flag belongs to the first window of an increment, so batches are shifted by one window whenever an increment has two windows (refuted for all such runs). Proved: the exact shape of the batches, and that one window per increment is fine."
  },
  {
   "property": "C06",
   "status": "proved",
   "theorems": [
    "C06_exactly_documented",
    "C06_known_method_succeeds",
    "C06_unknown_method_rejected"
   ],
   "note": "All streams, existing-data dictionaries and method names. 'Already exists' is the lookup of the model (see C10), 'allowed' the requested-combination test (see C07)."
  },
  {
   "property": "C07",
   "status": "partial",
   "theorems": [
    "C07_exact_partial",
    "C07_exact_refuted",
    "C07_other_methods",
    "C07_pair_correlated_partial",
    "C07_requested_accepted",
    "C07_second_station_refuted",
    "C07_stations_kept",
    "C07_stations_read"
   ],
   "note": "Every requested pair passes the test, in either order, for all codes. The converse and the end-to-end statement are proved for entries without channel codes and codes of equal length. False in general: 'XX-XX.A-B' also selects A-BC, and an entry with channel codes drops its second station before anything is read (both refuted)."
  },
  {
   "property": "C08",
   "status": "proved",
   "theorems": [
    "C08_pruning_keeps_pairs",
    "C08_total"
   ],
   "note": "All windows, methods and requested combinations."
  },
  {
   "property": "C09",
   "status": "partial",
   "theorems": [
    "C09_one_name_iff",
    "C09_one_name_partial",
    "C09_one_name_refuted"
   ],
   "note": "Exact characterisation for all codes: one name iff the concatenations network+station+channel differ (or all codes agree). In particular it holds for equally long network and station codes; refuted for X.1AB / X1.AB."
  },
  {
   "property": "C10",
   "status": "partial",
   "theorems": [
    "C10_computed_iff_missing_partial",
    "C10_recomputed_refuted",
    "C10_request_hides_existing_refuted",
    "C10_rerun_computes_nothing_partial",
    "C10_search_crash_refuted",
    "C10_search_succeeds_partial",
    "C10_stack_only_crash_refuted"
   ],
   "note": "Proved end to end (directory of files written by earlier runs, search, pair selection) for network codes of one length and station codes of one length, without requested combinations, for every method. False in general: four refutations (search crashes when a station code is a prefix of another; output with stacks only; NEP/NEP1 recomputed; requested combination in the other order hides what exists)."
  },
  {
   "property": "C11",
   "status": "partial",
   "theorems": [
    "C11_one_writer_own_file_partial",
    "C11_own_file_refuted"
   ],
   "note": "All process counts and batches whose codes contain no '.' or wildcard and do not differ in capitalisation only; for codes that differ in capitalisation only it is refuted (obspy's select ignores case). Note that obspy's select is part of the model."
  },
  {
   "property": "C12",
   "status": "partial",
   "theorems": [
    "C12_correlator_lag_refuted",
    "C12_reordering_partial"
   ],
   "note": "False of the code: the correlator passes start + n/sr as end lag, so every sample of every reordered pair is stored one sample too early (proved for all inputs). The reordering itself is right if the lag of the last sample is passed."
  },
  {
   "property": "C13",
   "status": "proved",
   "theorems": [
    "C13_component",
    "C13_consistent",
    "C13_copy",
    "C13_readonly",
    "C13_updates_consistent"
   ],
   "note": "Every constructor argument and every sequence of assignments, exact rationals instead of binary64. Also: a copied header is the same header. Other header entries are texts in the model."
  },
  {
   "property": "C14",
   "status": "proved",
   "theorems": [
    "C14_exact_query",
    "C14_others_untouched",
    "C14_read_back",
    "C14_second_write_ignored",
    "C14_times_survive"
   ],
   "note": "Every history of additions and deletions (refinement to a finite map, first write wins), for codes and tags without '/' and wildcards and times of years 1-9999. Reading back needs the names in the query's order (see C17)."
  },
  {
   "property": "C15",
   "status": "partial",
   "theorems": [
    "C15_question_mark_refuted",
    "C15_remove_pattern",
    "C15_remove_time",
    "C15_wildcard_codes_refused"
   ],
   "note": "Proved for start times and for patterns of '*', over every history. Patterns with '?' violate the property (refuted: '?' deletes like '*')."
  },
  {
   "property": "C16",
   "status": "partial",
   "theorems": [
    "C16_adjacent_wildcards_partial",
    "C16_inner_wildcard_refuted",
    "C16_other_station_refuted",
    "C16_question_mark_refuted"
   ],
   "note": "Proved: '*' for whole adjacent fields (any suffix left open, in particular); the answers are sorted by name. False in general: a wildcard inside a code raises KeyError, non-adjacent wildcards and '?' over-match (three refutations)."
  },
  {
   "property": "C17",
   "status": "partial",
   "theorems": [
    "C17_found_in_either_order_partial",
    "C17_not_found_refuted",
    "C17_order_irrelevant",
    "C17_order_irrelevant_remove"
   ],
   "note": "Query and deletion do not depend on the order (all codes). Stored correlations are found for equally long network and station codes. False in general: pairs such as NEP/NEP1 are stored in one order and looked up in the other (refuted)."
  },
  {
   "property": "C18",
   "status": "partial",
   "theorems": [
    "C18_guard_partial",
    "C18_same_options_refuted"
   ],
   "note": "Proved for options without two masking steps in a row. With two adjacent masking steps a file cannot even be opened with the options it was created with (refuted). Text round trip of the options (str / literal_eval) is taken as identity; an options dictionary is modelled with a fixed key order."
  },
  {
   "property": "C19",
   "status": "proved",
   "theorems": [
    "C19_accepted_settings",
    "C19_file_name",
    "C19_file_name_stable",
    "C19_gzip_nearest_level",
    "C19_mode_otherwise",
    "C19_no_level_rejected",
    "C19_other_compressor_rejected",
    "C19_read_only_without_options"
   ],
   "note": "All paths, modes and strings; the single path 'h5' keeps its name without a dot. A compression string without a level is rejected with IndexError."
  },
  {
   "property": "C20",
   "status": "proved",
   "theorems": [
    "C20_channels_complete",
    "C20_channels_exact",
    "C20_empty_channel_refuted",
    "C20_starttimes_exact",
    "C20_starttimes_wildcard_exact"
   ],
   "note": "Start times: every history. Channels: exact for histories of additions (the quantifier of the property); after deletions the list stays complete but keeps empty channels (refutation included)."
  },
  {
   "property": "C21",
   "status": "partial",
   "theorems": [
    "C21_average_partial",
    "C21_by_length_with_nan_refuted",
    "C21_header",
    "C21_header_end_refuted",
    "C21_header_span_partial",
    "C21_lag_of_short_trace_refuted",
    "C21_one_stack_per_combination",
    "C21_same_id_decided"
   ],
   "note": "One stack per combination (all streams with codes without '.'), data for mean weights always and for by_length without NaN. False in general: by_length with NaN samples gives a wrong average, the header's end is that of the last-starting correlation and its lag that of the earliest trace (three refutations). Exact rationals instead of binary64; an all-zero average becomes NaN."
  },
  {
   "property": "C22",
   "status": "partial",
   "theorems": [
    "C22_every_correlation_once_partial",
    "C22_mixed_durations_refuted",
    "C22_succeeds",
    "C22_windows_disjoint"
   ],
   "note": "Disjointness and exact content for every stream; every correlation used exactly once if the one that starts last ends last (e.g. equal durations). Otherwise correlations are lost (refuted)."
  },
  {
   "property": "C23",
   "status": "partial",
   "theorems": [
    "C23_documented_example_refuted",
    "C23_duplicates_removed_partial",
    "C23_duplicates_with_nan_refuted",
    "C23_pop_exact",
    "C23_pop_keeps_order",
    "C23_select_full_exact",
    "C23_select_partial_exact",
    "C23_select_time_midnight_refuted",
    "C23_select_time_partial",
    "C23_select_time_partition"
   ],
   "note": "select_corr_time, pop_at_utcs exact for all inputs; remove_duplicates exact without NaN (refuted with NaN); select_time exact for correlations within one day (refuted across midnight); the documentation's own example is not what is selected."
  },
  {
   "property": "C24",
   "status": "partial",
   "theorems": [
    "C24_accepted",
    "C24_empty",
    "C24_other_rate_dropped_refuted",
    "C24_refused",
    "C24_roundtrip_partial",
    "C24_rows_partial"
   ],
   "note": "Row-by-row round trip and refusal of differing headers for streams of one sampling rate. Traces with another sampling rate are dropped, not refused (refuted). Coordinates of the first trace are used for all rows."
  },
  {
   "property": "C25",
   "status": "partial",
   "theorems": [
    "C25_count_refuted",
    "C25_getitem_rows",
    "C25_select_rows",
    "C25_single_row_refuted",
    "C25_slice_rows_partial"
   ],
   "note": "Rows and header entries of slice() are exact for matrices with 0 or at least 2 rows; the row count in the header is wrong whenever a row is left out and a one-row matrix raises TypeError (both refuted for all inputs). Row picking by index is right."
  },
  {
   "property": "C26",
   "status": "proved",
   "theorems": [
    "C26_tiling",
    "C26_windows"
   ],
   "note": "All integer (ns) start, end, increment and window length; obspy's parsing of dates is not modelled."
  },
  {
   "property": "C27",
   "status": "proved",
   "theorems": [
    "C27_bins",
    "C27_rows"
   ],
   "note": "Every matrix, bin list and end list; exact rationals instead of binary64."
  },
  {
   "property": "C28",
   "status": "partial",
   "theorems": [
    "C28_between_samples_refuted",
    "C28_beyond",
    "C28_displacement_partial",
    "C28_end_before_first_lag_refuted",
    "C28_trim_partial"
   ],
   "note": "Exact if the start coincides with a sample and the end is not before the first lag; for other starts every sample is displaced by less than one sample. False otherwise (two refutations: start between samples; end before the first lag wraps around). Exact rationals."
  },
  {
   "property": "C29",
   "status": "partial",
   "theorems": [
    "C29_acausal_refuted",
    "C29_mirror_partial",
    "C29_no_zero_lag",
    "C29_one_sided"
   ],
   "note": "Exact for matrices with both sides and a sample at lag zero; one-sided matrices are returned unchanged (so the axis of acausal data does not start at 0: refuted) and an axis without lag zero raises TypeError."
  },
  {
   "property": "C30",
   "status": "partial",
   "theorems": [
    "C30_beyond_left_refuted",
    "C30_beyond_right",
    "C30_created",
    "C30_window_partial"
   ],
   "note": "All four sides, every window on the traces. Refuted for left windows beyond the trace (negative indices wrap to the other side); on the right an IndexError."
  },
  {
   "property": "C31",
   "status": "partial",
   "theorems": [
    "C31_amplitude",
    "C31_best_match_partial",
    "C31_bounded",
    "C31_defined",
    "C31_identical",
    "C31_silent",
    "C31_silent_reference_refuted"
   ],
   "note": "Similarities bounded by 1 for every window, trace and reference (Cauchy-Schwarz over the reals), argmax maximal if no reference is silent in the window; with a silent reference nothing is reported (refuted). Uses the standard library's axioms for the reals; rounding is not modelled. The references (stretched by splines) are inputs."
  },
  {
   "property": "C32",
   "status": "partial",
   "theorems": [
    "C32_endless_refuted",
    "C32_groups_partial",
    "C32_method_refused",
    "C32_networks_ignored_refuted",
    "C32_pairs_mixed_refuted",
    "C32_path_with_av_refuted",
    "C32_same_length"
   ],
   "note": "Exact groups, each file at most once and termination for every folder whose network-station combinations are prefix free, without 'av' in other places and without wildcards. False in general, four refutations: station code that is a prefix of another, 'av' in the path, equal station names in two networks, brackets in a file name (endless loop)."
  },
  {
   "property": "C33",
   "status": "partial",
   "theorems": [
    "C33_first_is_average_refuted",
    "C33_partly_measured_refuted",
    "C33_same_average_partial"
   ],
   "note": "Equal numbers, codes and errors for all lists of DVs whose time steps are complete or missing and which do not begin with an average; refuted otherwise (two refutations). Exact rationals; scatter arrays and correct_shift are not modelled."
  },
  {
   "property": "C34",
   "status": "partial",
   "theorems": [
    "C34_autocorrelations_partial",
    "C34_returned",
    "C34_sound_partial",
    "C34_station_list_ignored",
    "C34_station_list_refuted",
    "C34_strings_partial",
    "C34_two_lists_refuted"
   ],
   "note": "Exact for two wildcard strings; with one list sound, and exact for autocorrelations. Refuted: a station list misses pairs of two of its stations; with two lists the station list is ignored (proved for all inputs)."
  },
  {
   "property": "C35",
   "status": "partial",
   "theorems": [
    "C35_neighbours_enter",
    "C35_rounding",
    "C35_rows_mixed_refuted",
    "C35_shift_partial",
    "C35_single_common_step",
    "C35_unmeasured_gets_value_refuted"
   ],
   "note": "Rows are shifted by the measured, rounded offset where they stay on the axis. False at the ends: similarities of the neighbouring time step enter (proved for all matrices and in a complete case), unmeasured time steps get a value, and a single common time step raises ValueError (proved for all inputs). Exact rationals."
  },
  {
   "property": "C36",
   "status": "partial",
   "theorems": [
    "C36_day_files_partial",
    "C36_midnight_refuted",
    "C36_single_sample_refuted"
   ],
   "note": "Termination, one piece per day, no foreign samples, every sample in its day's file except a final sample exactly at midnight. That sample is only in the preceding day's file and a one-sample trace is never written (both refuted). Sampling intervals are integer ns."
  },
  {
   "property": "C37",
   "status": "partial",
   "theorems": [
    "C37_checked_partial",
    "C37_covered_but_rejected_refuted",
    "C37_gapless_partial",
    "C37_interior_gap_refuted"
   ],
   "note": "Exact description of the check; it implies coverage for traces without interior gaps. Refuted: interior gaps are not noticed, and a short trace that starts last hides a longer one."
  },
  {
   "property": "C38",
   "status": "partial",
   "theorems": [
    "C38_wildcards_accepted_refuted"
   ],
   "note": "False of the code for every request: assert ~x tests the bitwise complement of a bool, which is never zero."
  },
  {
   "property": "C39",
   "status": "partial",
   "theorems": [
    "C39_first_day_partial",
    "C39_last_day_partial",
    "C39_no_files_refuted"
   ],
   "note": "Earliest and latest day for every SDS archive (4-digit years, 3-digit days). Without any file the documented FileNotFoundError is unreachable, IndexError is raised (proved for all archives)."
  },
  {
   "property": "C40",
   "status": "partial",
   "theorems": [
    "C40_adjacent_partial",
    "C40_month_end_refuted",
    "C40_other_indicator_refuted",
    "C40_year_direction_refuted"
   ],
   "note": "Hours, half days, days, weeks: always right. Months: right exactly if the adjacent month has the same day, otherwise ValueError. Years: always the wrong direction; other or no indicators: UnboundLocalError (all proved for all inputs). The text of the file name (strftime) is not modelled."
  },
  {
   "property": "C41",
   "status": "partial",
   "theorems": [
    "C41_arguments",
    "C41_covering_refuted",
    "C41_intervals",
    "C41_length_reverse",
    "C41_masked_iff_partial"
   ],
   "note": "Exact for intervals with at least one end strictly inside the trace; an interval that covers the whole trace masks nothing (proved for all inputs). Integer ns instead of binary64 times."
  },
  {
   "property": "C42",
   "status": "partial",
   "theorems": [
    "C42_interpolate_partial",
    "C42_nothing_known_refuted",
    "C42_returns"
   ],
   "note": "All arrays and limits; an array without any sample and not longer than the limit raises ValueError (exactly then). Exact rationals; a soft mask is assumed (values of a hard-masked array cannot be filled)."
  },
  {
   "property": "C43",
   "status": "partial",
   "theorems": [
    "C43_aligned_refuted",
    "C43_object_refuted",
    "C43_round_trip_partial",
    "C43_scatter_partial",
    "C43_scatter_refuted",
    "C43_single_step_refuted"
   ],
   "note": "Proved for headers of texts, numbers, arrays and times, without scatter arrays. False: a single time step is read as a time instead of a list; scatter arrays leak into the header; a header entry None makes the file unreadable; an aligned velocity change without frequencies cannot be saved; only six processing parameters are kept."
  },
  {
   "property": "C44",
   "status": "partial",
   "theorems": [
    "C44_loaded_refuted",
    "C44_not_twice",
    "C44_own_shift_partial",
    "C44_shared_refuted",
    "C44_skipped_refuted",
    "C44_window_refuted"
   ],
   "note": "Proved if the model covers all selected curves and they share one lapse time window: each is moved to its own value, recorded, and never moved again. False: skipped curves shift the assignment of values, the window of the last curve is used for all, curves read from files are never aligned, curves sharing the default dictionary are skipped. The forward model is an arbitrary function of the station pair and window."
  },
  {
   "property": "C45",
   "status": "partial",
   "theorems": [
    "C45_array_refuted",
    "C45_inside",
    "C45_nearest",
    "C45_nearest_array",
    "C45_north_refuted",
    "C45_refused_array_partial",
    "C45_refused_partial",
    "C45_west_refuted"
   ],
   "note": "Proved: the cell returned is nearest; points of the area are within half a cell; exact condition for refusal. False: points north of the grid are never refused (misplaced parenthesis), points slightly west or south are refused, arrays are refused only if all points are outside. Easting and northing are inputs of the model."
  },
  {
   "property": "C46",
   "status": "partial",
   "theorems": [
    "C46_centered_partial",
    "C46_centered_refuted",
    "C46_fraction_refuted",
    "C46_odd_refuted",
    "C46_padded_length",
    "C46_parallel",
    "C46_plain_sum_partial",
    "C46_zero_length_refuted"
   ],
   "note": "Proved in exact real arithmetic, including the discrete Fourier transforms, for even padded lengths and whole-sample lengths and offsets. False: the padded length may be odd (e.g. one hour at 25 Hz with lengthToSave 25 s), then irfft returns one sample less and all lags are wrong; a fractional number of samples or a large centred offset wraps around; lengthToSave 0 fails."
  },
  {
   "property": "C47",
   "status": "partial",
   "theorems": [
    "C47_axis_refuted",
    "C47_each_window_once",
    "C47_rank_zero_refuted",
    "C47_same_result_partial",
    "C47_same_times"
   ],
   "note": "Proved: whatever is returned contains every spectrum once, in time order, for every number of processes; the result equals the one of a single process if all windows share one frequency axis and rank 0 computes at least one spectrum. The code violates the property otherwise: ValueError although other ranks have spectra, and a frequency axis that depends on the number of processes (refuted theorems)."
  },
  {
   "property": "C48",
   "status": "partial",
   "theorems": [
    "C48_does_not_fit_refuted",
    "C48_no_slope_refuted",
    "C48_tapered_partial"
   ],
   "note": "Complete characterisation for lag axes with a sample at zero lag: the taper is applied correctly exactly if the window fits; in all other cases (e.g. after mirroring, or when the window ends one sample after the axis) and without a slope the code raises ValueError (refuted theorems)."
  },
  {
   "property": "C49",
   "status": "partial",
   "theorems": [
    "C49_bounds",
    "C49_constant",
    "C49_equal_length_refuted",
    "C49_errors",
    "C49_line",
    "C49_line_end_refuted",
    "C49_missing_as_zero_refuted",
    "C49_moving_average",
    "C49_moving_average_bounds",
    "C49_moving_average_matrix",
    "C49_moving_average_one",
    "C49_moving_average_rows",
    "C49_shape_partial",
    "C49_weighted_mean"
   ],
   "note": "Moving average: complete. Window smoothing: shape, constants, weights, bounds and straight lines proved for lines longer than the window (real arithmetic). Refuted: lines exactly as long as the window lose a sample or raise ValueError, straight lines are bent at the ends, missing samples count as zero."
  },
  {
   "property": "C50",
   "status": "partial",
   "theorems": [
    "C50_even_refuted",
    "C50_muted_partial",
    "C50_never_amplifies",
    "C50_one_sample_refuted",
    "C50_others_unchanged",
    "C50_residual_bound",
    "C50_rounding_refuted",
    "C50_short_taper_raises",
    "C50_succeeds"
   ],
   "note": "Proved for extend_gaps and an odd smoothing length (taper length times sampling rate): exceeding samples become zero; never amplified; samples away from exceeding ones unchanged; residual bound for even lengths. Refuted: with an even length an exceeding sample survives (C50_even_refuted, all even lengths), a taper of one sample mutes everything (C50_one_sample_refuted), too short tapers raise ValueError, and float rounding mutes traces that never exceed the threshold (C50_rounding_refuted, IEEE double arithmetic with products added from left to right)."
  },
  {
   "property": "C51",
   "status": "partial",
   "theorems": [
    "C51_choice",
    "C51_decimated_partial",
    "C51_factor_one",
    "C51_factor_refused",
    "C51_higher_rate",
    "C51_last_lag_refuted",
    "C51_resample_fails",
    "C51_resampled"
   ],
   "note": "Proved: kept samples, header and lags for decimation without the last sample; resampling hands over a length that corresponds exactly to the new rate, terminates and fails only if no such length exists. The code drops the last of every factor-th samples for every matrix (C51_last_lag_refuted). Filter and Fourier resampling are abstract, rates exact rationals."
  },
  {
   "property": "C52",
   "status": "partial",
   "theorems": [
    "C52_component_none_refuted",
    "C52_no_data",
    "C52_one_station_refuted",
    "C52_pairs",
    "C52_refused",
    "C52_stations",
    "C52_total",
    "C52_wildcard_refuted"
   ],
   "note": "Proved for all settings: exactly the requested pairs, refused settings, other exceptions, and the stations and channels that are read. Documented settings that fail: wildcards other than * with several networks, component None, a list of one station with network * (refuted theorems)."
  },
  {
   "property": "C53",
   "status": "partial",
   "theorems": [
    "C53_restart_partial",
    "C53_stack_lost_refuted"
   ],
   "note": "(C143 proves this for whole runs without stacking, over all files and processes.) One file without stacking: every crash point between two additions. With stacking it is false: a stop between the subdivisions and the stack loses the stack for every batch (proved). A crash inside HDF5 is outside the model."
  },
  {
   "property": "C54",
   "status": "partial",
   "theorems": [
    "C54_asymmetric_refuted",
    "C54_symmetric_partial"
   ],
   "note": "Symmetric lag axes only. False in general: the header is trimmed in place, the data are not (refuted)."
  },
  {
   "property": "C55",
   "status": "partial",
   "theorems": [
    "C55_append_partial",
    "C55_gap_refuted"
   ],
   "note": "Exact condition for success, then exactly the union is stored. False with a gap or differing overlap: NotImplementedError from obspy's write (merge and write of obspy are part of the model)."
  },
  {
   "property": "C56",
   "status": "partial",
   "theorems": [
    "C56_autocorrelation_partial",
    "C56_autocorrelation_refuted",
    "C56_bounded",
    "C56_real"
   ],
   "note": "Bound proved for arbitrary spectra with real first sample and nonzero norm. The value 1 at zero lag is false if the trace has energy at the Nyquist frequency, which the norm counts twice; the exact value of the norm is proved."
  },
  {
   "property": "C57",
   "status": "proved",
   "theorems": [
    "C57_lag_axis",
    "C57_mirror"
   ],
   "note": "In exact real arithmetic, for arbitrary spectra."
  },
  {
   "property": "C58",
   "status": "partial",
   "theorems": [
    "C58_options_kept_partial",
    "C58_second_use_refuted"
   ],
   "note": "Proved unless one network is combined with a list of several stations; then the list in the options is replaced and a second Correlator made from the same options raises TypeError (refuted theorem, for all station lists)."
  },
  {
   "property": "C59",
   "status": "partial",
   "theorems": [
    "C59_any_zero_refuted",
    "C59_joint_partial",
    "C59_whitened_partial",
    "C59_zero_frequency"
   ],
   "note": "Proved when no coefficient is exactly zero. One zero anywhere in the matrix of the process leaves every trace unwhitened (C59_any_zero_refuted). Complex division is modelled on reals; numpy's FloatingPointError is raised by a zero divisor."
  },
  {
   "property": "C60",
   "status": "proved",
   "theorems": [
    "C60_clip",
    "C60_clip_bound",
    "C60_constant",
    "C60_demean",
    "C60_sign_bit",
    "C60_std_zero",
    "C60_unit_std"
   ],
   "note": "All traces over the reals; rounding is not modelled."
  },
  {
   "property": "C61",
   "status": "partial",
   "theorems": [
    "C61_decomposition",
    "C61_missing_sample_refuted",
    "C61_scipy_missing",
    "C61_trend_removed"
   ],
   "note": "Trend removal proved for every trace without gaps, given an orthonormal decomposition of the trend matrix (which exists iff there are at least two samples). With the default method one missing sample makes the whole trace missing (C61_missing_sample_refuted); the scipy method keeps gaps where they are."
  },
  {
   "property": "C62",
   "status": "partial",
   "theorems": [
    "C62_bounded",
    "C62_finite_partial",
    "C62_scale",
    "C62_window_errors",
    "C62_zero_trace_refuted"
   ],
   "note": "Finite unless the filtered trace is zero throughout; bound and scale invariance proved. A zero trace becomes NaN (refuted theorem); windows longer than the trace raise ValueError."
  },
  {
   "property": "C63",
   "status": "partial",
   "theorems": [
    "C63_errors",
    "C63_integer_refuted",
    "C63_taper_partial"
   ],
   "note": "Proved for floating point data; integer data is zeroed over the taper (refuted theorem). A taper of zero samples raises ValueError."
  },
  {
   "property": "C64",
   "status": "partial",
   "theorems": [
    "C64_odd_refuted",
    "C64_signs_partial"
   ],
   "note": "Proved for even lengths; for every odd length above one it is wrong already for a constant trace (refuted theorem)."
  },
  {
   "property": "C65",
   "status": "partial",
   "theorems": [
    "C65_available_refuted",
    "C65_average",
    "C65_correlation",
    "C65_missing_refuted",
    "C65_negative_refuted",
    "C65_value_partial"
   ],
   "note": "Averages and correlations complete. The value belongs to the largest similarity if that is positive or none is missing; refuted otherwise (C65_negative_refuted), for times without similarities (C65_missing_refuted) and for the record of available times (C65_available_refuted)."
  },
  {
   "property": "C66",
   "status": "partial",
   "theorems": [
    "C66_absmax",
    "C66_abssum",
    "C66_answers",
    "C66_ends_before_start_refuted",
    "C66_energy",
    "C66_gain",
    "C66_max_partial",
    "C66_missing_refuted",
    "C66_negative_refuted",
    "C66_one_sample_refuted",
    "C66_outside",
    "C66_silent",
    "C66_unknown"
   ],
   "note": "Energy, mean amplitude and absolute maximum proved for every window on the lag axis (real arithmetic; a sample counts if the next one is not after the end of the window). Refuted: a window that ends before the first lag counts from the last sample, 'max' turns negative traces upside down, one missing sample loses the trace, a window of one sample is empty and loses the trace."
  },
  {
   "property": "C67",
   "status": "partial",
   "theorems": [
    "C67_errors",
    "C67_hundred_refuted",
    "C67_identical_refuted",
    "C67_mean",
    "C67_norm_mean_bound",
    "C67_norm_mean_gap_refuted",
    "C67_share_refuted",
    "C67_similarity_partial"
   ],
   "note": "Mean and normalised mean proved; the similarity method averages the most similar traces and not more than 100 - p percent of them. Refuted: it uses 100 - p instead of p percent, gives no trace at all for p = 100 and for identical traces, and traces with one gap are dropped. The method 'median' is not modelled."
  },
  {
   "property": "C68",
   "status": "partial",
   "theorems": [
    "C68_arguments",
    "C68_atomic_refuted",
    "C68_between",
    "C68_corrected_partial",
    "C68_default_window_refuted",
    "C68_ends_refuted",
    "C68_gap_refuted",
    "C68_kind_refuted",
    "C68_measured",
    "C68_one_step_refuted",
    "C68_one_trace_refuted",
    "C68_steps",
    "C68_whole_shift"
   ],
   "note": "Proved for displacements by whole samples: similarity 1, identification up to repetition of the reference, restoration away from the ends, second measurement. Refuted: a single trace (IndexError, np.squeeze), shift_steps=1 (zero shift not tested), default window on an asymmetric axis (IndexError), samples beyond the ends (unbounded extrapolation), missing samples spread to their neighbours, values of another kind are accepted, traces are changed before an error. Shifts by fractions of a sample are not covered."
  },
  {
   "property": "C69",
   "status": "proved",
   "theorems": [
    "C69_corrected",
    "C69_estimate",
    "C69_kind",
    "C69_sum",
    "C69_too_few",
    "C69_zero"
   ],
   "note": "For all waveforms the spline reproduces from their samples (hypothesis of the theorems; the spline itself is a parameter)."
  },
  {
   "property": "C70",
   "status": "partial",
   "theorems": [
    "C70_input_refuted",
    "C70_negative_refuted",
    "C70_positive_partial"
   ],
   "note": "Refuted: the negative value doubles the stretching and the input is tapered in place. The positive value restores the reference (shown without the taper)."
  },
  {
   "property": "C71",
   "status": "partial",
   "theorems": [
    "C71_clock_shift_partial",
    "C71_clock_shift_refuted",
    "C71_sign_refuted"
   ],
   "note": "Refuted: the correction doubles the shift, and the sign is opposite to that of measure_shift. With the opposite sign the reference is restored."
  },
  {
   "property": "C72",
   "status": "proved",
   "theorems": [
    "C72_antisymmetric",
    "C72_between",
    "C72_constant",
    "C72_weighted_mean"
   ],
   "note": "Values are reals; the weights are those of masked arrays (division by zero is masked)."
  },
  {
   "property": "C73",
   "status": "proved",
   "theorems": [
    "C73_best",
    "C73_bounded",
    "C73_offsets",
    "C73_same_reference"
   ],
   "note": "The pseudo inverse is a parameter of which only A P A = A is used. Reals, no rounding."
  },
  {
   "property": "C74",
   "status": "partial",
   "theorems": [
    "C74_missing_value_refuted",
    "C74_negative_refuted",
    "C74_perfect_refuted",
    "C74_undefined_partial"
   ],
   "note": "Refuted: dates with two perfect correlations are ignored, dates with negative correlations count, and a date without value dilutes the mean. Undefined or zero correlations are ignored."
  },
  {
   "property": "C75",
   "status": "partial",
   "theorems": [
    "C75_aligned_partial",
    "C75_combined_partial",
    "C75_no_data_refuted",
    "C75_odd_offset_refuted",
    "C75_one_date_refuted",
    "C75_one_window",
    "C75_right_windows_refuted",
    "C75_windows_refuted",
    "C75_wraps_refuted"
   ],
   "note": "Refuted: two references an odd number of steps apart are never aligned, the matrices are rolled circularly, dates without data get the first stretch, one date raises ValueError and several windows fail or are split into samples. Proved when the mean offset is not half way between two steps, and for one window."
  },
  {
   "property": "C76",
   "status": "proved",
   "theorems": [
    "C76_average",
    "C76_codes",
    "C76_correlation",
    "C76_outcome"
   ],
   "note": "Which inputs are averaged, every averaged similarity, correlations, missing values, counts, codes and the conditions for success are proved for all inputs."
  },
  {
   "property": "C77",
   "status": "partial",
   "theorems": [
    "C77_area_partial",
    "C77_earlier_average_refuted",
    "C77_outside_partial"
   ],
   "note": "Selection, result and header are proved for all lists whose entries have numbers as coordinates. C77_earlier_average_refuted: an earlier geographic average whose components were all the same keeps its channel code and has tuples as coordinates; every list with such a result raises TypeError instead of skipping it. Coordinates are exact rationals."
  },
  {
   "property": "C78",
   "status": "proved",
   "theorems": [
    "C78_average",
    "C78_chain",
    "C78_kept",
    "C78_predecessor"
   ],
   "note": "The chain of corrections is proved for all lists for which the function returns: every curve is corrected with its (already corrected) predecessor or stays as it is. Mean times are exact; ties of floating point means are not modelled."
  },
  {
   "property": "C79",
   "status": "partial",
   "theorems": [
    "C79_negative_refuted",
    "C79_value_partial"
   ],
   "note": "Proved if the highest similarity is positive or nothing is missing. C79_negative_refuted: with only negative similarities and a missing one the reported stretch is the one without data, because NaN is replaced by 0 before the maximum is located."
  },
  {
   "property": "C80",
   "status": "partial",
   "theorems": [
    "C80_broken_chain_refuted",
    "C80_same_times_refuted",
    "C80_two_partial"
   ],
   "note": "Proved for two curves, one earlier than the other. C80_same_times_refuted: curves with the same mean time are not aligned with each other. C80_broken_chain_refuted: if one curve cannot be shifted the later ones are aligned with it where it is."
  },
  {
   "property": "C81",
   "status": "proved",
   "theorems": [
    "C81_amplitude",
    "C81_identical",
    "C81_length",
    "C81_missing",
    "C81_outside",
    "C81_range",
    "C81_values"
   ],
   "note": "Windows that leave the trace are the subject of C30; references of one sample are excluded (np.squeeze would merge them)."
  },
  {
   "property": "C82",
   "status": "proved",
   "theorems": [
    "C82_average",
    "C82_components",
    "C82_different",
    "C82_members",
    "C82_once",
    "C82_range",
    "C82_separate",
    "C82_shapes"
   ],
   "note": "Components with different layouts are the subject of C84."
  },
  {
   "property": "C83",
   "status": "proved",
   "theorems": [
    "C83_empty",
    "C83_shape",
    "C83_value"
   ],
   "note": "Several WFCs with the same centre: C84."
  },
  {
   "property": "C84",
   "status": "partial",
   "theorems": [
    "C84_centres_refuted",
    "C84_references_partial",
    "C84_references_refuted"
   ],
   "note": "Refuted by the code: references that only later components have are dropped (in the other order: KeyError); WFCs with the same centre overwrite each other."
  },
  {
   "property": "C85",
   "status": "partial",
   "theorems": [
    "C85_no_mean",
    "C85_object_refuted",
    "C85_round_trip_partial",
    "C85_single_step_refuted"
   ],
   "note": "Proved for headers of texts, numbers, arrays, times and lists of not exactly one time. Refuted for a single time step (a list becomes a time) and for None entries (file unreadable)."
  },
  {
   "property": "C86",
   "status": "partial",
   "theorems": [
    "C86_failed_refuted",
    "C86_windows_partial"
   ],
   "note": "Proved for errors in single windows. Refuted for errors in reading or preparing a correlation: the try surrounds the append, not the generator."
  },
  {
   "property": "C87",
   "status": "proved",
   "theorems": [
    "C87_filter",
    "C87_filter_nothing",
    "C87_gap_handler",
    "C87_retained"
   ],
   "note": "Traces on a common sample grid; filter and merge as in obspy without overlaps. The interpolation itself is C42, the taper C63."
  },
  {
   "property": "C88",
   "status": "partial",
   "theorems": [
    "C88_detrend_partial",
    "C88_detrend_refuted",
    "C88_length",
    "C88_nothing_refuted",
    "C88_taper_refuted"
   ],
   "note": "Holds if the first sample exists (C88_detrend_partial). Refuted: the data of the merged trace replace those of the old trace but its start time is not updated, so d masked samples at the beginning move all samples by d samples to earlier times (C88_detrend_refuted, C88_taper_refuted); a trace without samples is an IndexError. Windows with missing data at their beginning are such traces if preprocess_subdiv is set."
  },
  {
   "property": "C89",
   "status": "partial",
   "theorems": [
    "C89_between_refuted",
    "C89_inside_partial"
   ],
   "note": "Holds for masked samples of one trace (C89_inside_partial; taper set to no samples there, in general the value is multiplied with the taper of C87). Refuted for gaps between traces: merge(method=-1) leaves two traces and neither contains the gap (C89_between_refuted)."
  },
  {
   "property": "C90",
   "status": "proved",
   "theorems": [
    "C90_short",
    "C90_valid"
   ],
   "note": "For any equality of traces that implies equal lengths and rates, and equal masks for masked traces."
  },
  {
   "property": "C91",
   "status": "partial",
   "theorems": [
    "C91_count_refuted",
    "C91_cover_partial",
    "C91_gap_refuted",
    "C91_last_refuted",
    "C91_no_data",
    "C91_start_refuted",
    "C91_windows_partial"
   ],
   "note": "Holds for streams whose traces start at the same time, as after preprocess_stream (C91_windows_partial, C91_cover_partial). Refuted: the last sample may be in no window; with preprocess_subdiv the stream is not padded before: traces with different starts (C91_start_refuted) and gaps longer than a window (C91_gap_refuted) lose samples, and the number of windows differs from that of processes without data (C91_count_refuted)."
  },
  {
   "property": "C92",
   "status": "proved",
   "theorems": [
    "C92_exists",
    "C92_insensitive",
    "C92_minimum",
    "C92_posterior",
    "C92_ratio",
    "C92_resolution"
   ],
   "note": "Over any real field (exact arithmetic). Sensitivity kernels, model covariance and data variances are inputs of the model; the covariance is assumed to be symmetric and positive (semi-)definite. compute_dv_tsvd is not modelled."
  },
  {
   "property": "C93",
   "status": "proved",
   "theorems": [
    "C93_covariance",
    "C93_inversion",
    "C93_posterior"
   ],
   "note": "Real numbers instead of binary64. The positions of the stations on the grid are inputs (geo2cart is not part of it)."
  },
  {
   "property": "C94",
   "status": "proved",
   "theorems": [
    "C94_kernel",
    "C94_reach",
    "C94_swap"
   ],
   "note": "Real numbers; velocity and mean free path are positive."
  },
  {
   "property": "C95",
   "status": "partial",
   "theorems": [
    "C95_one_row_refuted",
    "C95_spacing_refuted",
    "C95_times_partial",
    "C95_times_refuted"
   ],
   "note": "Refuted: a kernel raises ValueError unless the middle of the window is at most half a step before a multiple of dt (C95_times_refuted, exact condition in C95_times_partial); a grid of one row raises IndexError (C95_one_row_refuted); in binary64 a cell size of 0.1 is taken for an uneven axis (C95_spacing_refuted)."
  },
  {
   "property": "C96",
   "status": "proved",
   "theorems": [
    "C96_coherence",
    "C96_defined",
    "C96_positive",
    "C96_window"
   ],
   "note": "Real numbers."
  },
  {
   "property": "C97",
   "status": "proved",
   "theorems": [
    "C97_header",
    "C97_time",
    "C97_version"
   ],
   "note": "Texts of times are modelled in the format that is written; the older behaviour of obspy (ValueError on day 360) is a switch."
  },
  {
   "property": "C98",
   "status": "partial",
   "theorems": [
    "C98_every_entry_partial",
    "C98_lost_refuted",
    "C98_rounding_refuted",
    "C98_text_refuted"
   ],
   "note": "The property as stated does not hold of the code: the three _refuted theorems give a time that comes back as a text, a time that comes back earlier and an entry that is lost. The partial theorem says exactly what comes back, for every header."
  },
  {
   "property": "C99",
   "status": "proved",
   "theorems": [
    "C99_history",
    "C99_inversion",
    "C99_model",
    "C99_stations"
   ],
   "note": "Attributes of the grid that users may overwrite themselves (velocity, mean free path, step) are taken to be constant; positions of stations are given in the grid. C99_inversion connects the call with C93."
  },
  {
   "property": "C100",
   "status": "proved",
   "theorems": [
    "C100_irrelevant",
    "C100_order",
    "C100_usable"
   ],
   "note": "Exact arithmetic; with binary64 the order of sums may change the last digits."
  },
  {
   "property": "C101",
   "status": "partial",
   "theorems": [
    "C101_order_refuted",
    "C101_settings_partial",
    "C101_window_refuted"
   ],
   "note": "The property as stated does not hold of the code. C101_window_refuted: for all inputs the result is as if all velocity changes had been measured with the settings of the last usable one. C101_order_refuted: an order that fails and one that succeeds. The partial theorem covers velocity changes with the same settings."
  },
  {
   "property": "C102",
   "status": "proved",
   "theorems": [
    "C102_again",
    "C102_listed",
    "C102_names",
    "C102_once",
    "C102_processes",
    "C102_results",
    "C102_stopped"
   ],
   "note": "Saving one result is one step: a kill while a file is being written is not modelled. What compute_velocity_change does for one combination is a parameter here and modelled in Model/VelocityChange.v."
  },
  {
   "property": "C103",
   "status": "partial",
   "theorems": [
    "C103_copies_refuted",
    "C103_damaged_refuted",
    "C103_some_result_partial"
   ],
   "note": "Refuted: a copy of a correlation file (net.sta.backup.h5 is selected as well) writes to the same result files, so that the last process wins; a file that cannot be opened ends the run before anything is computed. Proved: each result file is that of one of the combinations with its name."
  },
  {
   "property": "C104",
   "status": "proved",
   "theorems": [
    "C104_alike",
    "C104_custom",
    "C104_mean",
    "C104_measured",
    "C104_recovered",
    "C104_short",
    "C104_stretched_back",
    "C104_unchanged",
    "C104_window"
   ],
   "note": "Samples are reals and the interpolation is a parameter (a cubic spline in the code); the examples use linear interpolation. The row that apply_stretch makes of a trace with missing samples is a parameter of the same length. One reference; several are combined as in C72-C75. Reading, stacking and preprocessing of the matrix come before. Sides 'single' are C105. C104_stretched_back: the correction of a stretched trace."
  },
  {
   "property": "C105",
   "status": "partial",
   "theorems": [
    "C105_one_date_refuted",
    "C105_single_refuted",
    "C105_single_silent_refuted",
    "C105_too_long_partial",
    "C105_too_long_refuted",
    "C105_whole_coda_refuted"
   ],
   "note": "Refuted: tw_len None always raises a TypeError; a window that is too long raises UnboundLocalError unless the distance was computed; with sides 'single' the first measurement changes the header of the matrix and the second one compares the acausal lags of the traces with the causal part of a reference stretched about its first sample; a single date ends in an IndexError. Proved: the ValueError if the distance was computed."
  },
  {
   "property": "C106",
   "status": "proved",
   "theorems": [
    "C106_constant",
    "C106_covered",
    "C106_gap",
    "C106_mean",
    "C106_order",
    "C106_refused",
    "C106_whole",
    "C106_windows"
   ],
   "note": "Increments are whole days and the matrix has at least two rows (np.squeeze changes the shape of the result for one). The method 'median' is not modelled."
  },
  {
   "property": "C107",
   "status": "partial",
   "theorems": [
    "C107_array_partial",
    "C107_array_refuted",
    "C107_zero_refuted"
   ],
   "note": "Refuted: arrays with two or more entries always raise a ValueError (their truth value is ambiguous), although they are documented; [0] raises a ValueError. Proved: arrays with one entry."
  },
  {
   "property": "C108",
   "status": "proved",
   "theorems": [
    "C108_complete",
    "C108_daily",
    "C108_ends",
    "C108_hourly",
    "C108_only",
    "C108_sds",
    "C108_sds_distinct",
    "C108_sds_name"
   ],
   "note": "The files hold traces of the requested channel on one time grid (the documentation excludes several channels per file); times within years 1 to 9999; datetime's microseconds are not modelled."
  },
  {
   "property": "C109",
   "status": "partial",
   "theorems": [
    "C109_edge_refuted",
    "C109_month_refuted",
    "C109_other_refuted",
    "C109_replacement_refuted",
    "C109_year_refuted"
   ],
   "note": "Refuted: a sample at the end of the request that begins a file (or at the start that ends one) is lost; with yearly files requests across new year raise ValueError because the search goes to earlier years; monthly files fail on the 29th to 31st; other indicators raise UnboundLocalError; replacement in braces never happens. What holds is C108."
  },
  {
   "property": "C110",
   "status": "proved",
   "theorems": [
    "C110_found",
    "C110_kept",
    "C110_only",
    "C110_order",
    "C110_origin",
    "C110_repeat"
   ],
   "note": "Samples of one channel on one time grid; obspy's SDS client, merge and trim as documented; values from the server do not contradict each other (C110_found, C110_repeat). The data of a bulk download are stored in chunks of one day (obspy's MassDownloader as documented)."
  },
  {
   "property": "C111",
   "status": "partial",
   "theorems": [
    "C111_gap_refuted",
    "C111_new_days_partial"
   ],
   "note": "Refuted: if the server sends two traces of one day with a gap between them, writing raises NotImplementedError and the request fails, each time it is repeated. Proved: any number of traces of different days, on days without file."
  },
  {
   "property": "C112",
   "status": "proved",
   "theorems": [
    "C112_complete",
    "C112_unchanged"
   ],
   "note": "obspy's MassDownloader as documented: one chunk per day from the start on; a chunk whose file exists is skipped."
  },
  {
   "property": "C113",
   "status": "partial",
   "theorems": [
    "C113_midnight_partial",
    "C113_noon_refuted",
    "C113_started_refuted"
   ],
   "note": "Refuted: a download that does not begin at midnight puts samples into the file of the preceding day, where they are not found; a day of which the archive has a part is never completed. Proved: from midnight on days without file."
  },
  {
   "property": "C114",
   "status": "proved",
   "theorems": [
    "C114_columns",
    "C114_nearest",
    "C114_rows",
    "C114_shape",
    "C114_whole"
   ],
   "note": "Exact real arithmetic; numpy's axes -1 and -2 are not modelled."
  },
  {
   "property": "C115",
   "status": "partial",
   "theorems": [
    "C115_few_partial",
    "C115_offset_refuted"
   ],
   "note": "Holds for traces with mean zero (C115_few_partial). Refuted: the bound is symmetric about zero but the standard deviation is taken about the mean; every sample of a constant trace is set to zero for every threshold (C115_offset_refuted)."
  },
  {
   "property": "C116",
   "status": "partial",
   "theorems": [
    "C116_all_lost_refuted",
    "C116_rows_partial",
    "C116_trace_lost_refuted"
   ],
   "note": "With axis=1 traces do not influence each other (C116_rows_partial). Refuted: one missing sample makes the whole trace missing (C116_trace_lost_refuted) and, without an axis, the whole matrix (C116_all_lost_refuted)."
  },
  {
   "property": "C117",
   "status": "proved",
   "theorems": [
    "C117_effect",
    "C117_refused"
   ],
   "note": "Exact rational width and sampling rate; obspy's cosine_taper is modelled as in obspy 1.4. With two samples the taper would be [1, 0]; hence at least three lags."
  },
  {
   "property": "C118",
   "status": "proved",
   "theorems": [
    "C118_above",
    "C118_harmonic",
    "C118_rows",
    "C118_scale"
   ],
   "note": "Exact real arithmetic; scipy's hilbert is modelled by the full discrete Fourier transform."
  },
  {
   "property": "C119",
   "status": "proved",
   "theorems": [
    "C119_fit",
    "C119_removed"
   ],
   "note": "Exact real arithmetic; numpy's polyfit of degree one is the least squares line."
  },
  {
   "property": "C120",
   "status": "partial",
   "theorems": [
    "C120_acausal_refuted",
    "C120_between_refuted",
    "C120_causal_partial"
   ],
   "note": "Positive lags only: the decay is removed, but the amplitude is wrong by the constant factor exp(K*start_lag*sampling_rate) (C120_causal_partial). Refuted: for negative lags only the samples are multiplied with the decay instead of divided by it (C120_acausal_refuted); without a sample at zero a TypeError is raised (C120_between_refuted)."
  },
  {
   "property": "C121",
   "status": "proved",
   "theorems": [
    "C121_kept",
    "C121_known",
    "C121_once"
   ],
   "note": "memory grows by appending; read_inventory and a new client are the subject of C122"
  },
  {
   "property": "C122",
   "status": "partial",
   "theorems": [
    "C122_channel_refuted",
    "C122_kept_partial",
    "C122_others_partial",
    "C122_station_refuted"
   ],
   "note": "Refuted: the file {net}.{sta}.xml is overwritten with the newest answer only, so requests for two channels of one station, or an answer about two stations, lose metadata for the next client. Proved if every answer is complete for one station, and for the files of all other stations."
  },
  {
   "property": "C123",
   "status": "partial",
   "theorems": [
    "C123_read_only_refuted",
    "C123_unchanged_partial"
   ],
   "note": "Refuted: metadata are written without looking at read_only, replacing stored ones. Proved if all responses are known."
  },
  {
   "property": "C124",
   "status": "partial",
   "theorems": [
    "C124_not_wanted_refuted",
    "C124_read_only_refuted",
    "C124_returned_partial"
   ],
   "note": "Refuted: responses are looked up even if they are not to be attached, and a failure to get or store them discards the data; a read-only client of a directory without metadata always fails. Proved if the responses are known, or sent by the server and the directory exists."
  },
  {
   "property": "C125",
   "status": "proved",
   "theorems": [
    "C125_pairs",
    "C125_refused"
   ],
   "note": "every station is also combined with itself; coordinates are those of the first channel of a station; the distance is any function"
  },
  {
   "property": "C126",
   "status": "partial",
   "theorems": [
    "C126_close",
    "C126_exact_partial",
    "C126_far_refuted"
   ],
   "note": "Refuted: combinations are compared as prefixes, so stations A and AB are correlated at any distance. Proved: every close pair is correlated; exactly these if the station codes have one length."
  },
  {
   "property": "C127",
   "status": "partial",
   "theorems": [
    "C127_download_partial",
    "C127_empty_refuted"
   ],
   "note": "Refuted: the archive is read first, which fails if it has no metadata at all. Proved if it has metadata of any station."
  },
  {
   "property": "C128",
   "status": "proved",
   "theorems": [
    "C128_processes",
    "C128_windows"
   ],
   "note": "All archives, lengths, preprocessing functions (any function on traces) and numbers of processes; the condition that no channel raises is part of the property, see C131. The yielded window has one more, masked, sample at its end, because the final trim includes winend."
  },
  {
   "property": "C129",
   "status": "partial",
   "theorems": [
    "C129_end_refuted",
    "C129_grid_partial",
    "C129_twice_refuted"
   ],
   "note": "Proved (C129_grid_partial) if read_inc is a multiple n*corr_inc and (n-1)*corr_inc < read_len <= n*corr_inc. Refuted otherwise: with read_len > read_inc the same window is correlated twice; the last read is not cut at read_end, so that windows start after it."
  },
  {
   "property": "C130",
   "status": "partial",
   "theorems": [
    "C130_complete_partial",
    "C130_read_end_refuted"
   ],
   "note": "Proved for windows that end inside of their read. Refuted: with corr_len > corr_inc the last windows of each read lack samples that the archive has and the next read loads."
  },
  {
   "property": "C131",
   "status": "partial",
   "theorems": [
    "C131_none_fails_partial",
    "C131_others_lost_refuted",
    "C131_times_mixed_refuted",
    "C131_waits_refuted"
   ],
   "note": "Without failures all processes go through the same windows. Refuted: a ValueError of one channel skips the whole read for all channels of the same process; with two processes the other one waits for ever in allgather; if each of two processes skips a different read, windows of different times are put together and all samples of the other process are masked."
  },
  {
   "property": "C132",
   "status": "partial",
   "theorems": [
    "C132_late_refuted",
    "C132_processes_refuted",
    "C132_windows_partial"
   ],
   "note": "Proved if all channels with data in a read have samples at its first and last position. Refuted: the windows of a station that starts late are cut relative to its first sample and then trimmed to other times, most samples are lost; together with a complete station two processes make different numbers of collective calls and never finish, one process does."
  },
  {
   "property": "C133",
   "status": "partial",
   "theorems": [
    "C133_gaps_partial",
    "C133_mask_ignored_refuted",
    "C133_masked_used_refuted",
    "C133_masks_partial",
    "C133_windows_partial"
   ],
   "note": "Violated: the matrix takes the data below the mask. stream_mask_at_utc keeps them, so masking has no effect on the matrix at all (C133_mask_ignored_refuted, for all masks; C133_masked_used_refuted), except that windows that are masked altogether are dropped (C133_windows_partial). Only gaps, which obspy fills with NaN, count as zero (C133_gaps_partial). What happens to masks in general: C133_masks_partial."
  },
  {
   "property": "C134",
   "status": "partial",
   "theorems": [
    "C134_lagged_sum_partial",
    "C134_odd_refuted",
    "C134_starts_partial"
   ],
   "note": "Composes C128 with C46. Proved for even padded lengths and lengthToSave that is a whole number of samples; it is false for odd padded lengths (C134_odd_refuted) and for other lengthToSave, see C46. The start times of the correlations: C134_starts_partial."
  },
  {
   "property": "C135",
   "status": "partial",
   "theorems": [
    "C135_after_end_refuted",
    "C135_increment",
    "C135_last_read_partial",
    "C135_late_data_refuted",
    "C135_multiple_refuted",
    "C135_windows_partial"
   ],
   "note": "Proved for read increments that are a multiple of win_len and data that cover the reads (windows_partial: requested time also a multiple; last_read_partial: the windows go on to the end of the last read). Refuted: the spectra go on after endtime (after_end_refuted), increments that are not multiples give other windows (multiple_refuted), data that start late shift the windows depending on the increment (late_data_refuted)."
  },
  {
   "property": "C136",
   "status": "partial",
   "theorems": [
    "C136_references",
    "C136_refused_refuted",
    "C136_right_refuted",
    "C136_symmetric_partial"
   ],
   "note": "Proved for symmetric lag axes and both sides (symmetric_partial); references are cut like the data in all cases (references). Refuted: for one side the header of the object is changed although its data are not (right_refuted), also if the side is refused (refused_refuted)."
  },
  {
   "property": "C137",
   "status": "partial",
   "theorems": [
    "C137_flipped_partial",
    "C137_unknown_refuted"
   ],
   "note": "Proved if the orientation of all vertical channels is known (flipped_partial). Refuted: a vertical channel without orientation ends the loop, and all traces after it keep their polarity (unknown_refuted, for all streams)."
  },
  {
   "property": "C138",
   "status": "partial",
   "theorems": [
    "C138_fails",
    "C138_import",
    "C138_in_order_partial",
    "C138_left_out_refuted"
   ],
   "note": "Proved for functions whose path does not contain 'detrend_st' or 'cos_taper_st' (in_order_partial, fails) and for the resolution of paths (import). Refuted: other functions of the user with such a text in the path are left out (left_out_refuted)."
  },
  {
   "property": "C139",
   "status": "partial",
   "theorems": [
    "C139_above_refuted",
    "C139_narrow_refuted",
    "C139_rows",
    "C139_weights_partial"
   ],
   "note": "Proved for corners that are at least the spacing of the frequencies apart and not above the highest frequency (weights_partial) and for the application to spectra (rows). Refuted: if f4 is above the highest frequency, this frequency is removed even if f3 is above it as well (above_refuted); corners closer than the spacing remove a frequency of the pass band (narrow_refuted)."
  },
  {
   "property": "C140",
   "status": "proved",
   "theorems": [
    "C140_best",
    "C140_exact_data",
    "C140_full",
    "C140_linear",
    "C140_method",
    "C140_nothing_left",
    "C140_unique"
   ],
   "note": "Singular value decomposition as documented by numpy (any decomposition with its properties), exact arithmetic."
  },
  {
   "property": "C141",
   "status": "proved",
   "theorems": [
    "C141_run_stores"
   ],
   "note": "for read_inc a multiple of corr_inc (preprocess_subdiv is ignored by a run into an empty directory, see C144), lengthToSave a whole number of samples, even padded length (see C46), equally long network and station codes (see C12), one location per channel (see C142); requested combinations as in C07, the archive being that of the stations that _filter_by_rcombis keeps (C53)"
  },
  {
   "property": "C142",
   "status": "partial",
   "theorems": [
    "C142_location_refuted"
   ],
   "note": "refuted: the location is not part of the path in the file, so that of two locations of one channel only the first one is stored; with one location per channel C141 holds"
  },
  {
   "property": "C143",
   "status": "partial",
   "theorems": [
    "C143_empty_file_refuted",
    "C143_restart_partial"
   ],
   "note": "proved for any number of stops anywhere but in one place; refuted there: a process that is stopped after it created a file and before the first correlation is in it leaves a file that makes every later run raise KeyError when it looks for existing correlations"
  },
  {
   "property": "C144",
   "status": "partial",
   "theorems": [
    "C144_ignored_refuted",
    "C144_restart_refuted"
   ],
   "note": "refuted twice: without existing correlations the option is ignored by every run; a run that is stopped and started again stores another correlation for the same window than a run that is not stopped. With preprocess_subdiv False: C143"
  },
  {
   "property": "C145",
   "status": "proved",
   "theorems": [
    "C145_monitor_input"
   ],
   "note": "from the empty directory, over any number of stopped runs, to the matrices that the monitoring reads; conditions of C141 and C143"
  },
  {
   "property": "C146",
   "status": "proved",
   "theorems": [
    "C146_dates",
    "C146_steady"
   ],
   "note": "joins C141, C143, C145, C35, C66, C102 and C104; the example runs an archive of an impulse and a ramp through both programs and gets velocity change 0 and similarity 1; splines, gaps in rows, references and filters are parameters with the conditions in the theorem; samples are reals"
  },
  {
   "property": "C147",
   "status": "partial",
   "theorems": [
    "C147_all_deleted",
    "C147_batches_refuted",
    "C147_one_run_partial",
    "C147_options_off",
    "C147_stopped_refuted"
   ],
   "note": "Proved per batch (C147_one_run_partial); without both options the run is the one of C141 (C147_options_off); with delete_subdivision alone nothing is stored (C147_all_deleted). Violated as stated: the batches are what was computed since the last writing, not what was read at once, so the stacks depend on the times of writing (C147_batches_refuted, see also C05); and a process that is stopped between the correlations and the stack leaves a file from which all later runs conclude that there is nothing to do (C147_stopped_refuted). Stacks whose samples are all zero (NaN in the program) are not described. Locations without '.'."
  },
  {
   "property": "C148",
   "status": "partial",
   "theorems": [
    "C148_continue_partial",
    "C148_delete_refuted"
   ],
   "note": "Proved without delete_subdivision for runs that are stopped between batches any number of times, preprocess_subdiv off, requested combinations if any for pairs of stations in the order of the file names (C148_continue_partial). Violated with delete_subdivision: after such a run has stored anything, every later run raises KeyError when it looks for existing correlations (C148_delete_refuted)."
  },
  {
   "property": "C149",
   "status": "partial",
   "theorems": [
    "C149_history_refuted",
    "C149_methods_refuted",
    "C149_one_row_refuted",
    "C149_read_partial"
   ],
   "note": "Proved for the correlations and all entries of the header but the notes on the processing (C149_read_partial). Violated otherwise: the notes and the reference are lost (C149_history_refuted); the header is read as a plain dictionary, so that the methods that note their processing and the selection of times raise AttributeError (C149_methods_refuted); a list of one time becomes a time (C149_one_row_refuted)."
  },
  {
   "property": "C150",
   "status": "partial",
   "theorems": [
    "C150_by_name",
    "C150_constant",
    "C150_linear_partial",
    "C150_missing_refuted",
    "C150_refused",
    "C150_scipy_refuted"
   ],
   "note": "Proved for the linear trend by 'qr' without missing samples (C150_linear_partial), for the mean (C150_constant), for detrend_scipy called by its own name (C150_by_name; scipy's detrend is any function with the property asked for) and for other options (C150_refused). Violated: one missing sample erases the trace with 'qr' (C150_missing_refuted), and the method 'scipy' raises TypeError for every matrix that has a sample, since the option 'method' is handed on to scipy (C150_scipy_refuted)."
  },
  {
   "property": "C151",
   "status": "partial",
   "theorems": [
    "C151_first_process_refuted",
    "C151_together_partial"
   ],
   "note": "Proved if nothing fails on the first process alone: all processes return the stations of a single process or raise the same exception (C151_together_partial). Violated otherwise: if the directories cannot be made, the options cannot be written (e.g. they hold a time), a network of a list has no data, or the component is not a text, the first process raises and all others wait in a broadcast for ever (C151_first_process_refuted)."
  },
  {
   "property": "C152",
   "status": "partial",
   "theorems": [
    "C152_existing_refuted",
    "C152_metadata_refuted",
    "C152_together_partial"
   ],
   "note": "Proved if the first process finds what it looks for (C152_together_partial). Violated otherwise: without metadata and with remove_response (C152_metadata_refuted), and if a file of the directory refuses the options or the search for existing correlations raises, e.g. KeyError for the output of delete_subdivision (C152_existing_refuted; C10, C18, C148), the first process raises and all others wait in a broadcast for ever."
  },
  {
   "property": "C153",
   "status": "partial",
   "theorems": [
    "C153_coherence_all_raise",
    "C153_coherence_partial",
    "C153_coherence_refuted",
    "C153_file_refuted",
    "C153_idle_refuted",
    "C153_velocity_partial"
   ],
   "note": "Proved if all files can be opened and, for coherences, all combinations can be computed (C153_velocity_partial, C153_coherence_partial), and if each process meets a failure (C153_coherence_all_raise). Violated otherwise: a file that cannot be opened stops the first process and lets the others wait in the broadcast (C153_file_refuted); a coherence that cannot be computed stops its process and lets each process without failures wait in allgather for ever (C153_coherence_refuted), which is always so with more processes than combinations (C153_idle_refuted)."
  },
  {
   "property": "C154",
   "status": "partial",
   "theorems": [
    "C154_coherence_partial",
    "C154_coherence_refuted",
    "C154_directories_refuted",
    "C154_options_refuted",
    "C154_script_partial",
    "C154_script_refuted",
    "C154_start_partial"
   ],
   "note": "Proved if the first process can make the directories and write the options (C154_start_partial, C154_script_partial; for coherences C154_coherence_partial). Violated otherwise: if the directories cannot be made the other processes wait for ever (C154_directories_refuted); if the options cannot be written, e.g. they hold a date, the first process raises while the others get a Monitor (C154_options_refuted) and wait for ever in the run (C154_script_refuted, C154_coherence_refuted)."
  },
  {
   "property": "C155",
   "status": "partial",
   "theorems": [
    "C155_first_process_refuted",
    "C155_script_partial",
    "C155_windows_refuted"
   ],
   "note": "Proved if the first process can do what it does alone and all processes have the same number of windows in each read increment (C155_script_partial; these are the conditions of C151, C152 and C03). Violated otherwise: every failure of the first process while the script starts or the run begins (C155_first_process_refuted), and different numbers of windows, e.g. a process that cannot read its data (C155_windows_refuted), let processes wait for ever."
  }
 ]
}