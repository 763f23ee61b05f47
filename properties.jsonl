{"id": "C01", "title": "Every unit of work is done by exactly one MPI process", "statement": "Whenever SeisMIC splits a list of stations, traces, trace pairs, output files or monitoring jobs between MPI processes, each item is assigned to exactly one process, that process exists (0 <= rank < number of processes), the items of a process are consecutive, and the loads of two processes differ by at most one item.", "quantifier": "every number of items and every positive number of processes", "why_tests_cant": "tests run on one process and on a few list lengths; the claim is about all pairs (n items, p processes)", "anchors": ["src/seismic/correlate/correlate.py::Correlator._generate_data", "src/seismic/correlate/correlate.py::Correlator._pxcorr_matrix", "src/seismic/correlate/correlate.py::Correlator._write", "src/seismic/monitor/monitor.py::Monitor.compute_velocity_change_bulk", "src/seismic/monitor/monitor.py::Monitor.compute_waveform_coherence_bulk"]}
{"id": "C02", "title": "Correlation results do not depend on the number of MPI processes", "statement": "The correlation matrix and the start lags returned after the time-domain and frequency-domain preprocessing and the final reduction over processes are the same for every number of MPI processes, and equal to the results of a run on one process.", "quantifier": "every number of traces, pairs and processes, and every preprocessing function", "why_tests_cant": "the test suite has no multi-process runs and cannot enumerate preprocessing chains", "anchors": ["src/seismic/correlate/correlate.py::Correlator._pxcorr_matrix", "src/seismic/correlate/preprocessing_fd.py::spectralWhitening"]}
{"id": "C03", "title": "All MPI processes take part in the same sequence of collective operations", "statement": "During the correlation loop every process calls the collective operations (gather of time windows, broadcast of combinations) the same number of times in the same order, so that no process waits for a partner that never comes.", "quantifier": "every distribution of data, gaps and processing failures over the processes, every read length and correlation increment", "why_tests_cant": "a deadlock needs a particular distribution of data over processes; tests run on one process", "anchors": ["src/seismic/correlate/correlate.py::Correlator._generate_data", "src/seismic/correlate/correlate.py::generate_corr_inc"]}
{"id": "C04", "title": "Every computed correlation is written exactly once, and a crash loses only the last unwritten batch", "statement": "For every sequence of correlation windows, the batches handed to the output files concatenate to exactly the computed correlations, in order, each once; if the run is killed after any number of windows, the file contents are a prefix of that sequence and nothing computed before the last flush is missing.", "quantifier": "every sequence of read increments with any number of windows in each, and every crash point", "why_tests_cant": "depends on all window counts and crash points", "anchors": ["src/seismic/correlate/correlate.py::Correlator.pxcorr", "src/seismic/correlate/correlate.py::Correlator._generate_data", "src/seismic/correlate/correlate.py::Correlator._write"]}
{"id": "C05", "title": "The stack written with a batch covers exactly one read increment", "statement": "When recombine_subdivision is set, each stack stored under stack_<read_len> averages exactly the correlations of one read increment.", "quantifier": "every number of read increments and windows per increment", "why_tests_cant": "unit tests write a single hand-made stream", "anchors": ["src/seismic/correlate/correlate.py::Correlator.pxcorr", "src/seismic/correlate/correlate.py::Correlator._write", "src/seismic/correlate/correlate.py::Correlator._generate_data"]}
{"id": "C06", "title": "Each combination method selects exactly the documented trace pairs", "statement": "For a stream of traces sorted by network, station and channel, the list of combinations contains exactly the pairs its documentation describes (betweenStations: different network or station; betweenComponents: same station, different component; autoComponents: each trace with itself; allSimpleCombinations: every unordered pair once including self pairs; allCombinations: every ordered pair), minus the pairs whose correlation already exists, each pair exactly once; any other method name is rejected.", "quantifier": "every stream of traces, every set of existing correlations, every method name", "why_tests_cant": "tests check a handful of three-trace streams", "anchors": ["src/seismic/correlate/correlate.py::calc_cross_combis"]}
{"id": "C07", "title": "A cross-correlation is computed if and only if it was requested in xcombinations", "statement": "With combination method betweenStations and a list of requested combinations, a station pair is correlated if and only if one of the requested entries names it (in either order), and entries without channel codes request all channels.", "quantifier": "all station, network and channel codes and all request lists", "why_tests_cant": "depends on relations between all codes in a network (e.g. one code being a prefix of another)", "anchors": ["src/seismic/correlate/correlate.py::is_in_xcombis", "src/seismic/correlate/correlate.py::Correlator._filter_by_rcombis", "src/seismic/correlate/correlate.py::compute_network_station_combinations"]}
{"id": "C08", "title": "Dropping unused traces does not change which pairs are correlated", "statement": "After traces that take part in no combination are removed from a window and the combinations are recomputed, exactly the same pairs of traces are correlated as before the removal.", "quantifier": "every stream, every method, every set of existing correlations and requests", "why_tests_cant": "index shifting bugs only show for particular patterns of unused traces", "anchors": ["src/seismic/correlate/correlate.py::Correlator._generate_data", "src/seismic/correlate/correlate.py::calc_cross_combis"]}
{"id": "C09", "title": "A pair of channels is always stored under one name", "statement": "The combined network, station and channel codes under which a correlation of two channels is stored do not depend on the order in which the two channels are given.", "quantifier": "all network, station and channel codes", "why_tests_cant": "the failing codes are rare coincidences of concatenated names", "anchors": ["src/seismic/correlate/correlate.py::sort_comb_name_alphabetically", "src/seismic/correlate/stream.py::alphabetical_correlation"]}
{"id": "C10", "title": "Existing correlations are neither recomputed nor wrongly skipped", "statement": "A pair and time window is skipped in a later run if and only if its correlation is already stored; in particular rerunning a finished job computes nothing.", "quantifier": "all station and channel codes, all time windows, all earlier runs", "why_tests_cant": "the lookup key and the storage key are computed by different code paths and must agree for all names", "anchors": ["src/seismic/correlate/correlate.py::_compare_existing_data", "src/seismic/correlate/correlate.py::Correlator.find_existing_times", "src/seismic/correlate/correlate.py::compute_network_station_combinations", "src/seismic/db/corr_hdf5.py::DBHandler.get_available_starttimes"]}
{"id": "C11", "title": "No two MPI processes write to the same file and every correlation reaches its own file", "statement": "In every write of a batch each output file is opened by exactly one process, and every correlation of the batch is put into the file named after its own station pair (and channel pair when components are saved separately), and into no other file.", "quantifier": "every batch of correlations and every number of processes", "why_tests_cant": "HDF5 corruption by two writers needs many files and several processes", "anchors": ["src/seismic/correlate/correlate.py::Correlator._write"]}
{"id": "C12", "title": "Reordering a station pair keeps data and lag axis consistent", "statement": "When a correlation is stored in the opposite order of the two stations, its samples are time reversed and its lag axis is mirrored: the sample stored at lag t is the sample that was computed at lag -t.", "quantifier": "every start lag, sampling rate, number of samples and both orders", "why_tests_cant": "a one-sample error is invisible in tests that compare names or shapes", "anchors": ["src/seismic/correlate/correlate.py::Correlator._pxcorr_inner", "src/seismic/correlate/stream.py::alphabetical_correlation", "src/seismic/correlate/stream.py::combine_stats", "src/seismic/correlate/stream.py::CorrTrace"]}
{"id": "C13", "title": "Correlation headers stay consistent under every sequence of changes", "statement": "After any sequence of header assignments and updates, delta is the reciprocal of the sampling rate (0 for rate 0), end_lag equals start_lag + (npts-1)*delta (start_lag when npts is 0), starttime and endtime equal corr_start and corr_end, and no assignment can set starttime, endtime or end_lag directly.", "quantifier": "every initial header and every sequence of assignments", "why_tests_cant": "needs induction over all histories of assignments", "anchors": ["src/seismic/correlate/stats.py::CorrStats.__setitem__"]}
{"id": "C14", "title": "A stored correlation is read back unchanged and is never overwritten", "statement": "After a correlation is added under a tag it can be read back with the same data and times (to the 0.1 ms resolution of the file keys); adding a second correlation with the same names, tag and times leaves the file unchanged; adding a correlation never alters any other stored correlation.", "quantifier": "every file content, every sequence of additions", "why_tests_cant": "quantifies over all histories of a file", "anchors": ["src/seismic/db/corr_hdf5.py::DBHandler.add_correlation", "src/seismic/db/corr_hdf5.py::DBHandler.get_data"]}
{"id": "C15", "title": "Deleting data removes exactly what was asked for", "statement": "remove_data deletes exactly the correlations of the named network, station, channel and tag whose start time matches, and leaves everything else in the file untouched.", "quantifier": "every file content and every start time or wildcard pattern", "why_tests_cant": "needs all contents and patterns", "anchors": ["src/seismic/db/corr_hdf5.py::DBHandler.remove_data"]}
{"id": "C16", "title": "A wildcard query returns exactly the matching correlations", "statement": "Wildcards are allowed for all parameters of get_data: the query returns exactly the stored correlations whose tag, codes and times match the given patterns.", "quantifier": "all file contents and all patterns", "why_tests_cant": "needs all patterns, including wildcards inside a code", "anchors": ["src/seismic/db/corr_hdf5.py::DBHandler.get_data", "src/seismic/db/corr_hdf5.py::all_traces_recursive"]}
{"id": "C17", "title": "Queries may name a station pair in either order", "statement": "A correlation that was stored for a station pair is found by get_data and remove_data whichever of the two stations is named first.", "quantifier": "all network, station and channel codes", "why_tests_cant": "store and query sort the pair by different keys; only some codes show it", "anchors": ["src/seismic/db/corr_hdf5.py::DBHandler.get_data", "src/seismic/db/corr_hdf5.py::DBHandler.remove_data", "src/seismic/correlate/stream.py::alphabetical_correlation"]}
{"id": "C18", "title": "A file only ever holds correlations computed with one set of processing options", "statement": "Opening an existing file with options that differ in any processing parameter is refused unless forced; opening it again with the options it was created with, or with options that differ only in bookkeeping keys (times, directories, combinations, masks), always succeeds.", "quantifier": "all option dictionaries", "why_tests_cant": "quantifies over all option dictionaries, e.g. any number of preprocessing steps", "anchors": ["src/seismic/db/corr_hdf5.py::DBHandler.__init__", "src/seismic/db/corr_hdf5.py::DBHandler.add_corr_options", "src/seismic/db/corr_hdf5.py::DBHandler.get_corr_options", "src/seismic/db/corr_hdf5.py::co_to_hdf5"]}
{"id": "C19", "title": "Opening mode and compression settings are always valid", "statement": "A database opened without options (and not forced) can never be modified; the compression level used is always between 1 and 9 and is the nearest to the requested one; any other compressor is rejected; the file name ends in .h5.", "quantifier": "all paths, modes, compression strings", "why_tests_cant": "all integers as levels, all strings", "anchors": ["src/seismic/db/corr_hdf5.py::DBHandler.__init__", "src/seismic/db/corr_hdf5.py::CorrelationDataBase.__init__"]}
{"id": "C20", "title": "The listings of a file are exact", "statement": "get_available_starttimes and get_available_channels list exactly the start times and channels present in the file for the given tag and codes.", "quantifier": "every file content after any sequence of additions", "why_tests_cant": "quantifies over histories", "anchors": ["src/seismic/db/corr_hdf5.py::DBHandler.get_available_starttimes", "src/seismic/db/corr_hdf5.py::DBHandler.get_available_channels"]}
{"id": "C21", "title": "Stacking averages exactly the correlations of one channel pair", "statement": "Stacking a stream yields one trace per network/station/channel (and location, if regarded) combination; it is the mean, or the duration-weighted mean, of exactly the longest traces of that combination, scaled to maximum 1, and its header spans from the first start to the last end.", "quantifier": "every stream, weights and location handling", "why_tests_cant": "all groupings and lengths", "anchors": ["src/seismic/correlate/stream.py::stack_st_by_group", "src/seismic/correlate/stream.py::stack_st", "src/seismic/correlate/stream.py::CorrStream.stack"]}
{"id": "C22", "title": "Stacking over consecutive windows uses every correlation exactly once", "statement": "With a stack length of at least the correlation length, the windows of stack() are disjoint and together contain every correlation of the stream.", "quantifier": "every stream of correlations, every stack length", "why_tests_cant": "boundary conditions over all time axes", "anchors": ["src/seismic/correlate/stream.py::CorrStream.stack", "src/seismic/correlate/stream.py::CorrStream.slide", "src/seismic/correlate/stream.py::CorrStream.select_corr_time"]}
{"id": "C23", "title": "Time based filters of a correlation stream are exact", "statement": "select_corr_time, select_time, pop_at_utcs and remove_duplicates return exactly the correlations their documentation describes, in order, and lose or invent none.", "quantifier": "every stream and every time argument", "why_tests_cant": "boundary inclusion/exclusion over all times", "anchors": ["src/seismic/correlate/stream.py::CorrStream.select_corr_time", "src/seismic/correlate/stream.py::CorrStream.select_time", "src/seismic/correlate/stream.py::CorrStream.pop_at_utcs", "src/seismic/correlate/stream.py::CorrStream.remove_duplicates"]}
{"id": "C24", "title": "Stream and matrix representations agree", "statement": "Converting a correlation stream to a bulk matrix and back returns the same data with the same start times, end times, locations and channels row by row; streams with differing metadata are refused.", "quantifier": "every stream", "why_tests_cant": "all lengths and header combinations", "anchors": ["src/seismic/correlate/stream.py::CorrStream.create_corr_bulk", "src/seismic/correlate/stream.py::CorrBulk.create_corr_stream", "src/seismic/correlate/stream.py::convert_statlist_to_bulk_stats", "src/seismic/correlate/stream.py::CorrBulk.__getitem__"]}
{"id": "C25", "title": "Slicing a correlation matrix in time keeps rows and headers aligned", "statement": "slice() returns exactly the rows whose correlation window lies in (or overlaps) the requested interval, with the matching header entries, and its row count in the header equals the number of rows.", "quantifier": "every matrix and interval", "why_tests_cant": "boundary conditions and header consistency for all inputs", "anchors": ["src/seismic/correlate/stream.py::CorrBulk.slice", "src/seismic/correlate/stream.py::CorrBulk._find_slice_index", "src/seismic/correlate/stream.py::CorrBulk.__getitem__"]}
{"id": "C26", "title": "Monitoring time windows tile the requested period", "statement": "The list of dv/v windows starts at the start date, is spaced by date_inc, every start lies before the end date, no window is missing, and each window is win_len long; if win_len equals date_inc every instant of the period lies in exactly one window; invalid arguments are rejected.", "quantifier": "all start/end dates, increments and window lengths", "why_tests_cant": "all time axes", "anchors": ["src/seismic/monitor/monitor.py::make_time_list"]}
{"id": "C27", "title": "Resampling a correlation matrix in time puts each correlation into the bins that contain its start", "statement": "Row i of the resampled matrix is NaN if no correlation starts in [start_i, end_i), a copy if exactly one does, and the NaN-ignoring average if several do.", "quantifier": "every matrix and every list of bins", "why_tests_cant": "all bin layouts", "anchors": ["src/seismic/monitor/post_corr_process.py::corr_mat_resample"]}
{"id": "C28", "title": "Trimming the lag axis keeps every sample at its lag", "statement": "After trim(starttime, endtime) the matrix contains exactly the samples with lags in the requested interval and the header assigns each of them the lag it had before.", "quantifier": "every lag axis and every trim interval", "why_tests_cant": "off-grid limits and boundaries", "anchors": ["src/seismic/monitor/trim.py::corr_mat_trim"]}
{"id": "C29", "title": "Mirroring averages causal and acausal parts", "statement": "After mirror() the sample at lag k is the mean of the samples at lags k and -k where both exist and the existing one otherwise, and the lag axis starts at 0.", "quantifier": "every symmetric or asymmetric lag axis", "why_tests_cant": "all combinations of left and right lengths", "anchors": ["src/seismic/monitor/post_corr_process.py::corr_mat_mirror"]}
{"id": "C30", "title": "A lag window uses the requested side of the correlation", "statement": "For sides left, right, both and single, the samples compared with the reference are exactly those whose lags lie in the requested window on the requested side.", "quantifier": "every matrix width and every window", "why_tests_cant": "negative index wrap-around only for some windows", "anchors": ["src/seismic/monitor/stretch_mod.py::velocity_change_estimate", "src/seismic/monitor/stretch_mod.py::compute_wfc", "src/seismic/monitor/stretch_mod.py::time_windows_creation"]}
{"id": "C31", "title": "The reported velocity change is the best match and similarities are bounded", "statement": "Every reported similarity lies between -1 and 1, the reported stretch is one whose similarity with the trace is maximal among all tested stretches, and a trace identical to a stretched reference obtains similarity 1.", "quantifier": "every data matrix and every reference matrix", "why_tests_cant": "real-valued inequality over all data", "anchors": ["src/seismic/monitor/stretch_mod.py::velocity_change_estimate"]}
{"id": "C32", "title": "Component averaging only combines results of one station pair", "statement": "compute_components_average averages exactly the groups of dv files that belong to the same network and station combination and match the method, each file is used at most once, and it always terminates.", "quantifier": "every set of dv files and every directory", "why_tests_cant": "file-name coincidences (prefixes, special characters) over all names", "anchors": ["src/seismic/monitor/monitor.py::Monitor.compute_components_average"]}
{"id": "C33", "title": "The memory-saving average equals the in-memory average", "statement": "average_components_mem_save and average_components produce the same similarity matrix, value, correlation and counts for the same DVs.", "quantifier": "every list of DVs with arbitrary NaN patterns", "why_tests_cant": "NaN patterns", "anchors": ["src/seismic/monitor/monitor.py::average_components", "src/seismic/monitor/monitor.py::average_components_mem_save"]}
{"id": "C34", "title": "The station and network filters of the monitor select exactly the matching files", "statement": "corr_find_filter returns exactly the correlation files whose two networks and two stations each match the network and station filter (string with wildcards or list).", "quantifier": "every directory listing and every filter", "why_tests_cant": "interaction of both filters over all lists", "anchors": ["src/seismic/monitor/monitor.py::corr_find_filter"]}
{"id": "C35", "title": "Shifting a dv/v curve treats every time step separately", "statement": "correct_dv_shift shifts each row of the similarity matrix by the measured offset; the values of one time step never end up in another.", "quantifier": "every pair of DVs", "why_tests_cant": "matrix layout effects", "anchors": ["src/seismic/monitor/monitor.py::correct_dv_shift"]}
{"id": "C36", "title": "Every downloaded sample reaches the local archive in the file of its day", "statement": "When a trace is written to the local archive every sample is written to the file of the UTC day it belongs to (the midnight sample may additionally close the preceding day), and no day file receives samples of other days.", "quantifier": "every trace start, length and sampling interval", "why_tests_cant": "day boundaries over all traces", "anchors": ["src/seismic/trace_data/waveform.py::Store_Client._write_local_data"]}
{"id": "C37", "title": "Local data are only used when they cover the request", "statement": "A request is answered from the local archive only if the local data cover the whole requested time window.", "quantifier": "every set of local traces and every request", "why_tests_cant": "gap patterns", "anchors": ["src/seismic/trace_data/waveform.py::Store_Client._load_local", "src/seismic/trace_data/waveform.py::Store_Client.get_waveforms"]}
{"id": "C38", "title": "Wildcard requests to the waveform client are rejected", "statement": "get_waveforms accepts only single channel requests: a request with a wildcard in network, station, location or channel is refused.", "quantifier": "all request strings", "why_tests_cant": "the assertion can be vacuous for all inputs", "anchors": ["src/seismic/trace_data/waveform.py::Store_Client.get_waveforms"]}
{"id": "C39", "title": "The first and last day of a station archive are found", "statement": "get_day_in_folder returns the earliest (latest) day with data among all years, and reports that no files were found otherwise.", "quantifier": "every archive content", "why_tests_cant": "empty year folders in all positions", "anchors": ["src/seismic/trace_data/waveform.py::get_day_in_folder"]}
{"id": "C40", "title": "Adjacent files are found in the right direction", "statement": "When reading from a file system with a date pattern, the file requested before (after) a given one is that of the preceding (following) period.", "quantifier": "every date and every pattern", "why_tests_cant": "month lengths, year ends", "anchors": ["src/seismic/trace_data/waveform.py::FS_Client._adjacent_filepattern", "src/seismic/trace_data/waveform.py::FS_Client.read_from_filesystem"]}
{"id": "C41", "title": "Masked time intervals are masked completely", "statement": "After mask_at_utc every sample whose time lies in one of the given intervals is masked, and samples further than one sample away from all intervals are not.", "quantifier": "every trace and every set of intervals", "why_tests_cant": "relative positions of interval and trace", "anchors": ["src/seismic/correlate/preprocessing_stream.py::trace_mask_at_utc", "src/seismic/correlate/preprocessing_stream.py::stream_mask_at_utc"]}
{"id": "C42", "title": "Gap interpolation fills exactly the short gaps", "statement": "interpolate_gaps leaves existing samples untouched, fills every interior gap of at most max_gap_len samples by linear interpolation between its neighbours, and leaves longer gaps and gaps at the ends masked.", "quantifier": "every masked array and limit", "why_tests_cant": "all gap patterns", "anchors": ["src/seismic/utils/miic_utils.py::interpolate_gaps"]}
{"id": "C43", "title": "Results survive saving and loading", "statement": "A DV (velocity change) object that is saved and read again has the same values, times and header.", "quantifier": "every DV object, including one with a single time step", "why_tests_cant": "all lengths and optional fields", "anchors": ["src/seismic/utils/miic_utils.py::save_header_to_np_array", "src/seismic/utils/miic_utils.py::load_header_from_np_array", "src/seismic/utils/miic_utils.py::convert_timestamp_to_utcdt", "src/seismic/monitor/dv.py::DV.save", "src/seismic/monitor/dv.py::read_dv"]}
{"id": "C44", "title": "Every unaligned dv/v curve is aligned with its own shift", "statement": "align_dvs_to_grid shifts every velocity change curve that has not been aligned before by the shift computed for that curve, and no other.", "quantifier": "every list of DVs, loaded from files or computed", "why_tests_cant": "object identity and skipped curves", "anchors": ["src/seismic/monitor/spatial.py::DVGrid.align_dvs_to_grid", "src/seismic/monitor/spatial.py::DVGrid.align_dv_curves", "src/seismic/monitor/spatial.py::DVGrid._extract_info_dvs", "src/seismic/monitor/dv.py::DV.__init__", "src/seismic/monitor/dv.py::read_dv"]}
{"id": "C45", "title": "Coordinates outside the grid are rejected", "statement": "Looking up a coordinate on the inversion grid returns the nearest cell, and raises an error exactly if the point is farther than one cell size from the grid in x or y.", "quantifier": "every grid and coordinate", "why_tests_cant": "all directions outside the grid", "anchors": ["src/seismic/monitor/spatial.py::DVGrid._find_coord"]}
{"id": "C46", "title": "Zero padding prevents wrap-around in the correlation", "statement": "For every stored lag the frequency-domain correlation equals the plain sum over products of overlapping samples: no sample pair from the opposite end of the window contributes.", "quantifier": "every trace length, every lengthToSave and sampling rate", "why_tests_cant": "needs all lengths; an error affects a single extreme lag", "anchors": ["src/seismic/correlate/preprocessing_td.py::zeroPadding", "src/seismic/correlate/correlate.py::Correlator._pxcorr_matrix"]}
{"id": "C47", "title": "The spectrogram does not depend on the number of MPI processes", "statement": "The combined spectrum contains each processed window exactly once, in time order, and whether it can be computed does not depend on how the windows are distributed over processes.", "quantifier": "every sequence of windows and number of processes", "why_tests_cant": "process counts", "anchors": ["src/seismic/utils/raw_analysis.py::spct_series_welch"]}
{"id": "C48", "title": "Tapering the centre of a correlation works for every lag axis", "statement": "taper_center multiplies the samples around zero lag by the taper and leaves all other samples unchanged, for every width.", "quantifier": "every lag axis, width and slope", "why_tests_cant": "window exceeding the trace on either side", "anchors": ["src/seismic/monitor/post_corr_process.py::corr_mat_taper_center"]}
{"id": "C49", "title": "Moving averages keep length and bounds", "statement": "nan_moving_av returns one value per sample, the NaN-ignoring mean of the clipped window around it; corr_mat_smooth returns a matrix of the same shape, and constant data stay unchanged.", "quantifier": "every array and window length", "why_tests_cant": "window equal to or longer than the data", "anchors": ["src/seismic/utils/miic_utils.py::nan_moving_av", "src/seismic/monitor/post_corr_process.py::corr_mat_smooth", "src/seismic/monitor/post_corr_process.py::_smooth"]}
{"id": "C50", "title": "Muting really removes the detected intervals", "statement": "With extend_gaps, every sample whose envelope exceeds the threshold is set to zero. No sample is amplified, and samples further than the taper length away from every exceeding sample are left unchanged.", "quantifier": "every trace, threshold and taper length", "why_tests_cant": "depends on parity and position", "anchors": ["src/seismic/correlate/preprocessing_td.py::mute"]}
{"id": "C51", "title": "Decimating a correlation matrix keeps the lag axis", "statement": "After decimation by an integer factor, the samples are every factor-th sample of the (filtered) input from the first to the last lag, and the header describes their lags.", "quantifier": "every matrix width and factor", "why_tests_cant": "widths not divisible by the factor", "anchors": ["src/seismic/monitor/post_corr_process.py::corr_mat_decimate", "src/seismic/monitor/post_corr_process.py::corr_mat_resample_or_decimate"]}
{"id": "C52", "title": "Network and station settings are paired as documented", "statement": "The network and station options are translated to the list of (network, station) pairs described in the documentation, and every other combination is refused.", "quantifier": "all network/station settings", "why_tests_cant": "combinatorics of strings, lists, wildcards", "anchors": ["src/seismic/correlate/correlate.py::Correlator.__init__"]}
{"id": "C53", "title": "A correlation run can be interrupted and started again", "statement": "If a run stops at any point and is started again on the same output directory, the files hold in the end what an uninterrupted run would have written.", "quantifier": "every batch and every crash point", "why_tests_cant": "crash points", "anchors": ["src/seismic/correlate/correlate.py::Correlator._write", "src/seismic/correlate/correlate.py::Correlator.find_existing_times", "src/seismic/correlate/correlate.py::_compare_existing_data"]}
{"id": "C54", "title": "Measuring a velocity change leaves the correlation matrix as it was", "statement": "Calling stretch() on a correlation matrix does not change the matrix: afterwards its header still describes its data.", "quantifier": "every matrix and lag axis", "why_tests_cant": "only lag axes that are not symmetric are affected", "anchors": ["src/seismic/monitor/post_corr_process.py::corr_mat_stretch", "src/seismic/monitor/trim.py::corr_mat_trim", "src/seismic/correlate/stream.py::CorrBulk.stretch"]}
{"id": "C55", "title": "Data can be added to a day that is already in the archive", "statement": "Storing downloaded data for a day that already has a file in the local archive keeps the samples that are there and adds the new ones.", "quantifier": "every stored piece and every new piece", "why_tests_cant": "gaps and overlaps of any length", "anchors": ["src/seismic/trace_data/waveform.py::Store_Client._sds_write", "src/seismic/trace_data/waveform.py::Store_Client._write_local_data"]}
{"id": "C56", "title": "Normalised correlations are bounded", "statement": "With normalize_correlation every sample of a correlation lies between -1 and 1, and the correlation of a trace with itself is 1 at zero lag.", "quantifier": "all traces, spectra after any frequency domain processing, lengths and offsets", "why_tests_cant": "all inputs; depends on how single frequencies are counted", "anchors": ["src/seismic/correlate/correlate.py::Correlator._pxcorr_matrix"]}
{"id": "C57", "title": "Swapping two traces mirrors the correlation", "statement": "Correlating B with A gives the time-reversed correlation of A with B, and its lag axis is the mirrored one.", "quantifier": "all pairs of spectra, offsets of the start times and lengths", "why_tests_cant": "all inputs, including offsets of fractions of samples", "anchors": ["src/seismic/correlate/correlate.py::Correlator._pxcorr_matrix"]}
{"id": "C58", "title": "Options can be used again", "statement": "Making a Correlator from an options dictionary leaves the network and station settings of that dictionary unchanged, so that a second Correlator made from the same dictionary reads the same stations.", "quantifier": "every network and station setting and every archive", "why_tests_cant": "Tests make one Correlator per dictionary.", "anchors": ["src/seismic/correlate/correlate.py::Correlator.__init__"]}
{"id": "C59", "title": "Spectral whitening sets all amplitudes to one", "statement": "After spectral whitening every frequency except zero has amplitude one and its old phase, and the zero frequency is removed; with joint_norm the three traces of a station keep the ratios of their amplitudes at each frequency.", "quantifier": "every matrix of spectra", "why_tests_cant": "A zero anywhere in the matrix changes how all of it is treated.", "anchors": ["src/seismic/correlate/preprocessing_fd.py::spectralWhitening"]}
{"id": "C60", "title": "Clipping and normalising do what their names say", "statement": "After clipping no sample exceeds the factor times the standard deviation and samples below are unchanged; normalising gives standard deviation one and keeps constant traces; sign bit normalisation gives the signs; removing the mean gives mean zero.", "quantifier": "every trace and factor", "why_tests_cant": "All inputs, among them constant traces.", "anchors": ["src/seismic/correlate/preprocessing_td.py::clip", "src/seismic/correlate/preprocessing_td.py::normalizeStandardDeviation", "src/seismic/correlate/preprocessing_td.py::signBitNormalization", "src/seismic/correlate/preprocessing_td.py::detrend"]}
{"id": "C61", "title": "Detrending removes the linear trend and nothing else", "statement": "The detrended trace has no linear trend left, differs from the input by a straight line, and missing samples stay missing while the others are treated as if the trace had no gap.", "quantifier": "every trace and every set of missing samples", "why_tests_cant": "Gaps in any position.", "anchors": ["src/seismic/correlate/preprocessing_td.py::detrend", "src/seismic/correlate/preprocessing_td.py::detrendqr", "src/seismic/correlate/preprocessing_td.py::detrend_scipy"]}
{"id": "C62", "title": "Time domain normalisation gives finite traces", "statement": "After time domain normalisation every sample is finite, bounded and independent of the overall amplitude of the trace.", "quantifier": "every trace, filter and window length", "why_tests_cant": "Zero traces and windows longer than the trace.", "anchors": ["src/seismic/correlate/preprocessing_td.py::TDnormalization"]}
{"id": "C63", "title": "The cosine taper fades out both ends", "statement": "The taper multiplies the ends of a trace with a half cosine that rises from zero to one over the given length and leaves the middle unchanged, whatever the type of the data.", "quantifier": "every trace, type and taper length", "why_tests_cant": "Integer data and taper lengths of half the trace.", "anchors": ["src/seismic/correlate/preprocessing_stream.py::cos_taper"]}
{"id": "C64", "title": "One bit normalisation in the frequency domain gives the signs of the trace", "statement": "Frequency domain sign bit normalisation yields the spectrum of the signs of the time series.", "quantifier": "every trace length", "why_tests_cant": "Only lengths that are odd are affected.", "anchors": ["src/seismic/correlate/preprocessing_fd.py::FDsignBitNormalization"]}
{"id": "C65", "title": "Smoothing the similarities keeps value, correlation and availability consistent", "statement": "After smooth_sim_mat each similarity is the average of the usable similarities of the neighbouring times; the correlation of each time is the largest of them, the value is the stretch at which it is attained, times without any similarity have neither, and the record of available times is that of the new correlations.", "quantifier": "every similarity matrix, window length and limit", "why_tests_cant": "Missing and negative similarities in any combination.", "anchors": ["src/seismic/monitor/dv.py::DV.smooth_sim_mat", "src/seismic/utils/miic_utils.py::nan_moving_av"]}
{"id": "C66", "title": "Normalising traces makes them comparable", "statement": "After normalising a correlation matrix each trace is divided by one positive number such that its energy, mean or maximal amplitude in the given lag window is one; the gain a trace had before does not matter; windows that are not on the lag axis leave the matrix as it is.", "quantifier": "every matrix, lag axis, window and kind of norm", "why_tests_cant": "Windows at and beyond the ends of the lag axis, traces without signal, with gaps or with one sign.", "anchors": ["src/seismic/monitor/post_corr_process.py::corr_mat_normalize", "src/seismic/correlate/stream.py::CorrBulk.normalize"]}
{"id": "C67", "title": "The reference trace is a mean of the traces of the matrix", "statement": "Extracting a reference gives, sample by sample, the mean of the traces that have the sample, the mean of the normalised traces, or the mean of the given percentage of traces that are most similar to the mean; it exists whenever the matrix has data.", "quantifier": "every matrix, method and percentile", "why_tests_cant": "Identical traces, gaps and extreme percentiles.", "anchors": ["src/seismic/monitor/post_corr_process.py::corr_mat_extract_trace", "src/seismic/correlate/stream.py::CorrBulk.extract_trace"]}
{"id": "C68", "title": "Measuring a time shift and correcting for it removes it", "statement": "A trace that is the reference displaced by one of the tested shifts is measured with similarity one at a shift that reproduces it; correct_shift with the measured values restores the reference, and measuring again finds similarity one (no shift left).", "quantifier": "all references and matrices, all displacements by whole samples within the range, all windows that fit the axis, one- and two-sided, all interpolations through the samples", "why_tests_cant": "tests measure a few synthetic shifts; that signs, trimming, window indices and the ranges of the interpolation agree for every axis, window and displacement is an argument about all of them", "anchors": ["src/seismic/monitor/post_corr_process.py::measure_shift", "src/seismic/monitor/post_corr_process.py::apply_shift", "src/seismic/correlate/stream.py::CorrBulk.measure_shift", "src/seismic/correlate/stream.py::CorrBulk.correct_shift", "src/seismic/monitor/stretch_mod.py::create_shifted_ref_mat", "src/seismic/monitor/stretch_mod.py::compare_with_modified_reference"]}
{"id": "C69", "title": "Correcting a measured stretch removes it", "statement": "A trace that is the reference stretched by v is seen as such by the estimate, and correct_stretch with the measured v restores the reference wherever the trace has data and is zero elsewhere; stretches add up, zero changes nothing, and measurements of another kind are refused.", "quantifier": "all waveforms an interpolation reproduces, all stretches, all axes and positions of lag zero", "why_tests_cant": "signs and conventions (difference or logarithm) of four functions have to agree for all waveforms; tests compare a handful of traces with tolerances", "anchors": ["src/seismic/monitor/post_corr_process.py::apply_stretch", "src/seismic/correlate/stream.py::CorrBulk.correct_stretch", "src/seismic/monitor/stretch_mod.py::time_stretch_estimate"]}
{"id": "C70", "title": "time_stretch_apply removes an estimated stretch when given its negative", "statement": "As documented, applying the negative of a stretch estimated with time_stretch_estimate to a trace restores the reference, and the traces that are passed are not changed.", "quantifier": "all waveforms an interpolation reproduces, all stretches", "why_tests_cant": "the sign convention has to hold for every stretch; a test with tolerance on small stretches does not notice that it is doubled", "anchors": ["src/seismic/monitor/stretch_mod.py::time_stretch_apply", "src/seismic/monitor/stretch_mod.py::time_stretch_estimate"]}
{"id": "C71", "title": "Clock shifts estimated against a reference are removed by applying them", "statement": "time_shift_apply, given the shifts found by time_shift_estimate, restores the reference; shifts measured by the different functions of the package have the same sign.", "quantifier": "all references, all whole-sample shifts, all interpolations through the samples", "why_tests_cant": "agreement of signs between four functions for every shift; each is tested separately", "anchors": ["src/seismic/monitor/stretch_mod.py::time_shift_apply", "src/seismic/monitor/stretch_mod.py::time_shift_estimate", "src/seismic/monitor/stretch_mod.py::create_shifted_ref_mat", "src/seismic/monitor/post_corr_process.py::corr_mat_shift", "src/seismic/monitor/post_corr_process.py::measure_shift"]}
{"id": "C72", "title": "Baseline offset between two velocity-change curves", "statement": "The offset estimated between the velocity changes measured with two references is the mean of their differences weighted by the inverse of the summed variances; it is the common difference when the curves differ by a constant, lies between the smallest and the largest difference, and changes only its sign when the references are exchanged.", "quantifier": "all curves, all correlation values between -1 and 1, missing dates anywhere", "why_tests_cant": "weighted means have to be right for every set of weights; tests use a few constant arrays", "anchors": ["src/seismic/monitor/stretch_mod.py::est_shift_from_dt_corr"]}
{"id": "C73", "title": "Several references are combined at their mean offset", "statement": "If the measurements with n references are one curve with constant offsets, each reference is shifted by exactly the mean offset minus its own offset, whatever the positive correlation values; identical references give back the single measurement; for every date the reported correlation is the largest combined similarity, reported with the stretch at which it occurs, and similarities stay between -1 and 1.", "quantifier": "all numbers of references, all curves, offsets and correlation values, any generalised inverse used for the least-squares problem", "why_tests_cant": "a least-squares solution over all pairs of references; tests use two or three references with one matrix", "anchors": ["src/seismic/monitor/stretch_mod.py::estimate_reftr_shifts_from_dt_corr", "src/seismic/monitor/stretch_mod.py::_create_G", "src/seismic/monitor/stretch_mod.py::multi_ref_vchange_and_align"]}
{"id": "C74", "title": "Reliable dates decide the offset between references", "statement": "Dates at which both measurements correlate perfectly count most; dates with negative, zero or undefined correlation, or without a value, do not count.", "quantifier": "all curves and correlation values", "why_tests_cant": "edge values of the weights (0, 1, negative, NaN) in every position", "anchors": ["src/seismic/monitor/stretch_mod.py::est_shift_from_dt_corr"]}
{"id": "C75", "title": "References a whole number of steps apart are aligned", "statement": "Measurements whose offsets are whole steps of the stretch axis are brought to the same step before they are averaged; nothing is moved from one end of the stretch axis to the other; dates without data remain undefined; a single date works; when several windows are passed, the first one is used.", "quantifier": "all step offsets, all numbers of references, all windows", "why_tests_cant": "rounding of half steps and the circular shift are only visible for particular offsets; the failing calls need particular shapes", "anchors": ["src/seismic/monitor/stretch_mod.py::estimate_reftr_shifts_from_dt_corr", "src/seismic/monitor/stretch_mod.py::multi_ref_vchange_and_align", "src/seismic/monitor/stretch_mod.py::multi_ref_vchange", "src/seismic/monitor/stretch_mod.py::velocity_change_estimate"]}
{"id": "C76", "title": "Averaged velocity change of several components", "statement": "Averaging several velocity-change results gives, per time and stretch, the mean of the similarities of exactly those inputs that are no averages themselves and share times and stretches with the first input; the correlation is the highest averaged similarity of a time, correlation and value are missing for exactly the times no input has data for, the number of components per time is counted, and header codes are those shared by all, otherwise 'av'. Inputs computed with different methods are refused.", "quantifier": "all lists of velocity-change results with consistent shapes, all patterns of missing values", "why_tests_cant": "which inputs are left out, missing values and signs of the averages combine arbitrarily; tests average two or three complete components", "anchors": ["src/seismic/monitor/monitor.py::average_components"]}
{"id": "C77", "title": "Averages over an area", "statement": "Averaging over an area uses exactly the results of which both stations lie within latitude, longitude and elevation limits (inclusive) and that are no averages; results outside make no difference, an empty selection is refused, and the header describes the area.", "quantifier": "all lists of results, all limits, including lists that contain earlier averages", "why_tests_cant": "the selection is over arbitrary sets of coordinates; tests use a few stations and never feed a geographic average back", "anchors": ["src/seismic/monitor/monitor.py::average_dvs_by_coords"]}
{"id": "C78", "title": "Stitching several curves together", "statement": "When several curves are stitched together each one is shifted to the curve that precedes it in time, after that one has been shifted itself; the earliest curve and curves without data stay as they are; correlations, stretches, times and codes are kept.", "quantifier": "all lists of curves in any order, with any availability, both methods, any overlap", "why_tests_cant": "the correction is iterative and in place, so that its result depends on order, ties and failures of earlier steps", "anchors": ["src/seismic/monitor/monitor.py::correct_time_shift_several", "src/seismic/monitor/monitor.py::average_components", "src/seismic/monitor/monitor.py::correct_dv_shift"]}
{"id": "C79", "title": "Stretch reported by an average", "statement": "The velocity change reported by an average is a stretch at which the averaged similarity is highest.", "quantifier": "all lists of velocity-change results, all signs of the similarities, all patterns of missing values", "why_tests_cant": "fails only for particular combinations of missing values and signs that tests do not contain", "anchors": ["src/seismic/monitor/monitor.py::average_components", "src/seismic/monitor/monitor.py::average_components_mem_save"]}
{"id": "C80", "title": "Overlapping curves end on one level", "statement": "After stitching, curves that overlap are on one level: the later one was shifted by its offset from the earlier one.", "quantifier": "all lists of curves in any order, with any availability", "why_tests_cant": "depends on ties and on failures of earlier steps of the iteration", "anchors": ["src/seismic/monitor/monitor.py::correct_time_shift_several", "src/seismic/monitor/monitor.py::correct_dv_shift"]}
{"id": "C81", "title": "The waveform coherence compares the samples in the window", "statement": "CorrBulk.wfc returns, for each reference, lag window and correlation, the normalised product of the samples of the correlation and the reference in the window on the requested side, with missing samples taken as 0: between -1 and 1, 1 for a correlation equal to the reference, independent of amplitudes and of samples outside of the window, and undefined exactly if one of them has no energy there. Without replacing missing samples a trace with one has no coherence.", "quantifier": "every correlation matrix, every list of references and windows on the traces, every side", "why_tests_cant": "the values must be right for every window, side and pattern of missing samples; tests look at a few traces", "anchors": ["src/seismic/monitor/stretch_mod.py::compute_wfc", "src/seismic/monitor/stretch_mod.py::wfc_multi_reftr", "src/seismic/correlate/stream.py::CorrBulk.wfc"]}
{"id": "C82", "title": "Averages of waveform coherences", "statement": "The averages of a WFC are the means of its defined values per reference and the mean of these. compute_waveform_coherence_bulk averages each WFC exactly once, with those and only those of the same station, frequency band and window, and the average over components with equal layout holds the mean of the defined values of the components at each reference, window and time.", "quantifier": "every list of WFCs", "why_tests_cant": "the grouping must be a partition for every list, and the averages right for every pattern of undefined values", "anchors": ["src/seismic/monitor/wfc.py::WFC.compute_average", "src/seismic/monitor/monitor.py::average_components_wfc", "src/seismic/monitor/monitor.py::Monitor.compute_waveform_coherence_bulk"]}
{"id": "C83", "title": "The grid of waveform coherences", "statement": "WFCBulk orders the centre frequencies and the centres of the windows and shows at each pair the mean of the WFC centred there (the last one if there are several), undefined where there is none.", "quantifier": "every list of WFCs", "why_tests_cant": "depends on every combination of bands and windows; tests use one regular grid", "anchors": ["src/seismic/monitor/wfc.py::WFCBulk.__init__"]}
{"id": "C84", "title": "No waveform coherence is lost in averages and grids", "statement": "The average over components takes all references of all components into account, and each WFC given to WFCBulk appears in the grid.", "quantifier": "every list of WFCs", "why_tests_cant": "whether values are lost depends on combinations of inputs that tests do not contain", "anchors": ["src/seismic/monitor/monitor.py::average_components_wfc", "src/seismic/monitor/wfc.py::WFCBulk.__init__"]}
{"id": "C85", "title": "A saved waveform coherence can be read", "statement": "read_wfc of a file written by WFC.save gives the same coherences, averages, header and processing parameters.", "quantifier": "every WFC", "why_tests_cant": "must hold for every header, tests save one", "anchors": ["src/seismic/monitor/wfc.py::WFC.save", "src/seismic/monitor/wfc.py::read_wfc", "src/seismic/utils/miic_utils.py::save_header_to_np_array", "src/seismic/utils/miic_utils.py::load_header_from_np_array"]}
{"id": "C86", "title": "A failing correlation does not stop the computation of waveform coherences", "statement": "compute_waveform_coherence_bulk returns the WFCs of all correlations, bands and windows that can be computed; an error in one of them affects no other.", "quantifier": "every list of correlations and every pattern of errors", "why_tests_cant": "errors occur in combinations that tests do not produce", "anchors": ["src/seismic/monitor/monitor.py::Monitor.compute_waveform_coherence_bulk", "src/seismic/monitor/monitor.py::Monitor.compute_waveform_coherence"]}
{"id": "C87", "title": "Filtering and gap handling treat the parts between gaps one by one and keep their times", "statement": "For a stream with gaps, stream_filter applies the filter to each part between two gaps and every filtered sample stays at its time; gap_handler interpolates short gaps, removes exactly the remaining parts that are not longer than the length to be retained, and tapers the others at both of their ends; samples that were missing and are not interpolated stay missing. With the lengths preprocess_stream uses, every part that is retained is long enough for both tapers.", "quantifier": "all masks, sample values, filters that keep the length, lengths of gaps and parts, numbers of traces of a channel that do not overlap, taper lengths", "why_tests_cant": "There are infinitely many arrangements of gaps; the tests use one or two.", "anchors": ["src/seismic/correlate/preprocessing_stream.py::stream_filter", "src/seismic/correlate/preprocessing_stream.py::cos_taper_st", "src/seismic/utils/miic_utils.py::gap_handler", "src/seismic/utils/miic_utils.py::discard_short_traces", "src/seismic/utils/miic_utils.py::interpolate_gaps_st"]}
{"id": "C88", "title": "Detrending and tapering at gaps keep the times of the samples", "statement": "detrend_st and cos_taper with taper_at_masked return each sample at the time it had before.", "quantifier": "all traces with masked samples in any places, in particular at the beginning", "why_tests_cant": "The tests use masks in the middle of a trace.", "anchors": ["src/seismic/correlate/preprocessing_stream.py::detrend_st", "src/seismic/correlate/preprocessing_stream.py::cos_taper"]}
{"id": "C89", "title": "gap_handler interpolates short gaps", "statement": "Every gap of at most max_interpolation_length samples between two samples is filled by gap_handler with values on the line between its neighbours, if the part it then belongs to is retained.", "quantifier": "all gaps, whether they are masked samples of one trace or lie between two traces of a stream", "why_tests_cant": "Whether a gap is found depends on how the data are arranged in traces.", "anchors": ["src/seismic/utils/miic_utils.py::gap_handler", "src/seismic/utils/miic_utils.py::interpolate_gaps_st", "src/seismic/utils/miic_utils.py::interpolate_gaps"]}
{"id": "C90", "title": "Short traces and traces without data are removed, and only these", "statement": "discard_short_traces removes exactly the traces that are not longer than the given length, and get_valid_traces exactly those without any sample, in a stream of any size; the order of the others does not change, although both remove elements from the stream they loop over.", "quantifier": "all streams, also with equal traces in it", "why_tests_cant": "Removal during a loop fails for special orders and duplicates only.", "anchors": ["src/seismic/utils/miic_utils.py::discard_short_traces", "src/seismic/utils/miic_utils.py::get_valid_traces"]}
{"id": "C91", "title": "The windows of a stream hold its samples at their times", "statement": "Cutting a stream into windows yields windows that start every corr_inc from the start of the stream, each with exactly the traces that have a sample in it, padded to corr_len; each sample is in a window if corr_inc is at most corr_len; all processes go through the same number of windows.", "quantifier": "all streams, window lengths and increments, starts, gaps and ends of traces", "why_tests_cant": "Depends on the arrangement of starts and gaps of all traces of a process.", "anchors": ["src/seismic/correlate/correlate.py::generate_corr_inc"]}
{"id": "C92", "title": "The spatial inversion returns the best model", "statement": "For station-pair velocity changes with positive variances and a covariance matrix for the model, compute_dv_grid always returns a grid, and this grid is the only one that minimises the data misfit (each datum weighted with its variance) plus the size of the model measured with its covariance. The resolution reported is what the inversion recovers from the velocity changes that forward_model predicts for a uniform model of one. The posterior covariance is symmetric, positive and never larger than the covariance of the model. Velocity changes without sensitivity to the grid have no influence, and only the ratio of model and data variance matters.", "quantifier": "every number of cells and station pairs, every sensitivity matrix, all data, variances and covariances", "why_tests_cant": "a statement about a minimum over all models, for all matrices", "anchors": ["src/seismic/monitor/spatial.py::DVGrid.compute_dv_grid", "src/seismic/monitor/spatial.py::DVGrid.compute_resolution", "src/seismic/monitor/spatial.py::DVGrid.compute_posterior_covariance", "src/seismic/monitor/spatial.py::DVGrid.forward_model", "src/seismic/monitor/spatial.py::DVGrid._compute_cd"]}
{"id": "C93", "title": "Every grid can be inverted", "statement": "For a grid that extends in both directions, with positive cell size, correlation length, model deviation and scaling, and velocity changes with a coherence between zero and one, compute_dv_grid does not fail: the covariance of the model over the cells is symmetric and positive definite, and the result is the only grid that minimises the weighted misfit plus the size of the model. The posterior covariance exists, is positive and not larger than the covariance of the model.", "quantifier": "every grid, every number of cells and station pairs, all positions, windows, bands and values", "why_tests_cant": "positive definiteness of a covariance over arbitrarily many points of a plane", "anchors": ["src/seismic/monitor/spatial.py::DVGrid.compute_dv_grid", "src/seismic/monitor/spatial.py::DVGrid.compute_posterior_covariance", "src/seismic/monitor/spatial.py::DVGrid._compute_dist_matrix", "src/seismic/monitor/spatial.py::DVGrid._compute_cd", "src/seismic/monitor/spatial.py::compute_cm", "src/seismic/monitor/spatial.py::data_variance", "src/seismic/monitor/spatial.py::DVGrid.__init__"]}
{"id": "C94", "title": "Sensitivity kernels are physical", "statement": "The sensitivity kernel of two stations has one value per cell, none is negative, cells that cannot be reached in the time of the window have none, and exchanging the two stations does not change it.", "quantifier": "every grid, pair of positions and window whose middle is a time of the integration (a multiple of dt for the exchange)", "why_tests_cant": "all geometries and window lengths", "anchors": ["src/seismic/monitor/spatial.py::sensitivity_kernel", "src/seismic/monitor/spatial.py::probability", "src/seismic/monitor/spatial.py::compute_grid_dist", "src/seismic/monitor/spatial.py::DVGrid._compute_sensitivity_kernels"]}
{"id": "C95", "title": "A kernel can be computed for every window and grid", "statement": "For every lapse time window and every regular grid the sensitivity kernels, and with them the inversion, can be computed.", "quantifier": "all windows, time steps, grid sizes and cell sizes", "why_tests_cant": "failures depend on the fraction of a time step and on rounding of the cell size", "anchors": ["src/seismic/monitor/spatial.py::sensitivity_kernel", "src/seismic/monitor/spatial.py::probability", "src/seismic/monitor/spatial.py::DVGrid.__init__", "src/seismic/monitor/spatial.py::DVGrid._compute_sensitivity_kernels"]}
{"id": "C96", "title": "The uncertainty of a velocity change", "statement": "The standard deviation assigned to a velocity change is defined exactly for windows of positive length that do not start before zero, and positive bandwidth and frequency; it is positive for coherences between zero and one, decreases strictly with the coherence, and does not increase if the window or the band is extended.", "quantifier": "all coherences, windows, bands and frequencies", "why_tests_cant": "monotonicity over all real arguments", "anchors": ["src/seismic/monitor/spatial.py::data_variance"]}
{"id": "C97", "title": "Headers survive the file, whatever the version of obspy", "statement": "A header written to a file of correlations and read again is the same header, if its times stand under the four keys starttime, endtime, corr_start and corr_end and have no digits below 100 microseconds. Reading a time never fails and gives the written time rounded down to 100 microseconds, also on the 360th day of a year, where older versions of obspy refuse the text that was written. The version of obspy never makes a difference.", "quantifier": "all headers, all times in the years 1 to 9999, both behaviours of obspy", "why_tests_cant": "the case distinction concerns one day per year and old versions; tests use one version and a few times", "anchors": ["src/seismic/db/corr_hdf5.py::convert_header_to_hdf5", "src/seismic/db/corr_hdf5.py::read_hdf5_header"]}
{"id": "C98", "title": "What becomes of every entry of a header", "statement": "Every entry of a header comes back from the file as it was. The code does this except in three cases: times under other keys come back as texts, digits of times below 100 microseconds are cut off, and entries that the file format cannot store are dropped with a warning.", "quantifier": "all headers", "why_tests_cant": "tests write headers with a fixed set of keys", "anchors": ["src/seismic/db/corr_hdf5.py::convert_header_to_hdf5", "src/seismic/db/corr_hdf5.py::read_hdf5_header"]}
{"id": "C99", "title": "Results of a grid do not depend on what was computed before", "statement": "Whatever was computed before with the same grid for the spatial inversion - inversions, resolutions, covariances, forward models, with any velocity changes and windows, successful or not - a call returns what it returns on a new grid, although the grid keeps kernels and distances. The model the grid keeps is that of the last inversion that succeeded; every station that was used is known once, and no other.", "quantifier": "all grids, all histories of calls, all arguments", "why_tests_cant": "kept results only go wrong for particular sequences of calls", "anchors": ["src/seismic/monitor/spatial.py::DVGrid.compute_dv_grid", "src/seismic/monitor/spatial.py::DVGrid.compute_resolution", "src/seismic/monitor/spatial.py::DVGrid.compute_posterior_covariance", "src/seismic/monitor/spatial.py::DVGrid.forward_model", "src/seismic/monitor/spatial.py::DVGrid._compute_sensitivity_kernels", "src/seismic/monitor/spatial.py::DVGrid._compute_dist_matrix", "src/seismic/monitor/spatial.py::DVGrid._add_stations"]}
{"id": "C100", "title": "The order of the velocity changes does not matter, nor do those without a value", "statement": "Inversion, resolution and posterior covariance are the same in whatever order the velocity changes are given, if these were measured in the same window and frequencies or if window and frequencies are given. A velocity change that does not cover the time, has no value there or a coherence outside the allowed range changes nothing.", "quantifier": "all grids, all lists of velocity changes and their permutations, all times", "why_tests_cant": "tests compare one order of a few mocked velocity changes", "anchors": ["src/seismic/monitor/spatial.py::DVGrid._extract_info_dvs", "src/seismic/monitor/spatial.py::DVGrid.compute_dv_grid", "src/seismic/monitor/spatial.py::DVGrid.compute_resolution", "src/seismic/monitor/spatial.py::DVGrid.compute_posterior_covariance"]}
{"id": "C101", "title": "Every velocity change is inverted with the window it was measured in", "statement": "The kernel and the variance of every velocity change are computed for the lapse time window and the frequencies in which it was measured. The code uses the settings of the last usable velocity change for all of them, so that the order decides about the result, and about whether there is one.", "quantifier": "all lists of velocity changes with different settings", "why_tests_cant": "tests use velocity changes with the same settings", "anchors": ["src/seismic/monitor/spatial.py::DVGrid._extract_info_dvs"]}
{"id": "C102", "title": "A monitoring run computes every combination once, whatever happens to the others", "statement": "compute_velocity_change_bulk works on exactly the channel combinations stored in the selected correlation files, each of them once. Afterwards each combination that could be measured has its own result file, a combination that failed has left its file as it was and is logged once, and no other file is touched. The results do not depend on the number of processes or on how fast each of them is; a run stopped between two combinations leaves only old or complete results, and running again completes it.", "quantifier": "all contents of the correlation files, all outcomes of the single measurements including errors while measuring or plotting, all numbers of processes, all interleavings, all points at which the run is stopped", "why_tests_cant": "the interleavings of processes and the points of interruption are not enumerated by tests, which run one process", "anchors": ["src/seismic/monitor/monitor.py::Monitor.compute_velocity_change_bulk", "src/seismic/monitor/monitor.py::Monitor.compute_velocity_change", "src/seismic/monitor/monitor.py::corr_find_filter"]}
{"id": "C103", "title": "Copies and damaged files in the directory of correlations", "statement": "Result files are determined by the content of the directory of correlations, also if it holds several files for one combination, and a file that cannot be read affects only its own combinations.", "quantifier": "all directory contents, all schedules", "why_tests_cant": "needs copies of files and races between processes", "anchors": ["src/seismic/monitor/monitor.py::Monitor.compute_velocity_change_bulk", "src/seismic/monitor/monitor.py::corr_find_filter"]}
{"id": "C104", "title": "The velocity change reported for a date is the stretch with which the reference resembles its correlation most", "statement": "compute_velocity_change measures every trace twice within the configured lapse time window: with a reference from all traces, and, after correcting the traces for the stretch found, with a reference from the corrected traces. Each measurement reports, per date, the largest correlation between the trace and the reference stretched about lag zero, over the window on the requested side(s), and the stretch at which it occurs. A trace that is the reference stretched by one of the tested values is found with similarity 1 and exactly this value, unless another tested value fits as well; equal traces give 0 for all dates. The window is delayed by the travel time between the stations, rounded to seconds, if that is wanted, accepted exactly if it ends within the saved lags, and refused if it ends before the tenth sample.", "quantifier": "all matrices with a two-sided axis, all waveforms the interpolation reproduces, all windows on the samples, all ranges and numbers of tested stretches, sides both, left and right", "why_tests_cant": "tests compare one synthetic stretch; the property is about every waveform, window and tested value", "anchors": ["src/seismic/monitor/monitor.py::Monitor.compute_velocity_change", "src/seismic/correlate/stream.py::CorrBulk.stretch", "src/seismic/correlate/stream.py::CorrBulk.correct_stretch", "src/seismic/monitor/stretch_mod.py::time_stretch_estimate", "src/seismic/monitor/stretch_mod.py::velocity_change_estimate", "src/seismic/monitor/post_corr_process.py::corr_mat_stretch"]}
{"id": "C105", "title": "Every documented option of the velocity change works", "statement": "A window without length means the whole coda, a window that is too long is answered with a ValueError that explains it, sides 'single' measures the causal side of the correlations, and a matrix with a single date can be measured.", "quantifier": "all configurations and matrices", "why_tests_cant": "needs configurations the tests do not use; the error for one-sided measurements is silent", "anchors": ["src/seismic/monitor/monitor.py::Monitor.compute_velocity_change", "src/seismic/monitor/post_corr_process.py::corr_mat_stretch", "src/seismic/monitor/stretch_mod.py::time_stretch_estimate"]}
{"id": "C106", "title": "Several references cover the whole time, each made from exactly the correlations of its window", "statement": "extract_multi_trace returns one reference per increment. The windows follow each other from the start of the first correlation on, each extended by half an increment on both sides, and each reference is extracted from exactly the correlations that touch its window; a window without correlations gives a trace without samples. With a constant increment there are as many windows as it takes to reach the last correlation, so that every correlation takes part in a reference; an increment that spans everything gives the reference of the whole matrix. The order in which the correlations are stored does not matter for the mean, and increments that are not positive are refused.", "quantifier": "all matrices with at least two rows, all times, all increments of whole days, all permutations of the rows", "why_tests_cant": "the number of windows, their borders and the order of the rows vary without bound", "anchors": ["src/seismic/correlate/stream.py::CorrBulk.extract_multi_trace", "src/seismic/correlate/stream.py::CorrBulk._find_slice_index", "src/seismic/monitor/post_corr_process.py::corr_mat_extract_trace"]}
{"id": "C107", "title": "Increments of reference windows can be given as a list or as an array", "statement": "A numpy array of increments gives the same references as the list with the same numbers, and the increment 0 stands for one reference for the whole time wherever it is given.", "quantifier": "all arrays and lists", "why_tests_cant": "tests use lists", "anchors": ["src/seismic/correlate/stream.py::CorrBulk.extract_multi_trace"]}
{"id": "C108", "title": "Reading from a directory tree returns exactly the stored samples", "statement": "read_from_filesystem with a structure whose last time indicator is an hour, half day, day, week or month returns every sample of the requested time that is stored in its place in the tree, however many files and gaps the time spans, and nothing else: at most one trace whose values are the stored ones, within the request up to half a sampling interval. For hours to weeks the search ends without an error. A single string stands for an SDS archive, whose files are found by their standard names, another one for each day.", "quantifier": "all structures with one name per period, all archives whose files hold the samples of their period in order, all requests, all channel codes, any treatment of overlaps", "why_tests_cant": "requests span any number of files; years, gaps and file borders vary", "anchors": ["src/seismic/trace_data/waveform.py::read_from_filesystem", "src/seismic/trace_data/waveform.py::_read_filepattern", "src/seismic/trace_data/waveform.py::_current_filepattern", "src/seismic/trace_data/waveform.py::_fs_translate", "src/seismic/trace_data/waveform.py::_adjacent_filepattern"]}
{"id": "C109", "title": "Reading from a directory tree works for every documented structure and includes the ends of the request", "statement": "Samples at the ends of the request are returned, requests across several yearly or monthly files work, structures with minutes work, and a pair of braces replaces part of a code.", "quantifier": "all structures and requests", "why_tests_cant": "the failures depend on the date, on file borders and on the structure", "anchors": ["src/seismic/trace_data/waveform.py::read_from_filesystem", "src/seismic/trace_data/waveform.py::_read_filepattern", "src/seismic/trace_data/waveform.py::_fs_translate", "src/seismic/trace_data/waveform.py::_adjacent_filepattern"]}
{"id": "C110", "title": "The waveform archive keeps what it has and is read back completely", "statement": "Whatever is requested with get_waveforms and downloaded in bulk, in whatever order and whichever of the requests fail, a sample that is in the local archive stays there with its value, only samples sent by the server are added, and every sample is stored in the file of its day (the midnight that ends a day may be in its file). Reading a time window from the archive therefore finds every archived sample of the window and, up to half a sample at the ends, no other. A request for which the server has sent data without gap is answered from the archive from then on, with these data and without the server.", "quantifier": "all histories of requests (read-only or not, with any answers of the server) and of bulk downloads that begin at midnight, all samplings up to one sample per day, all windows", "why_tests_cant": "the archive depends on the whole history, on day borders and on failed writes", "anchors": ["src/seismic/trace_data/waveform.py::Store_Client.get_waveforms", "src/seismic/trace_data/waveform.py::Store_Client._load_local", "src/seismic/trace_data/waveform.py::Store_Client._load_remote", "src/seismic/trace_data/waveform.py::Store_Client._write_local_data", "src/seismic/trace_data/waveform.py::Store_Client._sds_write", "src/seismic/trace_data/waveform.py::Store_Client.download_waveforms_mdl", "src/seismic/trace_data/waveform.py::Store_Client._get_mseed_storage"]}
{"id": "C111", "title": "A request returns the data the server has sent", "statement": "get_waveforms returns the data that the server sends, stored in the archive or not.", "quantifier": "all answers of the server, all states of the archive", "why_tests_cant": "tests mock the client or the archive; the failure needs gaps in the data of a server", "anchors": ["src/seismic/trace_data/waveform.py::Store_Client.get_waveforms", "src/seismic/trace_data/waveform.py::Store_Client._load_remote", "src/seismic/trace_data/waveform.py::Store_Client._write_local_data", "src/seismic/trace_data/waveform.py::Store_Client._sds_write"]}
{"id": "C112", "title": "A bulk download fills the days that are missing", "statement": "download_waveforms_mdl from a midnight on stores every sample the server has in the requested time on each day for which there is no file yet, and changes no existing file.", "quantifier": "all archives, all data of the server, all time spans that begin at midnight", "why_tests_cant": "which days exist and where data have gaps varies without bound; the download needs a server", "anchors": ["src/seismic/trace_data/waveform.py::Store_Client.download_waveforms_mdl", "src/seismic/trace_data/waveform.py::Store_Client._get_mseed_storage"]}
{"id": "C113", "title": "After a bulk download all data of the time span are in the archive and can be read", "statement": "After download_waveforms_mdl every sample of the server in the requested time is in the local archive and is returned by a request for its time.", "quantifier": "all archives, all data of the server, all time spans", "why_tests_cant": "needs a download that does not begin at midnight or days that are partly in the archive", "anchors": ["src/seismic/trace_data/waveform.py::Store_Client.download_waveforms_mdl", "src/seismic/trace_data/waveform.py::Store_Client._get_mseed_storage", "src/seismic/trace_data/waveform.py::Store_Client._load_local"]}
{"id": "C114", "title": "Clipping replaces every sample by the nearest allowed value", "statement": "For a non-negative threshold, CorrBulk.clip replaces every sample by the value nearest to it whose magnitude is at most the threshold times the standard deviation of its trace (axis=1), of its lag (axis=0) or of the whole matrix (axis=None), if that part of the matrix has no missing samples. Samples within the bound are unchanged, the others become the bound with their sign; the shape is kept.", "quantifier": "all matrices, thresholds and the three axes", "why_tests_cant": "the bound depends on all samples of a row, a column or the matrix; tests look at a few matrices", "anchors": ["src/seismic/monitor/post_corr_process.py::corr_mat_clip", "src/seismic/correlate/stream.py::CorrBulk.clip"]}
{"id": "C115", "title": "Clipping touches few samples", "statement": "Clipping at k standard deviations changes at most the fraction 1/k^2 of the samples of a trace, whatever the trace is.", "quantifier": "all traces and thresholds", "why_tests_cant": "the statement is about all distributions of samples, and the bound is reached only by special ones", "anchors": ["src/seismic/monitor/post_corr_process.py::corr_mat_clip", "src/seismic/correlate/stream.py::CorrBulk.clip"]}
{"id": "C116", "title": "Gaps do not spread when clipping", "statement": "Missing samples stay missing when a matrix is clipped and do not influence which values the existing samples get; in particular existing samples remain.", "quantifier": "all matrices with missing samples, all axes", "why_tests_cant": "tests of clipping use matrices without gaps", "anchors": ["src/seismic/monitor/post_corr_process.py::corr_mat_clip", "src/seismic/correlate/stream.py::CorrBulk.clip"]}
{"id": "C117", "title": "Tapering both ends of the traces", "statement": "CorrBulk.taper(width) is accepted exactly for 0 <= width <= half of the duration npts/sampling_rate and raises ValueError otherwise. Every trace is multiplied with the same weights between 0 and 1, symmetric and not decreasing towards the middle; samples at least width seconds away from the first and the last sample are unchanged, and if width is at least half a sample the first and the last sample become zero.", "quantifier": "all matrices with at least three lags, sampling rates and widths", "why_tests_cant": "the rounding of the width to samples has special cases (one sample, half of the trace) that depend on all three numbers", "anchors": ["src/seismic/monitor/post_corr_process.py::corr_mat_taper", "src/seismic/correlate/stream.py::CorrBulk.taper"]}
{"id": "C118", "title": "Envelopes", "statement": "CorrBulk.envelope keeps the shape and treats every trace separately: the envelope is nowhere smaller than the magnitude of the trace, it scales with the magnitude of a factor, and for every harmonic with a whole number of periods (fewer than half the number of samples) it is the amplitude at every sample, for every phase and even and odd lengths. A trace with a missing sample has no envelope and does not influence others.", "quantifier": "all traces, lengths, frequencies, phases and factors", "why_tests_cant": "tests compute single envelopes and compare with tolerance", "anchors": ["src/seismic/monitor/post_corr_process.py::corr_mat_envelope", "src/seismic/correlate/stream.py::CorrBulk.envelope"]}
{"id": "C119", "title": "The decay of the amplitude with the lag is removed", "statement": "If the lag axis has a sample at zero and reaches to positive lags, CorrBulk.correct_decay divides every trace by one and the same function a*exp(K*|lag|), a > 0, that fits the logarithm of the envelope averaged over both sides and all complete traces best in the least squares sense. If the envelopes of the complete traces are a_r*exp(K*|lag|), exactly this decay with the mean of the a_r is divided out, so that the relative amplitudes of the traces are kept; traces with gaps do not influence the fit.", "quantifier": "all matrices with positive average envelope, all amplitudes, decay rates, numbers of lags on both sides", "why_tests_cant": "the fit involves all samples; tests use one decay and a tolerance", "anchors": ["src/seismic/monitor/post_corr_process.py::corr_mat_correct_decay", "src/seismic/monitor/post_corr_process.py::corr_mat_envelope", "src/seismic/monitor/post_corr_process.py::corr_mat_mirror", "src/seismic/correlate/stream.py::CorrBulk.correct_decay"]}
{"id": "C120", "title": "The decay is removed from one-sided correlations as well", "statement": "correct_decay removes an exponential decay a*exp(K*|lag|) also if all lags have the same sign or no sample is at lag zero.", "quantifier": "all matrices with lags of one sign or without a sample at zero", "why_tests_cant": "tests only use symmetric lag axes", "anchors": ["src/seismic/monitor/post_corr_process.py::corr_mat_correct_decay", "src/seismic/monitor/post_corr_process.py::corr_mat_mirror", "src/seismic/correlate/stream.py::CorrBulk.correct_decay"]}
{"id": "C121", "title": "Station metadata stay known to a client that is in use", "statement": "Whatever is requested from a waveform client, metadata it knows are not forgotten; after a request that attaches responses the responses of all its channels are known; a station is asked for only once.", "quantifier": "all histories of requests and all answers of the server", "why_tests_cant": "needs all orders of requests", "anchors": ["src/seismic/trace_data/waveform.py::Store_Client._write_inventory", "src/seismic/trace_data/waveform.py::Store_Client.select_inventory_or_load_remote", "src/seismic/trace_data/waveform.py::Store_Client._load_remote"]}
{"id": "C122", "title": "Station metadata in the archive are never lost", "statement": "Metadata of a channel that were stored in the archive stay there whatever is requested later (\"like this no old information can be deleted\"), so that later clients find them.", "quantifier": "all histories of requests, new clients and re-reading", "why_tests_cant": "needs several requests for one station and a new client", "anchors": ["src/seismic/trace_data/waveform.py::Store_Client._write_inventory", "src/seismic/trace_data/waveform.py::Store_Client.read_inventory", "src/seismic/trace_data/waveform.py::Store_Client._load_remote"]}
{"id": "C123", "title": "A read-only client does not change the metadata of the archive", "statement": "A client opened with read_only=True leaves the files of the archive as they are.", "quantifier": "all archives and requests", "why_tests_cant": "tests do not combine a read-only client with missing metadata", "anchors": ["src/seismic/trace_data/waveform.py::Store_Client.__init__", "src/seismic/trace_data/waveform.py::Store_Client._load_remote", "src/seismic/trace_data/waveform.py::Store_Client._write_inventory"]}
{"id": "C124", "title": "Data that the server has sent are returned whatever its metadata", "statement": "get_waveforms returns the data the server sends also if there are no responses for them, in particular if responses are not to be attached, and for read-only clients.", "quantifier": "all clients, answers and requests", "why_tests_cant": "needs a server with data but without metadata", "anchors": ["src/seismic/trace_data/waveform.py::Store_Client._load_remote", "src/seismic/trace_data/waveform.py::Store_Client._write_inventory"]}
{"id": "C125", "title": "The search by distance lists exactly the pairs of close stations", "statement": "find_interstat_dist selects exactly the combinations of available stations that are not further apart than the limit, asks the server for the coordinates of stations that are not in the archive, and refuses other combination methods and a selection made before.", "quantifier": "all sets of stations, coordinates, limits and contents of the archive", "why_tests_cant": "needs all sets of stations and orders of downloads", "anchors": ["src/seismic/correlate/correlate.py::Correlator.find_interstat_dist", "src/seismic/utils/miic_utils.py::filter_stat_dist", "src/seismic/utils/miic_utils.py::inv_calc_az_baz_dist", "src/seismic/trace_data/waveform.py::Store_Client.select_inventory_or_load_remote"]}
{"id": "C126", "title": "After the search by distance exactly the close pairs are correlated", "statement": "After find_interstat_dist(d), two traces of different stations are correlated if and only if the stations are not further apart than d.", "quantifier": "all sets of stations, coordinates, limits and streams", "why_tests_cant": "needs station codes that begin alike", "anchors": ["src/seismic/correlate/correlate.py::Correlator.find_interstat_dist", "src/seismic/correlate/correlate.py::is_in_xcombis", "src/seismic/correlate/correlate.py::calc_cross_combis"]}
{"id": "C127", "title": "The search by distance downloads what is missing", "statement": "If no station inventories are available, find_interstat_dist downloads them.", "quantifier": "all archives and servers", "why_tests_cant": "needs an archive without metadata", "anchors": ["src/seismic/correlate/correlate.py::Correlator.find_interstat_dist", "src/seismic/trace_data/waveform.py::Store_Client.read_inventory", "src/seismic/trace_data/waveform.py::Store_Client.select_inventory_or_load_remote"]}
{"id": "C128", "title": "Correlation windows hold the preprocessed samples of their time, whatever the number of processes", "statement": "With preprocess_subdiv False and if no channel fails to be resampled or preprocessed, the k-th window handed to the correlation holds, for exactly those channels that have data in it, the preprocessed samples at the times from winstart to winstart+corr_len (and no other sample), in the order of the channels. The same windows are obtained on every process for every number of processes.", "quantifier": "all archives with gaps, all read and correlation lengths and increments, all preprocessing functions, all numbers of processes", "why_tests_cant": "Unit tests run one process on one complete day; the statement ranges over all gap patterns and distributions of channels over processes.", "anchors": ["src/seismic/correlate/correlate.py::Correlator._generate_data", "src/seismic/correlate/correlate.py::generate_corr_inc", "src/seismic/correlate/correlate.py::preprocess_stream"]}
{"id": "C129", "title": "Windows start every corr_inc from read_start to read_end, once each", "statement": "The start times of the correlated windows are read_start + j*corr_inc, each exactly once, none at or after read_end.", "quantifier": "all read_start, read_end, read_inc, read_len, corr_len, corr_inc", "why_tests_cant": "Depends on divisibility of several lengths, which tests fix.", "anchors": ["src/seismic/correlate/correlate.py::Correlator._generate_data", "src/seismic/correlate/correlate.py::generate_corr_inc"]}
{"id": "C130", "title": "A correlation window is complete", "statement": "If the archive has a sample of a channel at a time within a correlation window, the window holds it (no preprocessing functions requested).", "quantifier": "all archives, read and correlation lengths, windows, channels, times", "why_tests_cant": "A quantification over all windows and samples; tests look at windows in the middle of a read.", "anchors": ["src/seismic/correlate/correlate.py::Correlator._generate_data", "src/seismic/correlate/correlate.py::generate_corr_inc"]}
{"id": "C131", "title": "A channel that cannot be preprocessed does not affect the others", "statement": "If resampling or preprocessing of one channel fails for a read, this is logged and the remaining channels are correlated as if that channel had no data.", "quantifier": "all archives, failing channels, numbers of processes, reads", "why_tests_cant": "Needs failures on some processes and not on others.", "anchors": ["src/seismic/correlate/correlate.py::Correlator._generate_data", "src/seismic/correlate/correlate.py::preprocess_stream"]}
{"id": "C132", "title": "Preprocessing window by window uses the data of the same times", "statement": "With preprocess_subdiv True each window holds the data of its time, preprocessed on their own; which times are correlated does not depend on the option nor on the number of processes.", "quantifier": "all archives, lengths, preprocessing functions, numbers of processes", "why_tests_cant": "Only shows for data that start or end inside of a read, on reruns.", "anchors": ["src/seismic/correlate/correlate.py::Correlator._generate_data", "src/seismic/correlate/correlate.py::generate_corr_inc"]}
{"id": "C133", "title": "Masked samples do not enter the correlations", "statement": "Samples that are masked, because they are missing or because the user masked their time intervals with stream_mask_at_utc, do not contribute to the correlations: they count as zero.", "quantifier": "all traces, masks, window lengths", "why_tests_cant": "A test would have to compare correlations with and without a masked interval in the middle of a window; the existing tests check the mask but not the correlation.", "anchors": ["src/seismic/correlate/correlate.py::st_to_np_array", "src/seismic/correlate/correlate.py::Correlator._pxcorr_inner", "src/seismic/correlate/correlate.py::Correlator._pxcorr_matrix", "src/seismic/correlate/preprocessing_stream.py::trace_mask_at_utc"]}
{"id": "C134", "title": "A correlation of a run is the lagged sum of the two channels' samples in its window", "statement": "Without domain processing and normalisation, sample i of the correlation that a run computes for two channels and a window is the sum of the products of the samples of the first channel in that window with the samples of the second channel that are i minus lengthToSave samples later, missing samples counting as zero, for every number of processes.", "quantifier": "all archives, reading schedules, preprocessing functions per channel, windows, pairs, numbers of processes", "why_tests_cant": "It combines reading, cutting, distribution over processes, Fourier transforms and cutting of lags; tests exercise each step on a few literals.", "anchors": ["src/seismic/correlate/correlate.py::Correlator.pxcorr", "src/seismic/correlate/correlate.py::Correlator._generate_data", "src/seismic/correlate/correlate.py::Correlator._pxcorr_inner", "src/seismic/correlate/correlate.py::Correlator._pxcorr_matrix", "src/seismic/correlate/correlate.py::generate_corr_inc"]}
{"id": "C135", "title": "A spectrogram has one spectrum per window from start to end, however the data are read", "statement": "compute_spectrogram returns the spectra of the consecutive windows of win_len between starttime and endtime, each computed from the data of its own window; read_increment only decides how much is read at once and an increment shorter than the window is refused.", "quantifier": "all requested times, window lengths, read increments, data spans and spectra", "why_tests_cant": "tests use one read increment and data without late start; the property compares all increments", "anchors": ["src/seismic/trace_data/waveform.py::Store_Client.compute_spectrogram", "src/seismic/trace_data/waveform.py::Store_Client._generate_time_windows", "src/seismic/utils/raw_analysis.py::spct_series_welch"]}
{"id": "C136", "title": "Measuring clock shifts does not change the correlations", "statement": "CorrBulk.find_clock_shift compares all traces with the reference within the requested side of the lag axis, cuts references and traces alike, and leaves the correlations and their header as they were.", "quantifier": "all matrices, lag axes, references and sides", "why_tests_cant": "tests measure shifts of symmetric matrices and do not look at the object afterwards", "anchors": ["src/seismic/correlate/stream.py::CorrBulk.find_clock_shift", "src/seismic/monitor/post_corr_process.py::corr_mat_shift", "src/seismic/monitor/trim.py::corr_mat_trim"]}
{"id": "C137", "title": "Vertical channels of reversed polarity are flipped before they are correlated", "statement": "Preprocessing changes the sign of all samples of exactly those traces that are vertical components and whose metadata say that the sensor points downwards (dip above zero); all other traces stay as they are.", "quantifier": "all streams, channel codes and metadata, in all orders", "why_tests_cant": "tests have one vertical trace with complete metadata", "anchors": ["src/seismic/utils/miic_utils.py::correct_polarity", "src/seismic/correlate/correlate.py::preprocess_stream"]}
{"id": "C138", "title": "The preprocessing functions of the parameter file are applied one after the other", "statement": "Each function listed under preProcessing is the attribute of the module that its path names; all of them are applied to the stream in the order of the list, each to the result of the previous one. The first that cannot be imported or fails ends the preprocessing with its exception and no later one is run.", "quantifier": "all lists of functions, paths, packages and streams", "why_tests_cant": "users supply their own functions and modules; tests mock two of them", "anchors": ["src/seismic/correlate/correlate.py::preprocess_stream", "src/seismic/utils/fetch_func_from_str.py::func_from_str"]}
{"id": "C139", "title": "Spectra are filtered as the four corner frequencies say", "statement": "FDfilter multiplies all spectra with the same weights between 0 and 1, so that phases stay: one for frequencies from f2 to f3, zero up to f1 and from f4 on, rising from f1 to f2 and falling from f3 to f4.", "quantifier": "all lengths and sampling rates, all corner frequencies, all spectra", "why_tests_cant": "the corners fall between the frequencies of the spectrum in all possible ways; tests use one case", "anchors": ["src/seismic/correlate/preprocessing_fd.py::FDfilter"]}
{"id": "C140", "title": "The inversion by truncated singular values returns the smallest best fitting model", "statement": "compute_dv_tsvd returns, for the kernels without their singular values up to the given fraction of the largest, the model with the least misfit to the velocity changes and among those the smallest one. It does not depend on which singular value decomposition is found, is linear in the data, fits data of a model exactly if no singular value was removed, and is kept in the grid; errors leave the grid's model as it was.", "quantifier": "all kernels, data, fractions and singular value decompositions, all states of the grid", "why_tests_cant": "optimality among all models; tests compare one small grid", "anchors": ["src/seismic/monitor/spatial.py::DVGrid.compute_dv_tsvd"]}
{"id": "C141", "title": "A run stores the correlations of all wanted pairs of channels, and nothing else", "statement": "After a run into an empty directory every pair of channels that the combination method (and, with betweenStations, the list of requested combinations, if there is one) asks for and that both have data in a window is found, under its codes and the times of the window, in the file named after the pair. The stored samples are the sums of the products of the two channels' preprocessed data for the lags from minus to plus lengthToSave. No other correlations are found in any file. The files are the same for every number of processes and no matter how often they are written. This is for reads that follow each other without a break in the grid of windows, without recombination and normalisation, for lengthToSave a whole number of samples and an even padded length, and for archives with one location per channel and with network codes and station codes of equal lengths.", "quantifier": "all archives, time windows, combination methods, numbers of processes, write schedules", "why_tests_cant": "reading, preprocessing, cutting, pairing, correlating, naming and writing are distributed over processes; tests mock all but one of these steps", "anchors": ["src/seismic/correlate/correlate.py::Correlator.pxcorr", "src/seismic/correlate/correlate.py::Correlator._generate_data", "src/seismic/correlate/correlate.py::Correlator._pxcorr_inner", "src/seismic/correlate/correlate.py::Correlator._write", "src/seismic/correlate/correlate.py::calc_cross_combis", "src/seismic/db/corr_hdf5.py::DBHandler.add_correlation", "src/seismic/db/corr_hdf5.py::DBHandler.get_data"]}
{"id": "C142", "title": "Every location of a channel is stored", "statement": "The correlations of all locations of a channel that are in the archive are found in the database.", "quantifier": "all archives", "why_tests_cant": "tests use one location per channel", "anchors": ["src/seismic/correlate/correlate.py::Correlator._generate_data", "src/seismic/db/corr_hdf5.py::DBHandler.add_correlation", "src/seismic/db/corr_hdf5.py::DBHandler.get_data"]}
{"id": "C143", "title": "Runs that are stopped and started again end with the same correlations as one run", "statement": "However often runs into one directory are stopped at any point of the writing and started again with the same parameters, with any numbers of processes: the next run does not fail, and when a run ends without being stopped, the directory holds exactly the correlations that one run into an empty directory stores, and one more run changes no file and, unless it was asked for combinations in a form that C10 excludes, computes nothing. (Conditions as in C141, and preprocess_subdiv False; a stop inside a single HDF5 operation is not considered.)", "quantifier": "all archives, time windows, combination methods, numbers of processes, write schedules, numbers of interruptions and points of interruption", "why_tests_cant": "needs all points of interruption and all sequences of runs; the crash point between creating a file and its first correlation is a few milliseconds long", "anchors": ["src/seismic/correlate/correlate.py::Correlator.find_existing_times", "src/seismic/correlate/correlate.py::Correlator._generate_data", "src/seismic/correlate/correlate.py::Correlator._write", "src/seismic/correlate/correlate.py::calc_cross_combis", "src/seismic/db/corr_hdf5.py::CorrelationDataBase", "src/seismic/db/corr_hdf5.py::DBHandler.get_available_starttimes"]}
{"id": "C144", "title": "Preprocessing window by window does not depend on what is in the directory", "statement": "With preprocess_subdiv True each window is preprocessed on its own, in the first run as well as in later ones, so that the stored correlation of a window does not depend on whether the run that computed it was the first one.", "quantifier": "all archives, preprocessing functions, interruptions", "why_tests_cant": "the option is switched off silently when the directory holds no correlations; shows only in the data of a run that was started twice", "anchors": ["src/seismic/correlate/correlate.py::Correlator._generate_data", "src/seismic/correlate/correlate.py::Correlator.find_existing_times"]}
{"id": "C145", "title": "The monitoring finds what a run has correlated, with one row per window in the order of time", "statement": "After a run, also after one that was stopped and started again any number of times, the list of combinations that the monitoring works through, with '*' for networks and stations, holds each pair of channels that was correlated in some window exactly once, and nothing else. The matrix that it reads for a pair has one row for each window in which both channels had data, in the order of time and without repetitions, with the start and end times of these windows up to 0.1 ms, the sampling rate, the lag of the first sample, and as rows the correlations of the windows. This is under the conditions of C141 and C143.", "quantifier": "all archives, time windows, combination methods, numbers of processes, interruptions", "why_tests_cant": "file names, paths in the files and the order of the groups in a file carry the combination and the time from one program to the other; tests mock the file system on both sides", "anchors": ["src/seismic/monitor/monitor.py::Monitor.compute_velocity_change", "src/seismic/monitor/monitor.py::Monitor.compute_velocity_change_bulk", "src/seismic/monitor/monitor.py::corr_find_filter", "src/seismic/db/corr_hdf5.py::DBHandler.get_data", "src/seismic/correlate/stream.py::CorrStream.create_corr_bulk", "src/seismic/correlate/correlate.py::Correlator.pxcorr"]}
{"id": "C146", "title": "From the archive to the velocity changes", "statement": "After a run, also one that was stopped and started again, and the monitoring of its correlations by any number of processes in any order of progress, every pair of channels that was correlated has a result file. For each date it holds the similarity and the stretch of the two-pass measurement of C104 on the matrix whose row for a date is the filtered average of the correlations, each divided by its largest amplitude, of the preprocessed data of the windows that start in the date, and that has no values for dates without such windows. If the measurement fails for a pair, its file stays as it was; no other file is touched. In particular, if the correlations of two channels are the same in all windows (and are neither silent in the lapse time window nor like themselves stretched by another value of the search grid), the result is a velocity change of zero with similarity one for the dates with windows and no value for the others. This is under the conditions of C141 and C143, without functions for pre- and postprocessing of the matrix, for lapse time windows on the samples that end within the saved lags, without travel times.", "quantifier": "all archives, time windows, combination methods, numbers of processes, interruptions, dates, filters, numbers of stretches and references", "why_tests_cant": "the result rests on all parts of two programs that share only files; tests mock the files on both sides and use noise", "anchors": ["src/seismic/monitor/monitor.py::Monitor.compute_velocity_change", "src/seismic/monitor/monitor.py::Monitor.compute_velocity_change_bulk", "src/seismic/correlate/stream.py::CorrBulk.resample", "src/seismic/correlate/stream.py::CorrBulk.normalize", "src/seismic/correlate/stream.py::CorrBulk.filter", "src/seismic/correlate/stream.py::CorrBulk.stretch", "src/seismic/correlate/stream.py::CorrBulk.correct_stretch", "src/seismic/correlate/correlate.py::Correlator.pxcorr", "src/seismic/db/corr_hdf5.py::DBHandler.get_data"]}
{"id": "C147", "title": "The stacks that are stored with the correlations", "statement": "With recombine_subdivision, for every pair of channels and every read_len, the average of the correlations of the pair in it, weighted with their lengths and scaled to the amplitude 1, is stored once with the period that they span; the correlations are stored as well unless delete_subdivision is set; and nothing else is found in the files. This does not depend on when the files are written, nor on where a run is stopped.", "quantifier": "all archives, options, combination methods, numbers of processes, times of writing and points at which a run is stopped", "why_tests_cant": "the stacks depend on how the correlations arrive in batches, which depends on the memory and the number of processes; a test runs one schedule and looks at one file", "anchors": ["src/seismic/correlate/correlate.py::_write", "src/seismic/correlate/correlate.py::pxcorr", "src/seismic/correlate/stream.py::stack", "src/seismic/db/corr_hdf5.py::add_correlation"]}
{"id": "C148", "title": "Runs with stacks can be continued", "statement": "A run with recombine_subdivision, with or without delete_subdivision, that was stopped can be started again with the same options: it computes the correlations that are missing, stores their stacks and keeps what was stored.", "quantifier": "all archives, options, numbers of processes and sequences of runs that are stopped between two batches", "why_tests_cant": "whether a run starts depends on the groups that earlier runs left in the files; tests start with an empty directory", "anchors": ["src/seismic/correlate/correlate.py::_write", "src/seismic/correlate/correlate.py::find_existing_times", "src/seismic/db/corr_hdf5.py::get_available_starttimes"]}
{"id": "C149", "title": "A matrix of correlations that is saved is read again as it was", "statement": "read_corr_bulk gives, for a file that CorrBulk.save wrote, a matrix with the same correlations, the same header and the same notes on its processing, which can be processed further as the one that was saved.", "quantifier": "all matrices and headers", "why_tests_cant": "tests mock the file or compare the data only; headers differ with the number of correlations and with the history of the matrix", "anchors": ["src/seismic/correlate/stream.py::CorrBulk.save", "src/seismic/correlate/stream.py::read_corr_bulk", "src/seismic/correlate/stream.py::CorrBulk.__init__", "src/seismic/utils/miic_utils.py::save_header_to_np_array", "src/seismic/utils/miic_utils.py::load_header_from_np_array"]}
{"id": "C150", "title": "The options of the detrending", "statement": "detrend removes from every trace of the matrix its linear trend, or its mean with the type 'constant', by either of the methods 'qr' (the default) and 'scipy'; missing samples stay missing and the others are treated as if they were the trace; other methods and types raise ValueError.", "quantifier": "all matrices, positions of missing samples and options", "why_tests_cant": "the tests mock the functions that detrend calls, so that what is handed on to scipy is never looked at", "anchors": ["src/seismic/correlate/preprocessing_td.py::detrend", "src/seismic/correlate/preprocessing_td.py::detrend_scipy", "src/seismic/correlate/preprocessing_td.py::detrendqr", "src/seismic/correlate/preprocessing_td.py::demean"]}
{"id": "C151", "title": "Starting on several processes succeeds or fails on all of them", "statement": "When a Correlator is made by several processes, all of them end up with the same list of stations and channels, the one that a single process finds; if it cannot be made, every process raises an exception and none waits for another.", "quantifier": "all archives, settings of networks and stations, numbers of processes and failures of the steps that only the first process does", "why_tests_cant": "tests run on one process; failures of the first process alone show as a hanging job", "anchors": ["src/seismic/correlate/correlate.py::Correlator.__init__", "src/seismic/trace_data/waveform.py::Store_Client.get_available_stations", "src/seismic/trace_data/waveform.py::Store_Client._translate_wildcards"]}
{"id": "C152", "title": "A run begins on all processes or on none", "statement": "When a run is started on several processes, all of them begin the loop over the data with the same station metadata and the same list of existing correlations; if the run cannot begin, every process raises an exception and none waits for another.", "quantifier": "all archives, directories, options and numbers of processes", "why_tests_cant": "tests run on one process; a run that cannot begin shows as a hanging job", "anchors": ["src/seismic/correlate/correlate.py::Correlator.pxcorr", "src/seismic/correlate/correlate.py::Correlator._generate_data", "src/seismic/correlate/correlate.py::Correlator.find_existing_times"]}
{"id": "C153", "title": "A monitoring run ends on all processes", "statement": "When compute_velocity_change_bulk or compute_waveform_coherence_bulk is called by several processes, all of them return: together they work on every combination once, and the averages of the coherences are made of the coherences that a single process computes. If a file or a combination fails, every process returns or raises, and none waits for another.", "quantifier": "all lists of correlation files, numbers of processes, and files and combinations that fail", "why_tests_cant": "tests run on one process; a failure on one process alone shows as a hanging job", "anchors": ["src/seismic/monitor/monitor.py::Monitor.compute_velocity_change_bulk", "src/seismic/monitor/monitor.py::Monitor.compute_waveform_coherence_bulk", "src/seismic/monitor/monitor.py::Monitor.compute_waveform_coherence"]}
{"id": "C154", "title": "A monitoring script ends on all processes", "statement": "When several processes make a Monitor and call compute_velocity_change_bulk or compute_waveform_coherence_bulk, all of them return and together they work on each combination of the directory once, even if a process sees the directory differently; if the Monitor cannot be made, every process raises an exception and none waits for another.", "quantifier": "all directories, filters, numbers of processes and failures of the steps that only the first process does", "why_tests_cant": "tests run on one process; a failure of the first process alone shows as a hanging job", "anchors": ["src/seismic/monitor/monitor.py::Monitor.__init__", "src/seismic/monitor/monitor.py::Monitor.compute_velocity_change_bulk", "src/seismic/monitor/monitor.py::Monitor.compute_waveform_coherence_bulk", "src/seismic/monitor/monitor.py::corr_find_filter"]}
{"id": "C155", "title": "A correlation script ends on all processes", "statement": "When several processes make a Correlator and call pxcorr, all of them return, with the same correlations as a single process that holds all the data; if the script cannot be carried out, every process raises an exception and none waits for another.", "quantifier": "all archives, settings, directories, data on the processes and numbers of processes", "why_tests_cant": "tests run on one process; the parts of the script are only tested by themselves", "anchors": ["src/seismic/correlate/correlate.py::Correlator.__init__", "src/seismic/correlate/correlate.py::Correlator.pxcorr", "src/seismic/correlate/correlate.py::Correlator._generate_data", "src/seismic/correlate/correlate.py::Correlator._pxcorr_inner"]}
