{"id": "C01", "title": "rollback is a left rotation", "statement": "libcpp.rollback(x, shift) returns an array of the same length with out[i] = x[(i + shift) mod len(x)], for a non-empty x, and touches no memory outside x and the output.", "quantifier": "every element type, every non-empty array, every non-negative shift (also larger than the array)", "why_tests_cant": "arrays and shifts are unbounded; a test fixes a few sizes and shifts", "anchors": ["riptide/cpp/kernels.hpp:rollback", "riptide/cpp/python_bindings.cpp:rollback"]}
{"id": "C02", "title": "fused_rollback_add adds a rotated array", "statement": "libcpp.fused_rollback_add(x, y, shift) returns z with z[i] = x[i] + y[(i + shift) mod n] for arrays of one length n > 0, raises ValueError exactly when lengths differ, and touches no memory outside the arrays.", "quantifier": "all x, y, shift, and any addition operation (so also rounded float addition)", "why_tests_cant": "unbounded sizes and shifts; memory safety is not observable by a passing test", "anchors": ["riptide/cpp/kernels.hpp:fused_rollback_add", "riptide/cpp/python_bindings.cpp:fused_rollback_add"]}
{"id": "C03", "title": "circular prefix sum", "statement": "The circular prefix sum of x over nsum terms has j-th element x[0] + x[1 mod n] + ... + x[j mod n] for every j < nsum, any number of wraps; exactly nsum cells are written and reads/writes never overlap illegally.", "quantifier": "every non-empty x, every nsum, any initial content of the output buffer (exact arithmetic)", "why_tests_cant": "wrap count is unbounded", "anchors": ["riptide/cpp/kernels.hpp:circular_prefix_sum", "riptide/cpp/kernels.hpp:add_scalar"]}
{"id": "C04", "title": "libcpp.circular_prefix_sum stays inside the array it returns", "statement": "libcpp.circular_prefix_sum(x, nsum) never writes outside the array it allocates. (False: the binding allocates len(x) elements although nsum may be larger; expected to be refuted, and proved for nsum <= len(x).)", "quantifier": "all x, nsum", "why_tests_cant": "heap overflow by a few floats usually goes unnoticed in a test", "anchors": ["riptide/cpp/python_bindings.cpp:circular_prefix_sum"]}
{"id": "C05", "title": "ffa2 is total, memory safe and scratch independent", "statement": "For every input with at least one row and one column, ffa2 terminates, reads and writes only inside its three buffers, leaves the input unchanged, and its result depends only on the input, not on the uninitialised contents of the scratch and output buffers.", "quantifier": "all shapes rows >= 1, cols >= 1 and all contents, all initial buffer contents (row-index arithmetic as proved in C10/C11)", "why_tests_cant": "uninitialised-memory bugs in ping-pong buffers depend on the shape's recursion tree; tests see a few shapes", "anchors": ["riptide/cpp/transforms.hpp:transform", "riptide/cpp/transforms.hpp:merge", "riptide/cpp/python_bindings.cpp:ffa2", "riptide/cpp/block.hpp:BlockTemplate"]}
{"id": "C06", "title": "each FFA row is a fold at one constant-drift path", "statement": "ffa2(X)[s] is, for each s < m, the sum over all input rows i of row i rotated left by sh(i), each row used exactly once, where sh depends only on (m, s), sh(0) = 0, sh(m-1) = s, and each step sh(i+1) - sh(i) is 0 or 1.", "quantifier": "all m, p, all s, all contents", "why_tests_cant": "the recursion tree differs for every m; unit tests compare to three hard-coded arrays", "anchors": ["riptide/cpp/transforms.hpp:merge", "riptide/cpp/transforms.hpp:transform", "riptide/libffa.py:ffa2"]}
{"id": "C07", "title": "FFA folding path follows the ideal straight line", "statement": "The path of C06 deviates from the ideal drift i*s/(m-1) by at most ceil(log2 m)/2 bins at every row.", "quantifier": "all m, s, i", "why_tests_cant": "the worst case is over an exponentially large set of tree positions", "anchors": ["riptide/cpp/transforms.hpp:merge"]}
{"id": "C08", "title": "FFA row 0 and row m-1", "statement": "ffa2(X)[0] is the plain column sum, and ffa2(X)[m-1] is the sum of rows i each rotated by exactly i.", "quantifier": "all X", "why_tests_cant": "all shapes", "anchors": ["riptide/cpp/transforms.hpp:transform"]}
{"id": "C09", "title": "FFA algebra", "statement": "ffa2 conserves the total of each output row (equal to the grand total of X), is linear, commutes with rotating every input row by the same amount, and has the shape of its input.", "quantifier": "all X, Y, scalars, rotations (exact arithmetic)", "why_tests_cant": "metamorphic relations over unbounded inputs", "anchors": ["riptide/cpp/transforms.hpp:transform"]}
{"id": "C10", "title": "float32 row indices of the FFA are safe", "statement": "With the index arithmetic done in IEEE binary32 as in the C++ (fused or not fused multiply-add), for all 2 <= m <= 2^22 and s < m the head row index is <= floor(m/2)-1, the tail row index <= ceil(m/2)-1 and s minus their sum is 0 or 1; hence C05 and C06 hold for the float code for every such row count.", "quantifier": "all m up to 2^22, all s, both contraction modes", "why_tests_cant": "about 2^43 pairs; rounding errors are adversarial", "anchors": ["riptide/cpp/transforms.hpp:merge"]}
{"id": "C11", "title": "float32 row indices of the FFA for huge inputs", "statement": "ffa2 never reads outside its scratch buffer, for any number of rows. (Expected to be refuted: at 2^24+1 rows the binary32 index runs past the last row.)", "quantifier": "all m", "why_tests_cant": "a 2^24-row test is not run", "anchors": ["riptide/cpp/transforms.hpp:merge"]}
{"id": "C12", "title": "rounding error of the FFA sums", "statement": "If each float32 addition has relative error at most u, every element of ffa2(X) differs from the exact sum along the path of C06 by at most ((1+u)^d - 1) * sum of |terms| with d = ceil(log2 m).", "quantifier": "all inputs, all m, all rounding behaviours with relative error u", "why_tests_cant": "rounding schedules are unbounded", "anchors": ["riptide/cpp/transforms.hpp:transform", "riptide/cpp/kernels.hpp:add"]}
{"id": "C13", "title": "ffa1 argument checks and truncation", "statement": "ffa1(data, p) raises ValueError unless data is one dimensional, p is an integer > 0 and p <= len(data); otherwise the result has floor(len/p) rows and p columns, and depends only on the first floor(len/p)*p samples.", "quantifier": "all data and p", "why_tests_cant": "unbounded", "anchors": ["riptide/libffa.py:ffa1"]}
{"id": "C14", "title": "trial frequencies of an FFA transform", "statement": "ffafreq(N, p, dt) has floor(N/p) entries, starts at 1/(p dt), is strictly decreasing, and entry s is the frequency whose phase falls behind by exactly s bins after (m-1)p samples; ffaprd is its elementwise inverse and strictly increasing; a transform with one row gives only the base frequency.", "quantifier": "all N >= p > 1 and dt > 0", "why_tests_cant": "real-valued parameters", "anchors": ["riptide/libffa.py:ffafreq", "riptide/libffa.py:ffaprd"]}
{"id": "C15", "title": "downsample integrates the samples", "statement": "downsample(x, f) with 1 < f <= N returns floor(N/f) samples; output k is the sum over input samples i of x[i] times the length of the overlap of [i, i+1] with [k f, (k+1) f].", "quantifier": "all x, all real f (exact arithmetic)", "why_tests_cant": "real-valued factor; boundary cases when (k+1) f is an integer", "anchors": ["riptide/cpp/downsample.hpp:downsample", "riptide/libffa.py:downsample"]}
{"id": "C16", "title": "downsample conserves the signal", "statement": "The sum of all downsampled outputs equals the integral of the input over [0, n f]; if n f = N it is the sum of the input; a constant c maps to the constant f*c; downsampling is linear and monotone.", "quantifier": "all x, f", "why_tests_cant": "real-valued factor", "anchors": ["riptide/cpp/downsample.hpp:downsample"]}
{"id": "C17", "title": "downsample argument check and memory safety in floating point", "statement": "downsample raises ValueError exactly when not (1 < f <= N); otherwise, with all coordinates computed in binary64, every index read is < N and every output index is < the allocated size, for all N up to 2^50.", "quantifier": "all binary64 f, all N <= 2^50", "why_tests_cant": "rounding at the last output sample", "anchors": ["riptide/cpp/downsample.hpp:downsample", "riptide/cpp/downsample.hpp:check_downsampling_factor", "riptide/cpp/python_bindings.cpp:downsample"]}
{"id": "C18", "title": "downsampled_variance is the variance of downsampled white noise", "statement": "For unit-variance white noise, the variance used for the S/N normalisation equals the variance of the downsampled samples when f is an integer. (Expected to be refuted: (k-1)^2+1 instead of k for f = k >= 3 ... and proved for f < 3.)", "quantifier": "all N, integer f", "why_tests_cant": "only statistical tests exist", "anchors": ["riptide/cpp/downsample.hpp:downsampled_variance"]}
{"id": "C19", "title": "boxcar_snr is a matched filter", "statement": "snr(profile, w) equals max over phases of the inner product of the profile with a circular boxcar of width w that has zero mean and unit square sum, divided by the noise standard deviation.", "quantifier": "all profiles of any size, all widths 0 < w < size, all stdnoise > 0 (exact arithmetic)", "why_tests_cant": "unbounded", "anchors": ["riptide/cpp/snr.hpp:snr1", "riptide/libffa.py:boxcar_snr"]}
{"id": "C20", "title": "S/N invariances", "statement": "boxcar S/N is invariant under rotating the profile and under adding a constant to every bin, scales linearly with positive gain, is inversely proportional to stdnoise, and is never negative.", "quantifier": "all profiles, widths", "why_tests_cant": "metamorphic over unbounded inputs", "anchors": ["riptide/cpp/snr.hpp:snr1"]}
{"id": "C21", "title": "the best trial width is the true width", "statement": "For a noiseless boxcar pulse of width w on a flat baseline, width w gives the largest S/N among all widths, and the S/N is amplitude * sqrt(w (n-w) / n) / stdnoise.", "quantifier": "all sizes, widths, amplitudes >= 0, baselines", "why_tests_cant": "all pairs of widths", "anchors": ["riptide/cpp/snr.hpp:snr1"]}
{"id": "C22", "title": "boxcar_snr argument checks", "statement": "snr1/snr2 raise ValueError exactly when stdnoise is not > 0 or some width is not in 1..size-1; with a non-empty width list the output has one S/N per (profile, width) and no access is out of bounds. An empty width list is undefined behaviour (refuted separately).", "quantifier": "all inputs", "why_tests_cant": "unbounded", "anchors": ["riptide/cpp/snr.hpp:check_trial_widths", "riptide/cpp/python_bindings.cpp:snr1", "riptide/cpp/python_bindings.cpp:snr2"]}
{"id": "C23", "title": "width trials", "statement": "generate_width_trials(nbins, ducy_max, wtsp) terminates, is strictly increasing, starts at 1, contains no width above max(1, ducy_max*nbins), and consecutive widths w, w' satisfy w' <= max(w+1, wtsp*w); the next width after the last would exceed the limit.", "quantifier": "all nbins, ducy_max, wtsp", "why_tests_cant": "real parameters; termination", "anchors": ["riptide/ffautils.py:generate_width_trials"]}
{"id": "C24", "title": "quickselect returns the order statistic", "statement": "nth_element(data, 0, n-1, k) terminates and returns the k-th smallest element; the buffer stays a permutation of itself and no index leaves the buffer.", "quantifier": "all arrays of any length with ties, all k < n, any strict weak (total) order", "why_tests_cant": "permutations and ties", "anchors": ["riptide/cpp/running_median.hpp:nth_element", "riptide/cpp/running_median.hpp:partition"]}
{"id": "C25", "title": "running_median is the median of the edge-padded window", "statement": "running_median(x, width)[i] is the median of the width samples centred on i, where samples before the start (after the end) are copies of the first (last) sample; raises ValueError exactly when width is even or width >= len(x).", "quantifier": "all x, all odd width < len(x)", "why_tests_cant": "window/ring-buffer state machine of arbitrary length", "anchors": ["riptide/cpp/running_median.hpp:running_median", "riptide/cpp/running_median.hpp:RunningMedian", "riptide/running_medians.py:running_median"]}
{"id": "C26", "title": "fast_running_median", "statement": "fast_running_median(x, width, min_points) equals running_median(x, width) when width < 2*min_points, raises ValueError for even min_points, and otherwise always returns len(x) values lying between min(x) and max(x), is equivariant under adding a constant and under positive scaling.", "quantifier": "all x, width, min_points (exact arithmetic)", "why_tests_cant": "unbounded", "anchors": ["riptide/running_medians.py:fast_running_median", "riptide/running_medians.py:scrunch"]}
{"id": "C27", "title": "periodogram length and buffers agree", "statement": "The number of trials written by the periodogram equals the length computed beforehand to allocate the outputs, and every intermediate buffer is large enough, for every argument combination that passes the checks, under any monotone rounding.", "quantifier": "all sizes, real parameters, and any monotone rounding of the arithmetic", "why_tests_cant": "float boundary cases decide a row or not", "anchors": ["riptide/cpp/periodogram.hpp:periodogram_length", "riptide/cpp/periodogram.hpp:periodogram"]}
{"id": "C28", "title": "trial periods", "statement": "The periods returned by the periodogram are strictly increasing, the first is period_min, all are in [period_min, period_max), and each foldbins is in [bins_min, bins_max].", "quantifier": "all valid arguments (exact arithmetic)", "why_tests_cant": "unbounded real parameters", "anchors": ["riptide/cpp/periodogram.hpp:periodogram", "riptide/cpp/periodogram.hpp:ceilshift"]}
{"id": "C29", "title": "coverage of the period range", "statement": "Between consecutive trial periods (and up to period_max) the frequency step never exceeds the one that drifts by one phase bin over the fold: no part of the requested period range is skipped, provided the data hold at least two periods at every step.", "quantifier": "all valid arguments (exact arithmetic)", "why_tests_cant": "quantifies over every period in a real interval", "anchors": ["riptide/cpp/periodogram.hpp:periodogram"]}
{"id": "C30", "title": "periodogram S/N values", "statement": "The S/N written for trial (bins, s) and width w is the boxcar matched-filter S/N of row s of the FFA transform of the downsampled data folded at bins.", "quantifier": "all data and arguments", "why_tests_cant": "composition of all kernels for all inputs", "anchors": ["riptide/cpp/periodogram.hpp:periodogram"]}
{"id": "C31", "title": "period_max may be arbitrarily large", "statement": "The search stops automatically when the maximum allowable trial period is reached, for any period_max, without an error. (Expected to be refuted: downsample raises once the factor exceeds the number of samples.)", "quantifier": "all period_max", "why_tests_cant": "extreme parameter", "anchors": ["riptide/cpp/periodogram.hpp:periodogram_check_arguments", "riptide/search.py:ffa_search"]}
{"id": "C32", "title": "fpmin caps the searched period", "statement": "ffa_search only searches periods up to length/fpmin. (Expected to be refuted: the parameter is ignored.)", "quantifier": "all parameters", "why_tests_cant": "documented but untested", "anchors": ["riptide/search.py:ffa_search"]}
{"id": "C33", "title": "normalise", "statement": "TimeSeries.normalise gives zero mean and unit variance for every non-constant data set, is idempotent, and is invariant under positive affine maps of the data.", "quantifier": "all data (exact arithmetic)", "why_tests_cant": "unbounded", "anchors": ["riptide/time_series.py:TimeSeries.normalise"]}
{"id": "C34", "title": "TimeSeries operations with inplace=False never change the object they are called on, and copies are independent", "statement": "Any history of method calls on any number of TimeSeries sharing buffers: normalise/deredden/downsample/copy with inplace=False return a new object that shares no sample buffer with an existing one and leave every existing object's data, tsamp and metadata unchanged; inplace=True changes only the receiver (and objects sharing its buffer through construction without copy).", "quantifier": "all histories of calls", "why_tests_cant": "aliasing histories", "anchors": ["riptide/time_series.py:TimeSeries"]}
{"id": "C35", "title": "metadata['tobs'] equals nsamp*tsamp", "statement": "After any history of operations the tobs stored in the metadata equals the length in seconds of the data. (Expected to be refuted for downsample(inplace=True); proved for other histories.)", "quantifier": "all histories", "why_tests_cant": "histories", "anchors": ["riptide/time_series.py:TimeSeries.downsample", "riptide/time_series.py:TimeSeries.__init__"]}
{"id": "C36", "title": "fold shape and argument checks", "statement": "fold(ts, period, bins, subints) raises ValueError exactly in the documented cases, otherwise returns bins values (subints None or 1) or a subints x bins array (exact arithmetic); the full-resolution fold has floor(data length / period) rows.", "quantifier": "all ts, period, bins, subints", "why_tests_cant": "real parameters", "anchors": ["riptide/folding.py:fold", "riptide/folding.py:downsample_vertical"]}
{"id": "C37", "title": "sub-integrations add up to the profile", "statement": "The column sums of the sub-integration array equal the profile, for exact arithmetic, so the displayed profile does not depend on the number of sub-integrations.", "quantifier": "all data and subints (exact arithmetic)", "why_tests_cant": "real factors", "anchors": ["riptide/folding.py:fold", "riptide/folding.py:downsample_vertical"]}
{"id": "C38", "title": "fold returns exactly subints rows in floating point", "statement": "Requested subints rows are returned by fold also in binary64. (Expected to be refuted: 9 periods, 7 subints gives 6 rows.)", "quantifier": "all m >= subints", "why_tests_cant": "rounding coincidences", "anchors": ["riptide/folding.py:downsample_vertical"]}
{"id": "C39", "title": "cluster1d is friends-of-friends", "statement": "cluster1d(x, r) returns a partition of the indices; two points are in one group iff they are linked by a chain of points with successive gaps <= r in sorted order; groups are ordered and each is sorted; independent of the input order of x up to ties; already_sorted gives the same for sorted input.", "quantifier": "all x of any length, all r", "why_tests_cant": "all orders, ties", "anchors": ["riptide/clustering.py:cluster1d"]}
{"id": "C40", "title": "find_peaks output", "statement": "Every peak is the S/N maximum of a cluster of trials above both the static and dynamic threshold, each trial above threshold is represented by a peak of its own width within the cluster, no two peaks of one width come from one cluster, and the list is sorted by decreasing S/N.", "quantifier": "all periodograms and parameters (threshold fit as oracle)", "why_tests_cant": "unbounded", "anchors": ["riptide/peak_detection.py:find_peaks", "riptide/peak_detection.py:find_peaks_single"]}
{"id": "C41", "title": "select_dms covers the DM range", "statement": "The selected trial DMs are a subset of the input, strictly increasing, contain the extreme DMs, and every gap is tolerable (the smearing criterion) unless no input DM in between could repair it.", "quantifier": "all input DM lists, real parameters", "why_tests_cant": "greedy algorithm over arbitrary lists", "anchors": ["riptide/pipeline/dmiter.py:select_dms"]}
{"id": "C42", "title": "select_dms is minimal", "statement": "No covering selection that contains the first DM has fewer elements than the one chosen (greedy optimality).", "quantifier": "all DM lists, all competing selections", "why_tests_cant": "optimality over exponentially many subsets", "anchors": ["riptide/pipeline/dmiter.py:select_dms"]}
{"id": "C43", "title": "DM chunk iteration", "statement": "iterate_filenames yields every selected trial exactly once, in order, in chunks of chunksize with only the last possibly smaller.", "quantifier": "all lengths and chunk sizes", "why_tests_cant": "unbounded", "anchors": ["riptide/pipeline/dmiter.py:DMIterator.iterate_filenames", "riptide/pipeline/dmiter.py:DMIterator"]}
{"id": "C44", "title": "every DM trial file is either searched or excluded by DM", "statement": "DMIterator uses every input file whose DM was selected. (Expected to be refuted: two files with one DM, only the last survives.)", "quantifier": "all file lists", "why_tests_cant": "duplicates", "anchors": ["riptide/pipeline/dmiter.py:DMIterator"]}
{"id": "C45", "title": "harmonic flagging", "statement": "After flag_harmonics: clusters are ranked by decreasing S/N 0,1,2,...; a cluster is flagged iff some earlier-ranked non-harmonic cluster is related to it, and its parent is the first such; parents are never harmonics themselves, so chains have depth one and there are no cycles; the top candidate is never flagged.", "quantifier": "all cluster lists and any relation", "why_tests_cant": "arbitrary relation graphs", "anchors": ["riptide/pipeline/pipeline.py:Pipeline.flag_harmonics"]}
{"id": "C46", "title": "htest fraction", "statement": "htest returns the parent/child fraction as a pair of coprime positive integers approximating the frequency ratio, with denominator bound respected when the child is slower, and never related=True unless all three distances are within limits. (The bound for the faster case is refuted.)", "quantifier": "all frequencies", "why_tests_cant": "all rationals", "anchors": ["riptide/pipeline/harmonic_testing.py:htest", "riptide/pipeline/harmonic_testing.py:hdiag"]}
{"id": "C47", "title": "candidate filters", "statement": "apply_candidate_filters keeps exactly the clusters passing the configured DM/S/N/harmonic limits and at most max_number of them, the brightest ones (brightest first when a cap is configured, cluster order otherwise); no filter configured keeps everything.", "quantifier": "all cluster lists and all filter settings", "why_tests_cant": "combinations of settings", "anchors": ["riptide/pipeline/pipeline.py:Pipeline.apply_candidate_filters"]}
{"id": "C48", "title": "candidate building is failure isolated", "statement": "build_candidates yields one candidate per surviving cluster whose file loads and folds, in order; a failure in one never affects the others.", "quantifier": "all failure patterns", "why_tests_cant": "all failure subsets", "anchors": ["riptide/pipeline/pipeline.py:Pipeline.build_candidates"]}
{"id": "C49", "title": "search range lookup", "statement": "For validated (contiguous) ranges get_search_range finds exactly one range for every period in [overall min, overall max), the first range below that and the last one above.", "quantifier": "all configs and periods", "why_tests_cant": "real parameter", "anchors": ["riptide/pipeline/pipeline.py:Pipeline.get_search_range"]}
{"id": "C50", "title": "validated ranges make every candidate foldable", "statement": "If the configuration passes validation against tsamp_max then folding any candidate period of a range with its configured cand_bins cannot fail. (Expected to be refuted at equality.)", "quantifier": "all configs", "why_tests_cant": "boundary equality", "anchors": ["riptide/pipeline/config_validation.py:validate_range", "riptide/folding.py:fold"]}
{"id": "C51", "title": "parallel search is schedule independent", "statement": "The pipeline's peak list does not depend on the number of worker processes, chunk size or completion order; the clustering of it depends only on the multiset of peaks up to ties.", "quantifier": "all schedules, process counts", "why_tests_cant": "scheduling", "anchors": ["riptide/pipeline/worker_pool.py:WorkerPool", "riptide/pipeline/pipeline.py:Pipeline.search"]}
{"id": "C52", "title": "candidate files never collide", "statement": "Distinct ranks give distinct candidate file names, so any order or crash point of the parallel writers leaves each finished candidate intact in its own file.", "quantifier": "all ranks (also above 9999), all write orders and crash points", "why_tests_cant": "schedules and crash points", "anchors": ["riptide/pipeline/pipeline.py:CandidateWriter"]}
{"id": "C53", "title": "base64 array payload round-trips", "statement": "decode(encode(bytes)) = bytes for all byte strings, and encoded text has length 4*ceil(n/3) and only legal characters.", "quantifier": "all byte strings", "why_tests_cant": "unbounded", "anchors": ["riptide/serialization.py:JSONEncoder", "riptide/serialization.py:object_hook"]}
{"id": "C54", "title": "saving and loading JSON products preserves them", "statement": "from_json(to_json(obj)) = obj for every nesting of dicts, lists, strings, numbers, arrays, and the registered classes, except values that themselves look like encoded objects.", "quantifier": "all values (induction over nesting)", "why_tests_cant": "unbounded nesting", "anchors": ["riptide/serialization.py:JSONEncoder.default", "riptide/serialization.py:object_hook", "riptide/serialization.py:to_json", "riptide/serialization.py:from_json"]}
{"id": "C55", "title": "sigproc header parsing", "statement": "read_sigproc_header on a well-formed header (any number of attributes in any order, any payload after it) returns exactly the attributes written and the exact header size in bytes; it terminates on every byte string.", "quantifier": "all byte strings / all attribute lists", "why_tests_cant": "unbounded inputs", "anchors": ["riptide/reading/sigproc.py:read_sigproc_header", "riptide/reading/sigproc.py:read_attribute", "riptide/reading/sigproc.py:read_str"]}
{"id": "C56", "title": "sigproc coordinates", "statement": "parse_float_coord splits hhmmss.s into hours, minutes, seconds exactly and keeps the sign for all magnitudes (also -0 degrees).", "quantifier": "all real inputs", "why_tests_cant": "sign and carry corner cases", "anchors": ["riptide/reading/sigproc.py:parse_float_coord"]}
{"id": "C57", "title": "PRESTO .inf parsing", "statement": "inf2dict reads back every field, for any number of on/off bin pairs, from any file laid out as PRESTO writes it.", "quantifier": "all field values, any number of on/off pairs", "why_tests_cant": "unbounded on/off lists", "anchors": ["riptide/reading/presto.py:inf2dict", "riptide/reading/presto.py:parse_inf_value"]}
{"id": "C58", "title": "configuration validation", "statement": "validate_pipeline_config accepts exactly the configurations meeting the documented constraints, returns equal values, and accepted ranges are contiguous and ordered so that they cover the interval from the first minimum to the last maximum without gap or overlap.", "quantifier": "all configurations", "why_tests_cant": "unbounded", "anchors": ["riptide/pipeline/config_validation.py:validate_pipeline_config", "riptide/pipeline/config_validation.py:validate_ranges"]}
{"id": "C59", "title": "peak clustering in the pipeline", "statement": "cluster_peaks partitions all peaks: each peak is in exactly one cluster, clusters are non-empty, each cluster's centre is its brightest member, and peaks within the clustering radius in frequency share a cluster.", "quantifier": "all peak lists", "why_tests_cant": "unbounded", "anchors": ["riptide/pipeline/pipeline.py:Pipeline.cluster_peaks", "riptide/pipeline/peak_cluster.py:PeakCluster"]}
{"id": "C60", "title": "rseek grouping", "statement": "rseek reports one line per group of peaks clustered in frequency, namely the brightest of each group, every peak being in exactly one group, ordered by decreasing S/N.", "quantifier": "all peak lists", "why_tests_cant": "unbounded", "anchors": ["riptide/apps/rseek.py:run_program"]}
{"id": "C61", "title": "fold succeeds when the period is the whole data length", "statement": "fold(ts, period, bins) returns a profile whenever period <= ts.length and the bins are longer than the sampling time, in binary64 as well. (Refuted: 9 samples of 1 s, period 9 s, 7 bins raise ZeroDivisionError because the downsampled data have only 6 bins.)", "quantifier": "all data lengths, periods, bins", "why_tests_cant": "rounding coincidences", "anchors": ["riptide/folding.py:fold"]}
{"id": "C62", "title": "ffa_search end to end", "statement": "For all valid parameters with ducy_max < 1 and a range of at most half the data length, ffa_search returns; the searched data have zero mean and unit variance and are an increasing affine image of the input; the trial widths start at 1, increase and stay below bins_min; the trial periods start at period_min, increase strictly and stay below period_max; all arrays have matching shapes.", "quantifier": "all data and parameters (exact arithmetic)", "why_tests_cant": "continuous parameters", "anchors": ["riptide/search.py:ffa_search"]}
{"id": "C63", "title": "ffa_search does not depend on the scale and offset of the data", "statement": "ffa_search of a*x + b with a > 0 gives the same result (including errors) as ffa_search of x, with and without dereddening.", "quantifier": "all data, parameters, a > 0, b (exact arithmetic)", "why_tests_cant": "continuous parameters", "anchors": ["riptide/search.py:ffa_search", "riptide/time_series.py:TimeSeries.normalise", "riptide/time_series.py:TimeSeries.deredden"]}
{"id": "C64", "title": "Segment statistics are medians and interquartile widths of equal runs of trials", "statement": "For positive T and segwidth, segment_stats cuts the trials into m = ceil(abs(df) T / segwidth) runs of floor(n/m) consecutive trials and returns for each the median frequency, the median S/N and (Q3 - Q1)/1.349 of its S/N; it fails with IndexError exactly when there are no trials or fewer trials than segments, and with ZeroDivisionError exactly when first and last frequency coincide.", "quantifier": "all frequencies, S/N values, T > 0, segwidth > 0 (exact arithmetic)", "why_tests_cant": "order statistics over all inputs", "anchors": ["riptide/peak_detection.py:segment_stats"]}
{"id": "C65", "title": "A periodogram with a single trial period can be searched for peaks", "statement": "find_peaks returns a list of peaks for a periodogram with exactly one trial period.", "quantifier": "all single-trial periodograms with at least one width", "why_tests_cant": "degenerate size not covered by any test", "anchors": ["riptide/peak_detection.py:segment_stats", "riptide/peak_detection.py:find_peaks"]}
{"id": "C66", "title": "S/N distance of harmonically related candidates", "statement": "The documentation of htest says the expected S/N of the harmonic H given a fundamental F and fraction p/q is snr_F * sqrt(p*q) (docs); the code divides by sqrt(p*q). With the documented rule, a pair related by code would be related by the documentation. (Expected to be refuted.)", "quantifier": "all peaks", "why_tests_cant": "all reals", "anchors": ["riptide/pipeline/harmonic_testing.py:htest"]}
{"id": "C67", "title": "processing twice", "statement": "Processing the same Pipeline object a second time gives the same candidates as processing it once.", "quantifier": "all pipelines", "why_tests_cant": "state left on the object", "anchors": ["riptide/pipeline/pipeline.py:Pipeline.build_candidates"]}
{"id": "C68", "title": "output directory holds only the current run", "statement": "After save_products returns, the candidate files in the output directory are exactly those of the current candidates.", "quantifier": "all earlier contents of the directory", "why_tests_cant": "needs two runs", "anchors": ["riptide/pipeline/pipeline.py:Pipeline.save_products"]}
{"id": "C69", "title": "worker pool termination", "statement": "Every execution of the parallel search and of the parallel writers ends, for every schedule, number of processes and number of files; without killed workers it ends with a result.", "quantifier": "all schedules", "why_tests_cant": "scheduling", "anchors": ["riptide/pipeline/worker_pool.py:WorkerPool.process_fname_list"]}
{"id": "C70", "title": "loading SIGPROC time series", "statement": "TimeSeries.from_sigproc loads only single-channel 8- or 32-bit files; the samples are all the complete items after the header, in order and with the right signedness; metadata tobs equals number of samples times tsamp, and every header attribute is kept.", "quantifier": "all files, all extra_keys", "why_tests_cant": "unbounded inputs; hostile headers", "anchors": ["riptide/time_series.py:TimeSeries.from_sigproc", "riptide/metadata.py:Metadata.from_sigproc", "riptide/reading/sigproc.py:SigprocHeader"]}
{"id": "C71", "title": "loading PRESTO time series", "statement": "TimeSeries.from_presto_inf reads the samples of stem.inf from stem.dat, every complete float32 in order; every .inf field is kept in the metadata, tobs is tsamp times nsamp, and the warning is given exactly for high-energy bands.", "quantifier": "all .inf and .dat files", "why_tests_cant": "path and unit corner cases", "anchors": ["riptide/time_series.py:TimeSeries.from_presto_inf", "riptide/metadata.py:Metadata.from_presto_inf", "riptide/reading/presto.py:PrestoInf"]}
{"id": "C72", "title": "Common preprocessing of the workers", "statement": "Dereddening and normalising a file once and searching every range with already_normalised=True, deredden=False gives the same peaks, and the same errors, as a complete ffa_search of the file for each range.", "quantifier": "all files, parameters and arithmetics", "why_tests_cant": "depends on every combination of ranges", "anchors": ["riptide/pipeline/worker_pool.py:process_fname"]}
{"id": "C73", "title": "What a worker finds", "statement": "Every peak returned by process_fname for a file is a trial of a periodogram of the dereddened normalised data of that file: its period lies in one of the search ranges, its profile is a fold of the data, its S/N is the matched filter of that fold with its width, it is above the fixed and the fitted thresholds and the best of its cluster, and it carries the DM of the file.", "quantifier": "all files and configurations (exact arithmetic)", "why_tests_cant": "unbounded data", "anchors": ["riptide/pipeline/worker_pool.py:process_fname", "riptide/peak_detection.py:find_peaks", "riptide/search.py:ffa_search"]}
{"id": "C74", "title": "A worker can search every file", "statement": "process_fname returns peaks for every file with positive sampling time whose data are longer than the longest searched period. (Refuted: a file without DM raises TypeError, and 20 ms sampling with the default dereddening raises ValueError. The exact windows accepted by deredden are characterised, and sufficient conditions for success are proved.)", "quantifier": "all files", "why_tests_cant": "depends on the parity of a rounded ratio", "anchors": ["riptide/pipeline/worker_pool.py:process_fname", "riptide/time_series.py:TimeSeries.deredden", "riptide/running_medians.py:running_median"]}
{"id": "C75", "title": "Band, position and refusals of the DM iterator", "statement": "DMIterator uses the frequency band that all input files have in common, the configured band only when they have none, and raises ValueError when there is neither; files at different sky positions raise RuntimeError; with one position and a valid band it raises ValueError when no file has a DM in the requested range and otherwise returns a selection.", "quantifier": "all lists of input files and configurations (exact arithmetic)", "why_tests_cant": "unbounded lists of files", "anchors": ["riptide/pipeline/dmiter.py:DMIterator.__init__", "riptide/pipeline/dmiter.py:infer_band_params", "riptide/pipeline/dmiter.py:get_galactic_coords"]}
{"id": "C76", "title": "Products of a pipeline run", "statement": "When Pipeline.process returns, its peaks are exactly those found by the workers in the selected files sorted by period, its clusters partition the peaks with the configured radius over the median observation length, the flags are those of the harmonic test, and its candidates are the folds of the brightest peaks of the clusters that pass the filters, by decreasing S/N.", "quantifier": "all configurations, input files, schedules of the workers and executions", "why_tests_cant": "all interleavings of the worker processes", "anchors": ["riptide/pipeline/pipeline.py:Pipeline.process"]}
{"id": "C77", "title": "Table of clusters", "statement": "clusters.csv has one row per cluster in the order of the ranks, with the parameters of the brightest peak, the number of peaks, and for a harmonic the fraction and the rank of its fundamental; clusters_to_dataframe raises nothing.", "quantifier": "all flagged lists of clusters", "why_tests_cant": "depends on links between objects", "anchors": ["riptide/pipeline/peak_cluster.py:clusters_to_dataframe", "riptide/pipeline/peak_cluster.py:PeakCluster.summary_dict"]}
{"id": "C78", "title": "Files of a pipeline run", "statement": "A run that returns leaves the whole tables of peaks, clusters and candidates and one whole JSON (and if configured PNG) file per candidate named after its rank, and touches no other file; without peaks it writes nothing.", "quantifier": "all executions, including concurrent writers", "why_tests_cant": "all interleavings of the writer processes", "anchors": ["riptide/pipeline/pipeline.py:Pipeline.save_products", "riptide/pipeline/pipeline.py:CandidateWriter"]}
{"id": "C79", "title": "Pipeline runs do not depend on the processes", "statement": "Two runs on the same files and configuration with any numbers of processes and any schedules have the same products and leave the same files; without failures of the writers one returns exactly when the other does.", "quantifier": "all pairs of executions", "why_tests_cant": "all pairs of interleavings", "anchors": ["riptide/pipeline/pipeline.py:Pipeline.process"]}
{"id": "C80", "title": "Pipeline runs return", "statement": "Pipeline.process returns products, without exception and whatever the schedule of the workers, if the input files have one position, a frequency band and at least one DM in the requested range, the search ranges are contiguous and compatible with the sampling times, every file can be searched by a worker, and the candidates can be written.", "quantifier": "all configurations, input files and schedules (exact arithmetic)", "why_tests_cant": "all interleavings, unbounded inputs", "anchors": ["riptide/pipeline/pipeline.py:Pipeline.process"]}
{"id": "C81", "title": "S/N is never negative", "statement": "The S/N that snr1 computes for a profile is never negative, and it is zero at a width exactly for the profiles that are periodic with this width.", "quantifier": "all profiles, widths and noise levels (exact arithmetic)", "why_tests_cant": "unbounded data", "anchors": ["riptide/cpp/snr.hpp:snr1", "riptide/libffa.py:boxcar_snr"]}
{"id": "C82", "title": "Planning metadata are those of the file", "statement": "The metadata with which the pipeline selects DMs and plans the dedispersion plan and the parallel search are exactly the entries of the SIGPROC header or of the PRESTO .inf file (real path, DM, sampling time, length, position, band); the series loaded later for the search carries the same DM and sampling time, and loading it terminates in a series or an exception.", "quantifier": "all files, also through symbolic links", "why_tests_cant": "unbounded inputs and formats", "anchors": ["riptide/metadata.py:Metadata.from_sigproc", "riptide/metadata.py:Metadata.from_presto_inf", "riptide/time_series.py:TimeSeries.from_sigproc", "riptide/time_series.py:TimeSeries.from_presto_inf", "riptide/pipeline/dmiter.py:DMIterator"]}
{"id": "C83", "title": "What rseek reports", "statement": "rseek reports nothing exactly if find_peaks found no peak in the dereddened and normalised data of the file; otherwise it reports, brightest first, the brightest peak of each group of peaks whose frequencies are linked by steps of at most clrad/length, each peak being one of the search of the period range with the given bins. It returns or raises, and returns whenever the running median window suits the data and the period range is well within the data, also for files without DM.", "quantifier": "all files, command lines and library results (exact arithmetic)", "why_tests_cant": "unbounded inputs", "anchors": ["riptide/apps/rseek.py:run_program", "riptide/apps/rseek.py:get_parser", "riptide/search.py:ffa_search"]}
{"id": "C84", "title": "rseek --rmed_minpts", "statement": "The option --rmed_minpts of rseek sets the minimum number of scrunched samples in the running median window.", "quantifier": "all command lines", "why_tests_cant": "argument types on every path", "anchors": ["riptide/apps/rseek.py:get_parser", "riptide/running_medians.py:fast_running_median"]}
{"id": "C85", "title": "DM curve of a candidate", "statement": "The DM curve of a candidate lists every DM among its peaks once, in increasing order, each with the largest S/N among the peaks at that DM; it is defined for every candidate with a peak.", "quantifier": "all peak lists", "why_tests_cant": "maximum over every subset of peaks", "anchors": ["riptide/candidate.py:dm_curve"]}
{"id": "C86", "title": "Candidate profile", "statement": "The profile of a candidate is the folded data itself if it has one sub-integration, otherwise the sum over sub-integrations for every phase bin.", "quantifier": "all folded arrays", "why_tests_cant": "all shapes of the array", "anchors": ["riptide/candidate.py:profile"]}
{"id": "C87", "title": "Candidate plot", "statement": "A candidate plot can be made exactly if the folded data has at least two sub-integrations and coordinates, epoch and source name are known; it then shows the sub-integrations and the profile extended periodically to one and a half turns, the parameters of the candidate and its DM curve; in a run with plots every candidate gets its plot.", "quantifier": "all candidates and runs", "why_tests_cant": "depends on metadata of every file", "anchors": ["riptide/candidate.py:plot", "riptide/candidate.py:savefig", "riptide/candidate.py:plot_subints"]}
{"id": "C88", "title": "Accepted configurations can be plotted", "statement": "A pipeline run with an accepted configuration that asks for candidate plots makes the plots of its candidates if the files carry coordinates, epoch and source name.", "quantifier": "all configurations", "why_tests_cant": "rare configuration values", "anchors": ["riptide/pipeline/config_validation.py:SEARCH_RANGE_SCHEMA", "riptide/candidate.py:plot_subints"]}
{"id": "C89", "title": "Reading a configuration", "statement": "Every accepted configuration is read without error, and every parameter of the run is what its item of the configuration file stands for: numbers as written, null as absent, items left out as their documented defaults (fpmin 8, wtsp 1.5, ducy_max 0.2, smin 6, segwidth 5, nstd 6, minseg 10, polydeg 2, clrad 0.1). No configuration has two meanings.", "quantifier": "all configurations", "why_tests_cant": "unbounded nested input", "anchors": ["riptide/pipeline/pipeline.py:Pipeline", "riptide/pipeline/worker_pool.py:WorkerPool", "riptide/search.py:ffa_search", "riptide/peak_detection.py:find_peaks"]}
{"id": "C90", "title": "Program and configuration file", "statement": "The program runs the pipeline with the parameters that the configuration file stands for and the loaders for its format; with a configuration that is not accepted it raises InvalidPipelineConfig, and with a file that cannot be read or parsed it raises that error; in both cases it writes nothing.", "quantifier": "all files and configurations", "why_tests_cant": "unbounded input", "anchors": ["riptide/pipeline/pipeline.py:run_program", "riptide/pipeline/pipeline.py:from_yaml_config"]}
{"id": "C91", "title": "What the program finds", "statement": "For an accepted configuration the program, if it returns, has searched a DM selection covering the requested DM range, and its peaks, clusters, harmonic flags and candidates are those of the trials; it returns whenever the data suit the search ranges, and two runs on the same files give the same results.", "quantifier": "all configurations, files, process counts and schedules", "why_tests_cant": "unbounded input and schedules", "anchors": ["riptide/pipeline/pipeline.py:run_program", "riptide/pipeline/pipeline.py:process"]}
{"id": "C92", "title": "Files the program leaves", "statement": "The program writes peaks.csv, clusters.csv, candidates.csv if there are candidates, and for every candidate its JSON file and, if plots are requested, its plot; no other file changes, and none if there are no peaks.", "quantifier": "all configurations, files and schedules", "why_tests_cant": "unbounded input and schedules", "anchors": ["riptide/pipeline/pipeline.py:save_products", "riptide/pipeline/pipeline.py:run_program"]}
{"id": "C93", "title": "Accepted configurations can be run", "statement": "With an accepted configuration, the program can process data that suit the search ranges.", "quantifier": "all configurations", "why_tests_cant": "rare configuration values", "anchors": ["riptide/pipeline/config_validation.py:validate_pipeline_config", "riptide/peak_detection.py:find_peaks", "riptide/running_medians.py:fast_running_median"]}
{"id": "C94", "title": "Simulated pulse train", "statement": "Without noise, generate_signal returns amplitude times a unit-norm train of von Mises pulses of the requested period, phase and duty cycle; the pulse peaks at 1, is even and periodic, decreases away from its peak and exceeds half its peak exactly within ducy/2 of it; the train is determined by this description and repeats every period when the period is an integer number of samples.", "quantifier": "all sizes, periods, phases, duty cycles in (0,2) (uniqueness and shape for duty cycles up to 1), amplitudes (exact arithmetic)", "why_tests_cant": "real-valued parameters", "anchors": ["riptide/libffa.py:generate_signal"]}
{"id": "C95", "title": "Amplitude is the expected S/N", "statement": "With background noise of standard deviation stdnoise, the response of the simulated signal to a unit-norm copy of its noiseless shape has expectation amplitude and variance stdnoise squared, so that amplitude is the expected matched filter S/N in units of the noise.", "quantifier": "all parameters and every source of zero-mean uncorrelated noise of that variance", "why_tests_cant": "statement on expectations", "anchors": ["riptide/libffa.py:generate_signal"]}
{"id": "C96", "title": "TimeSeries.generate", "statement": "TimeSeries.generate gives round(length/tsamp) samples of time tsamp holding the pulse train with period given in seconds plus the noise drawn, with metadata source_name fake, the signal parameters and tobs; it raises exactly for a zero sampling time or a negative number of samples with noise.", "quantifier": "all arguments (exact arithmetic)", "why_tests_cant": "real-valued parameters", "anchors": ["riptide/time_series.py:TimeSeries.generate"]}
{"id": "C97", "title": "Series from arrays and raw files", "statement": "from_numpy_array, from_binary and from_npy_file give a series holding the samples of the array or file converted to single precision, with the requested sampling time and empty metadata apart from the values a TimeSeries always sets.", "quantifier": "all arrays and file contents", "why_tests_cant": "unbounded input", "anchors": ["riptide/time_series.py:TimeSeries.from_numpy_array", "riptide/time_series.py:TimeSeries.from_binary", "riptide/time_series.py:TimeSeries.from_npy_file"]}
{"id": "C98", "title": "Plot of a periodogram", "statement": "The frequencies of a periodogram are the inverses of its periods, in strictly decreasing order; its plot shows at each trial period the largest S/N of all widths, or the S/N of the width asked for (negative indices counting from the last), between the first and the last period; an index out of range raises IndexError.", "quantifier": "all periodograms as returned by ffa_search", "why_tests_cant": "unbounded input", "anchors": ["riptide/periodogram.py:Periodogram.plot", "riptide/periodogram.py:Periodogram.freqs"]}
{"id": "C99", "title": "The periodogram does not miss a signal in its range", "statement": "If the samples are a base level plus pulses of a period between pmin and pmax lasting at most a fraction w of it, the trial period just below has, for every boxcar width of at least w times its number of bins plus the base-2 logarithm of its number of rows plus 3, an S/N of at least the matched filter response to the flux inside and outside the pulses over the part of the series folded, divided by the standard deviation assumed of the noise.", "quantifier": "all series, signals and search ranges (exact arithmetic)", "why_tests_cant": "the phase of the signal and the drift of the trial from it vary without bound", "anchors": ["riptide/cpp/periodogram.hpp:periodogram", "riptide/cpp/snr.hpp:snr2"]}
{"id": "C100", "title": "Expected S/N of a signal in noise", "statement": "When noise of zero mean is added to the samples of such a signal, the expected S/N of the trial just below its period is at least the S/N bound of the signal without noise.", "quantifier": "all noise models given by a monotone linear expectation, all signals and search ranges (exact arithmetic)", "why_tests_cant": "expectation over random draws", "anchors": ["riptide/cpp/periodogram.hpp:periodogram", "riptide/cpp/snr.hpp:snr2"]}
{"id": "C101", "title": "ffa_search does not miss a signal in its range", "statement": "ffa_search without dereddening of a series with at least two different samples holding a periodic pulsed signal of a period in its range has, at the trial just below this period and every wide enough boxcar width, an S/N of at least the matched filter response to the flux of the signal divided by the standard deviation of the series.", "quantifier": "all series, signals and search ranges (exact arithmetic)", "why_tests_cant": "the phase of the signal and the drift of the trial from it vary without bound", "anchors": ["riptide/search.py:ffa_search"]}
{"id": "C102", "title": "S/N of the rows of the transform", "statement": "No row of the FFA transform has a boxcar response above the sum of the best responses of the input rows; when the input rows are copies of a profile drifting along the path of a row, that row holds the profile times the number of rows, its response is that of the profile times the number of rows, and no other row responds more.", "quantifier": "all arrays of up to 2^22 rows (merge indices in single precision, exact sums)", "why_tests_cant": "unbounded input", "anchors": ["riptide/cpp/transforms.hpp:transform", "riptide/cpp/snr.hpp:snr1"]}
{"id": "C103", "title": "Rounding of the circular prefix sums", "statement": "For a profile of up to 2^22 single precision values, every entry of the circular prefix sum computed in floating point is within 1.2 rounding units (first turn) or 4.6 rounding units (second turn) of single precision, times the sum of absolute values of the profile, of the exact sum: the double precision accumulator keeps the error independent of the number of bins.", "quantifier": "all profiles of at most 2^22 bins, all lengths of sum up to two turns, fused or separate multiply-add", "why_tests_cant": "The S/N of every trial is a difference of two entries of this array; an accumulator in single precision would lose faint pulses in long profiles.", "anchors": ["riptide/cpp/kernels.hpp:circular_prefix_sum"]}
{"id": "C104", "title": "Rounding of the S/N", "statement": "The S/N computed in floating point for a profile, for every trial width, differs from the exact matched filter response divided by the noise by at most 28 single precision rounding units of sqrt(n/(w(n-w))) times the sum of absolute values over the noise (plus underflow terms below 2^-146).", "quantifier": "all profiles of at most 2^22 single precision bins, all valid widths, all positive noise levels, fused or separate multiply-add, all array shapes", "why_tests_cant": "Reported significances are compared to thresholds: the deviation caused by arithmetic must be known and small.", "anchors": ["riptide/cpp/snr.hpp:snr1", "riptide/libffa.py:boxcar_snr"]}
{"id": "C105", "title": "Rounding of the downsampling", "statement": "For up to 2^25 single precision samples and any double precision factor f accepted by the function, every output sample computed in floating point is the integral of the input over [k f, (k+1) f] up to (1+2^-24)^(ceil f + 3) - 1 times the integral of the absolute value, plus N 2^-50 times the largest sample for the rounding of the ends of the interval, plus underflow. Fewer samples are returned than given, and their number is that of the whole intervals up to one rounding.", "quantifier": "all inputs of at most 2^25 single precision samples, all double precision factors in (1, N], fused or separate multiply-add", "why_tests_cant": "No sample may be dropped or counted twice when the ends of an interval fall on, or next to, an integer because of rounding.", "anchors": ["riptide/cpp/downsample.hpp:downsample"]}
{"id": "C106", "title": "Rounding of the whole search", "statement": "The periodogram computed in floating point is that of the exact algorithm up to a stated error. Every trial belongs to a downsampling factor the code computes, a number of bins, and a row of the transform whose path stays within one bin per doubling of the straight line. Its period is exact to 2^-49, and its S/N for every width differs from the best matched filter response of the exactly downsampled and folded data, divided by the assumed noise, by no more than sqrt(b/(w(b-w))) ((1+31 2^-24) T - A) / sigma + 2^-145, where A is the sum of absolute values of the data and T = (1+2^-24)^(log2 rows + ceil f + 3) (A + small terms).", "quantifier": "all series of at most 2^25 single precision samples, all double precision arguments accepted by the search whose factors are valid, all widths, fused or separate multiply-add, every libm with log and pow correctly ordered around 1", "why_tests_cant": "The error bound concerns all data; comparing with a reference implementation only shows the difference for the data tried.", "anchors": ["riptide/cpp/periodogram.hpp:periodogram", "riptide/libffa.py:ffa_search"]}
{"id": "C107", "title": "Coverage of the period range in floating point", "statement": "If log() and pow() are accurate to 2^-50, next to every period from pmin to pmax (1 - 2^-40) there is a trial of the search computed in floating point: the frequencies differ by at most 3/2 of the step of its transform, which folds all the data but an incomplete period and a rounding.", "quantifier": "all series of at most 2^25 single precision samples spanning two of the longest periods, all arguments accepted by the search, all periods of the range, every library that accurate, fused or separate multiply-add", "why_tests_cant": "Rounding in the number of cycles, in the downsampling factors or in the number of rows evaluated could open a gap between two stretches of trial periods.", "anchors": ["riptide/cpp/periodogram.hpp:periodogram", "riptide/cpp/periodogram.hpp:periodogram_length"]}
{"id": "C108", "title": "No periodic signal in range is missed in floating point", "statement": "For data with a periodic pulse of any such period above a base level, at that trial every boxcar wider than the pulse by twice the number of doublings of the rows plus 3 bins has an S/N of at least the response to all the on-pulse flux folded, less the bound of C106 on rounding errors and 2^-53 of the sum of the base level.", "quantifier": "all such series, phases, duty cycles, on-pulse values and base levels, all widths, fused or separate multiply-add", "why_tests_cant": "The detection guarantee of C99 is for exact arithmetic, while the program runs in single and double precision.", "anchors": ["riptide/cpp/periodogram.hpp:periodogram", "riptide/libffa.py:ffa_search"]}
{"id": "C109", "title": "Arguments of rseek", "statement": "Every option given on the command line is used as given, and every other one has the documented default: periods 1 to 10 s, 240 to 260 bins, S/N 7, width spacing 1.5, running median 4 s with 101 points, clustering radius 0.2. A default rmed_minpts is an int, a given one a float.", "quantifier": "all combinations of options and values", "why_tests_cant": "A changed default alters every search made without that option.", "anchors": ["riptide/apps/rseek.py:get_parser"]}
{"id": "C110", "title": "Floating point operations", "statement": "On finite doubles and floats, each operation of the model's floating point numbers returns the exact result rounded to nearest, ties to even, when that is within range, and an infinity or NaN otherwise; comparisons and conversions to integers are those of the values.", "quantifier": "all finite operands of both formats, fused or separate multiply-add", "why_tests_cant": "All statements about rounding errors speak of numbers, the program computes with data that include infinities and NaNs.", "anchors": ["riptide/cpp/periodogram.hpp:periodogram"]}
{"id": "C111", "title": "The search does not overflow", "statement": "For float32 samples of absolute value up to 2^40 and any admissible search parameters the periodogram of IEEE data contains only finite periods and S/Ns, and is that of the rounded arithmetic of C106-C108; no intermediate result overflows and no NaN arises.", "quantifier": "all finite float32 series of up to 2^25 samples of that size, all admissible parameters, all log and pow with finite results, fused or separate multiply-add", "why_tests_cant": "The code is compiled with -ffinite-math-only: a single overflow or NaN would make the behaviour of the program undefined.", "anchors": ["riptide/cpp/periodogram.hpp:periodogram", "riptide/cpp/snr.hpp:snr1", "riptide/cpp/downsample.hpp:downsample"]}
{"id": "C112", "title": "normalise() in floating point", "statement": "For float32 samples that are not all equal normalise() returns finite float32 samples, none above 2^14 in absolute value, equal to those of the rounded arithmetic; no sum or square overflows and the standard deviation is not 0. For a constant series every sample of the result is NaN and no exception is raised.", "quantifier": "all finite float32 series of 1 to 2^25 samples", "why_tests_cant": "The samples may be as large as 3e38 or as small as 1e-45: their squares and their sum must neither overflow nor vanish.", "anchors": ["riptide/time_series.py:TimeSeries.normalise"]}
{"id": "C113", "title": "ffa_search on IEEE data", "statement": "ffa_search() without dereddening on float32 samples that are not all equal returns finite samples, periods and S/Ns, those of the rounded arithmetic. For a constant series it raises nothing and every S/N is NaN.", "quantifier": "all finite float32 series of up to 2^25 samples, all admissible search parameters", "why_tests_cant": "A constant file (a dead beam) passes silently through the search as NaNs.", "anchors": ["riptide/search.py:ffa_search", "riptide/ffautils.py:generate_width_trials"]}
{"id": "C114", "title": "Normalised data are float32", "statement": "The data of a TimeSeries are in float32 format, also after normalise().", "quantifier": "all time series, in place or not", "why_tests_cant": "The format depends on the promotion rules of the installed numpy.", "anchors": ["riptide/time_series.py:TimeSeries.normalise"]}
{"id": "C115", "title": "normalise in floating point", "statement": "On float32 samples of magnitude at most X and standard deviation s >= X 2^-20, normalise() returns float32 samples each equal to the exactly standardised sample z up to (abs(z)+1)(2^-23 + 2^-25 X/s); the mean of the result is 0 and its variance 1 up to 2 and 5 times that accuracy.", "quantifier": "all series of up to 2^25 samples, two of which differ, FMA or not", "why_tests_cant": "rounding errors over all inputs", "anchors": ["riptide/time_series.py:normalise"]}
{"id": "C116", "title": "ffa_search in floating point finds the signal", "statement": "ffa_search without dereddening in floating point, on data with a periodic pulse in range: at a trial next to the period, a boxcar wider than the pulse by the stated amount has at least the S/N of a boxcar with all the on-pulse flux in units of the standard deviation of the data, less an explicit bound on the effect of all rounding errors of normalise() and of the search.", "quantifier": "all series, parameters, FMA or not", "why_tests_cant": "rounding errors over all inputs and plans", "anchors": ["riptide/search.py:ffa_search", "riptide/cpp/periodogram.hpp", "riptide/time_series.py:normalise"]}
{"id": "C117", "title": "width trials in floating point", "statement": "generate_width_trials with rounded products terminates, is strictly increasing from 1, each width is followed by the integer part of max(w+1, fl(wtsp*w)), no width exceeds max(1, fl(ducy_max*nbins)), the next one would, and no width reaches nbins if ducy_max < 1.", "quantifier": "all nbins up to 2^52, ducy_max, wtsp", "why_tests_cant": "rounding of the products", "anchors": ["riptide/ffautils.py:generate_width_trials"]}
{"id": "C118", "title": "Clustering in floating point", "statement": "cluster1d with rounded differences of doubles yields exactly the friends-of-friends groups of one radius r' with r <= r' <= r (1 + 2^-52); with the radius r itself this is false: 1 and -2^-54 end in one group of radius 1.", "quantifier": "all lists of doubles, radii, argsort results", "why_tests_cant": "rounding at the radius", "anchors": ["riptide/clustering.py:cluster1d"]}
{"id": "C119", "title": "find_peaks in floating point", "statement": "With rounded arithmetic find_peaks returns, sorted by decreasing S/N, exactly one peak per width and friends-of-friends group of the trials above both thresholds, the brightest of its group, where the radius of a width is clrad/T up to rounding; period and duty cycle are the rounded quotients.", "quantifier": "all periodograms and parameters (threshold fit as oracle)", "why_tests_cant": "rounding, unbounded", "anchors": ["riptide/peak_detection.py:find_peaks", "riptide/peak_detection.py:find_peaks_single"]}
{"id": "C120", "title": "Segment statistics in floating point", "statement": "segment_stats with rounded arithmetic cuts the trials into the rounded-up rounded number of segments, fails as the exact one does, and its medians and deviations are within 2^-51 of the largest frequency, 2^-50 and 2^-48 of the largest S/N from the exact ones.", "quantifier": "all lists of at most 2^50 doubles", "why_tests_cant": "rounding error bounds", "anchors": ["riptide/peak_detection.py:segment_stats"]}
{"id": "C121", "title": "Dereddening leaves pulses alone", "statement": "The running median subtracted by deredden is equal to the constant level of the data at every sample, for both ways of computing it, whenever every window holds a majority of groups of samples at that level. This is so for a pulse train on a constant level whose pulses are short compared with the period and the window, and absent from the first and last group.", "quantifier": "all data, windows, minimum numbers of points and pulse trains (exact arithmetic)", "why_tests_cant": "the position of the pulses in the windows, the padding at the ends and the interpolation between groups vary with the data", "anchors": ["riptide/running_medians.py:fast_running_median", "riptide/time_series.py:TimeSeries.deredden"]}
{"id": "C122", "title": "rseek and the workers of the pipeline find pulses", "statement": "On data with pulses of any shape on a constant level, rseek returns and reports a peak, and a worker of the pipeline returns one for each range that contains the period, whose S/N is at least the matched filter response to the flux of the pulses in units of the standard deviation of the data, provided that this exceeds smin and the dynamic threshold at the trial just below the period and that the pulses are invisible to the running median. The frequency of this peak is linked to that trial by a chain of significant trials no further apart than the clustering radius.", "quantifier": "all data files, pulse trains, options and search ranges within them (exact arithmetic)", "why_tests_cant": "the whole chain of steps for unbounded data", "anchors": ["riptide/apps/rseek.py:run_program", "riptide/pipeline/worker_pool.py:WorkerPool.process_fname"]}
{"id": "C123", "title": "A run of the pipeline finds the pulses in its files", "statement": "In every run of Pipeline.process that returns, for each dispersion measure that was selected, if its file holds pulses of any shape on a constant level whose period is in one of the ranges and which satisfy the conditions of C122, then one of the clusters holds a peak found in this file with at least the sure S/N, the brightest peak of that cluster is at least as bright, and if it passes the filters and can be folded one of the candidates has its parameters.", "quantifier": "all configurations, sets of files, pulse trains and executions, including faults of the file system (exact arithmetic)", "why_tests_cant": "the whole pipeline with its parallel workers for unbounded data", "anchors": ["riptide/pipeline/pipeline.py:Pipeline.process", "riptide/pipeline/worker_pool.py:WorkerPool.process_fname_list"]}
{"id": "C124", "title": "Sums in any order", "statement": "The float results do not depend on an assumed order of addition: for every order in which the compiler (-fassociative-math) or numpy may add the terms of a sum, and whether or not a product is fused with its addition, there is a build of the model that computes that value, and every build computes such a value. The arrays returned by downsample over all builds are exactly those whose samples are sums of their terms in some order.", "quantifier": "all lists of terms, all builds, all series of up to 2^25 float32 samples and double factors", "why_tests_cant": "Compiled with -fassociative-math the code may add in any order; theorems about one order would not cover it.", "anchors": ["riptide/cpp/downsample.hpp:downsample", "setup.py:SAFE_FAST_MATH_FLAGS"]}
{"id": "C125", "title": "Dereddening stays finite in floating point", "statement": "On finite float samples of at most 2^90, deredden() takes the running median over width / tsamp, rounded to the nearest integer, samples. If the window fits (an odd number of samples below the size of the data, or at least twice min_points samples with more block means than min_points) the medians are finite doubles and the samples left after subtracting them are finite floats, those computed on real numbers with every operation rounded; otherwise ValueError is raised. ffa_search with dereddening then returns finite samples, periods and S/Ns only, whenever two of the dereddened samples differ.", "quantifier": "all series of up to 2^25 finite samples of at most 2^90, all builds (order of additions, fused products), all widths up to 2^51 samples, all contents of new arrays", "why_tests_cant": "Overflow and the choice between the two ways of taking medians depend on unbounded data and on rounded quotients.", "anchors": ["riptide/running_medians.py:fast_running_median", "riptide/time_series.py:TimeSeries.deredden", "riptide/search.py:ffa_search"]}
{"id": "C126", "title": "Rounding errors of dereddening", "statement": "On float samples of at most X the running medians computed by deredden() are within ((1 + 2^-24)^(f+2) - 1) X + 2^-148 of the running medians of the exact samples when they are taken over means of f samples, and equal to them when they are taken over samples; what is left of each sample after subtracting them is the exact difference within this error and a relative error of 2^-23.", "quantifier": "all series of up to 2^25 float samples, all builds (order of additions), all widths up to 2^51 samples and odd minpts whose window fits", "why_tests_cant": "An error bound for every input and every order of additions", "anchors": ["riptide/running_medians.py:fast_running_median", "riptide/running_medians.py:scrunch", "riptide/time_series.py:TimeSeries.deredden"]}
{"id": "C127", "title": "ffa_search with dereddening finds pulses in floating point", "statement": "ffa_search with dereddening, in floating point, on pulses of any shape above a constant level that are invisible to the running median, returns a periodogram with a trial just below the period whose S/N is at least the matched filter response to the flux of the pulses in units of the standard deviation of the dereddened samples (itself within the error of C126 of that of the data), less stated bounds on the rounding errors of dereddening, normalisation and search.", "quantifier": "all pulse trains, sample values, search ranges, builds and libm functions as accurate as in C106", "why_tests_cant": "The whole search in floating point for unbounded data", "anchors": ["riptide/search.py:ffa_search"]}
{"id": "C128", "title": "Infinities and NaNs in the data", "statement": "One infinity or NaN among the samples of a file makes every normalised sample NaN, however many good samples there are. deredden() accepts or refuses such data exactly as it does finite data and never leaves its buffers; ffa_search(), with dereddening or without, raises nothing on their account and returns NaN for every S/N; find_peaks() then hands numpy.polyfit() control points which are all NaN and, if that returns, finds no peak at any width. So a worker of the pipeline and rseek report nothing for the file (or raise an exception), however bright the pulsar in it.", "quantifier": "for all samples of which at least one is an infinity or a NaN, builds, orders of summation, fits, log and pow as in C111, ranges as in C113", "why_tests_cant": "A single bad sample silently blinds the search of a file: nothing in the loaders or the search checks for it.", "anchors": ["riptide/time_series.py:66-122", "riptide/search.py:66-82", "riptide/peak_detection.py:111-142", "riptide/pipeline/worker_pool.py:46-71"]}
{"id": "C129", "title": "The programs find pulses in floating point", "statement": "A worker of the pipeline, and rseek, in floating point, on pulses of any shape above a constant level that are invisible to the running median: if the run returns and the lower bound of C127 on the S/N exceeds smin and the fitted threshold at the trial next to the period, the peaks returned contain one at least that bright, linked to that trial by a chain of significant frequencies no further apart than the clustering radius (up to 2^-52). The table of rseek is, in floating point, one brightest peak per group of friends of friends, sorted by S/N.", "quantifier": "all pulse trains, sample values, search ranges, builds, fits, sorting permutations and libm functions as accurate as in C106", "why_tests_cant": "Detection through every stage in floating point for unbounded data", "anchors": ["riptide/apps/rseek.py:84-130", "riptide/pipeline/worker_pool.py:46-71", "riptide/search.py:10-82", "riptide/peak_detection.py:111-222"]}
{"id": "C130", "title": "Folding in floating point", "statement": "fold() in floating point: every element of the profile or of the sub-integrations is the sum of the samples that fall in its phase bin, each with its fraction of overlap, to within a relative error growing as (2 + periods + samples per bin) rounding errors of the sum of absolute values, plus an absolute term from the resolution of float32. When the period is longer than bins samples by 2^-49, shorter than the data by as much, and the sub-integrations no more than the periods, fold() returns.", "quantifier": "all data of at most 2^25 float32 samples, sampling times at least 2^-200, periods, bins, subints, builds and orders of summation", "why_tests_cant": "Rounding errors accumulate with the length of the data; an error of one bin at the boundaries would only show for particular ratios of period to sampling time", "anchors": ["riptide/folding.py:6-81", "riptide/cpp/downsample.hpp:38-85"]}
{"id": "C131", "title": "A run keeps every peak found, in any arithmetic", "statement": "Whatever the arithmetic (exact, rounded, or IEEE with infinities and NaNs), when Pipeline.process returns: every DM selected has been searched, the peaks are those that the workers returned, all of them and no others; the clusters share the peaks out; every cluster has a brightest peak; every candidate comes from a cluster that passes the filters; and if no number of candidates is set, every cluster that passes becomes a candidate unless folding it raises. If the workers, the clustering and the plots return, so does the run.", "quantifier": "all arithmetics, files, configurations, schedules of the pool and executions that return", "why_tests_cant": "The schedules of the pool and the comparisons with NaN, which are neither less nor greater, cannot be enumerated by tests", "anchors": ["riptide/pipeline/pipeline.py:150-394", "riptide/pipeline/worker_pool.py:27-52", "riptide/clustering.py:6-37"]}
{"id": "C132", "title": "A run of the pipeline finds pulses in floating point", "statement": "When Pipeline.process returns in floating point and the file of a DM that it searched holds pulses for which a range's lower bound on the S/N (C127) exceeds the thresholds, some cluster holds a peak of that DM at least that bright, linked to the period of the pulses by significant trials; its brightest peak is at least as bright. If the cluster passes the filters, no maximum number of candidates is set and the period fits the file with a margin of 2^-49, the cluster is a candidate with all its peaks.", "quantifier": "all data, configurations, schedules of the pool, builds, orders of summation, and libm with accurate log and pow", "why_tests_cant": "A pulsar lost by rounding in one of the many steps from file to candidate would go unnoticed in tests with a few strong synthetic signals", "anchors": ["riptide/pipeline/pipeline.py:Pipeline.process", "riptide/pipeline/worker_pool.py:WorkerPool.process_fname", "riptide/candidate.py:Candidate.from_pipeline_output"]}
{"id": "C133", "title": "benchmark_ffa2", "statement": "benchmark_ffa2(rows, cols, loops) transforms blocks of the shape given without touching memory outside of them and returns the elapsed time divided by the number of loops. Outside of its bounds: a product of rows and columns that wraps around 64 bits lets the first transform write outside of the arrays, and no rows recurse forever.", "quantifier": "all shapes with 3*rows*cols < 2^64, loops below 2^53, contents of fresh memory, builds", "why_tests_cant": "The shapes at which the product overflows need more memory than a test machine has", "anchors": ["riptide/cpp/python_bindings.cpp:benchmark_ffa2", "riptide/cpp/transforms.hpp:transform"]}
{"id": "C134", "title": "Trial periods in floating point", "statement": "In binary64 arithmetic the periodogram returns, all its trial periods are between period_min and period_max up to a relative 2^-48, and no later trial is shorter than an earlier one by more than a relative 2^-46. The strict increase of C28 does not survive rounding: there are arguments for which two consecutive trial periods decrease.", "quantifier": "all data, arguments with period_max above period_min by a relative 2^-40, builds, and libm with accurate log and pow", "why_tests_cant": "The order fails for rare arguments and by one unit in the last place", "anchors": ["riptide/cpp/periodogram.hpp:periodogram", "riptide/cpp/periodogram.hpp:ceilshift"]}
{"id": "C135", "title": "Command line of the pipeline", "statement": "The parser accepts exactly the command lines with a configuration file, an output directory that exists (the current one by default), a log level among DEBUG, INFO and WARNING and at least one file, and passes on what was given; the exit status is 2 otherwise, and else 0 or 1 as the run returns or raises. A run is begun only with an existing directory and at least one file. A given output directory does not help when the current directory has been removed.", "quantifier": "all options, file systems and outcomes of the run", "why_tests_cant": "Depends on the state of the file system; most tests call run_program directly", "anchors": ["riptide/pipeline/pipeline.py:get_parser", "riptide/pipeline/pipeline.py:main"]}
{"id": "C136", "title": "A worker returns in floating point", "statement": "In floating point a worker returns the peaks of a file, without exception, if its metadata are valid and give a DM, the running median window suits the data, numpy.polyfit() does not fail, and every range of periods is well within the data, has some room between its limits, at least four steps of frequency, and steps of at most a quarter of a segment. In such a range the number of trials is at least half the span in frequency over the step, the first and last trials are within two steps of the limits of the range, and the segments are between 1 and the number of trials.", "quantifier": "all builds, files, configurations and ranges of parameters with double far from its limits", "why_tests_cant": "Whether a range has more segments than trials depends on the rounding of its first and last trial; no test approaches the limit", "anchors": ["riptide/pipeline/worker_pool.py:46-71", "riptide/peak_detection.py:37-84", "riptide/search.py:10-160", "riptide/cpp/periodogram.hpp:14-150"]}
{"id": "C137", "title": "A run of the pipeline returns in floating point", "statement": "In floating point a run of Pipeline.process() whose files and configuration pass prepare(), whose files the workers can search (C136), with a band of positive frequencies and candidates that can be written, returns and raises nothing. Every execution without system failures does, with the same peaks, clusters and candidates, whatever the schedule of the workers.", "quantifier": "all data, configurations, file systems, schedules, roundings and libm functions within the accuracy of C127", "why_tests_cant": "No rounding may abort a run that took hours; in exact arithmetic this is C80.", "anchors": ["riptide/pipeline/pipeline.py:135-394", "riptide/pipeline/worker_pool.py:17-71", "riptide/pipeline/harmonic_testing.py:9-155", "riptide/folding.py:6-81"]}
{"id": "C138", "title": "The selection of DMs returns in any arithmetic", "statement": "Whatever the arithmetic, select_dms() ends: with ValueError if no trial DM lies between the limits, otherwise with a non-empty selection of those that do.", "quantifier": "all trial DMs, limits and band parameters, any arithmetic (also with NaN)", "why_tests_cant": "The loop goes to an index computed from rounded gaps and must advance.", "anchors": ["riptide/pipeline/dmiter.py:15-80"]}
{"id": "C139", "title": "The selected DMs cover the range in floating point", "statement": "In floating point, from distinct double trial DMs, select_dms() returns an increasing selection of the trials in the range, with the smallest and the largest of them, such that every DM tolerated by a trial in the range is tolerated by a selected one up to 2^-26 of the tolerance plus 2^-52 of the DM; and no step between two selected trials could have gone further without leaving a gap, up to the same rounding.", "quantifier": "all double trial DMs, limits, bands with 17/16 fmin <= fmax <= 4 fmin and up to 16384 channels, widths, roundings", "why_tests_cant": "The tolerance is a quotient of differences of nearly equal inverse squares; cancellation could open gaps of any size.", "anchors": ["riptide/pipeline/dmiter.py:15-80"]}
{"id": "C140", "title": "The DM iterator in floating point", "statement": "In floating point, DMIterator raises ValueError when no file has a DM in the range asked for; otherwise it selects DMs of the files inside the range, increasing, covering what any file of the range would cover up to rounding, and searches each selected DM in the last file with that DM, once, in order, in full chunks but for the last.", "quantifier": "all lists of files at one position, band settings, DM limits, bands with 17/16 fmin <= fmax <= 4 fmin and up to 16384 channels, widths, chunk sizes, roundings", "why_tests_cant": "Whether a file falls in the DM range or two files share a band is decided by rounded numbers and exact comparisons.", "anchors": ["riptide/pipeline/dmiter.py:84-249"]}
{"id": "C141", "title": "When prepare() and the whole run return in floating point", "statement": "In floating point, Pipeline.prepare() returns if the files point at one position, share a band or have one configured, one has a DM in the range asked for, and the search ranges are contiguous with bins no shorter than the samples; when it returns the ranges are so. With a band of positive frequencies and files the workers can search, the whole run returns, with the same products for every schedule.", "quantifier": "all configurations, file lists, contents, schedules, roundings", "why_tests_cant": "Validation compares rounded products of sampling times and bin numbers; a run crosses every stage of the pipeline.", "anchors": ["riptide/pipeline/pipeline.py:135-175", "riptide/pipeline/config_validation.py:117-168", "riptide/pipeline/dmiter.py:84-249"]}
{"id": "C142", "title": "Trial frequencies and periods of a transform in floating point", "statement": "In floating point, ffafreq() and ffaprd() return one frequency and one period per row of the transform, within a relative error of 40 and 43 times 2^-53 of the frequency of the row and its inverse; up to 2^46 samples they are strictly decreasing and strictly increasing, so no two rows get the same one.", "quantifier": "all numbers of samples below 2^53, base periods, sampling times between 2^-500 and 2^500, roundings", "why_tests_cant": "Consecutive trials differ by one part in the number of samples; rounding could merge or swap them.", "anchors": ["riptide/libffa.py:129-191"]}
{"id": "C143", "title": "Harmonic testing in floating point", "statement": "In floating point, for signals of usual frequencies, duty cycles and S/N, htest() returns a fraction in lowest terms as close to the ratio of the frequencies as any of allowed denominator up to 2^-51 of the ratio, and decides by comparing with the limits the phase, DM and S/N distances computed within stated rounding errors (13, 134 and 9 units of 2^-53 of the natural scale of each).", "quantifier": "all pairs of signals with frequencies, duty cycles, S/N, observation times and bands between 2^-100 and 2^100, frequency ratios and denominators up to 2^20, limits, roundings", "why_tests_cant": "The phase distance is a difference of nearly equal frequencies multiplied by the observation time.", "anchors": ["riptide/pipeline/harmonic_testing.py:9-155"]}
{"id": "C144", "title": "Validated ranges make candidates foldable in floating point", "statement": "In floating point, once prepare() has accepted the ranges, a cluster whose brightest peak has a period inside one of the ranges, not within a relative 2^-48 of the smallest period of a range holding it, gives a candidate, whatever the data, provided the period fits in the data and the number of sub-integrations times the period is not within rounding of their length.", "quantifier": "all configurations accepted by prepare(), files, clusters, periods, roundings", "why_tests_cant": "The margin by which the rounded comparison of validate_range() may miss the one made by fold() is a few units of 2^-53.", "anchors": ["riptide/pipeline/config_validation.py:117-168", "riptide/pipeline/pipeline.py:292-333", "riptide/candidate.py:74-98"]}
{"id": "C145", "title": "SIGPROC coordinates in floating point", "statement": "In floating point, parse_float_coord() of a double written sign * (hh mm ss.s), with minutes and seconds up to 60, splits hours, minutes and seconds exactly and returns sign * (hh + mm/60 + ss.s/3600) within a relative error of 6 * 2^-53.", "quantifier": "all signs, hours below 2^30, minutes, seconds (zero or at least 2^-900) whose sum is a double", "why_tests_cant": "The splitting is exact only because the remainders can be represented; a coordinate off by a minute near a multiple would go unnoticed.", "anchors": ["riptide/reading/sigproc.py:148-156"]}
{"id": "C146", "title": "Harmonic flagging, candidate filters and range lookup in floating point", "statement": "In floating point, harmonic flagging, the candidate filters and the lookup of a search range give what exact arithmetic gives for the same values: they compare doubles and compute nothing; what flagging and the filters do is as described for exact arithmetic.", "quantifier": "all lists of clusters, harmonic tests, filters, ranges, periods, roundings", "why_tests_cant": "A sort or comparison made on a recomputed or rounded key would agree on almost all inputs.", "anchors": ["riptide/pipeline/pipeline.py:86-133", "riptide/pipeline/pipeline.py:218-289"]}
