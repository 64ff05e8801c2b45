# Formal model of riptide in Rocq (Coq 8.16.1)

The subject is `v-morello/riptide` (sources in `/repo`, never built or run here). This
file says what is modelled, how each property of `properties.jsonl` is stated and proved,
and what is trusted.

## 1. Layout

`rocq/theories/` (logical root `Verif`):

| directory | content |
|---|---|
| `Base/`   | result type (`Ok`, Python/C++ exception, undefined behaviour, non-termination), C buffers, arithmetic record `num` and its instances |
| `Model/`  | transcription of the code, function by function, each definition citing file and lines |
| `Spec/`   | small independent vocabulary used by the theorem statements (sums, rotations, medians, overlap, matched filters, file formats, schemas, ...) |
| `Proof/`  | lemmas and proofs |
| `Props/`  | one file per area: the theorems named in `MANIFEST.json`, an `Example` showing their hypotheses can be met by a non-trivial case, and `Print Assumptions` |

`seeded/LOG.jsonl` records the wrong programs tried against the theorems.

## 2. Modelling decisions

* **Failures are values.** `res A = Ok a | Err e | UB | Loop`. `Err` is a raised exception,
  `UB` is undefined behaviour in C++ (out-of-bounds access, modulo by zero, overlapping
  `__restrict__` ranges, dereferencing an end iterator), `Loop` is exhausted fuel, used only
  for recursions that the C++ does not bound. A theorem "`f x = Ok y`" therefore includes
  memory safety and termination.
* **C++ buffers** are lists with checked reads and writes; loops are explicit. Output and
  scratch buffers start with arbitrary contents, universally quantified.
* **Numbers.** Code using floating point is written once against a record `num` (operations
  of `double`, operations of `float`, conversion between them, comparisons, floor/ceil). Three
  instances are used: exact reals (`numR`; the algebraic theorems), rounded reals (`numF`; IEEE
  binary32/binary64 round-to-nearest-even without overflow, built on Flocq's `round`; the
  float-level theorems), and IEEE data proper with
  infinities, NaNs and overflow (`numI`, on Coq's executable `SpecFloat`; `numSF` is its instance
  with separate multiply-add, used for concrete witnesses computed by the kernel). C110 proves
  that `numI` computes the operations of `numF` until something overflows, C111 that nothing
  does in the search, so that the statements over `numF` hold of IEEE data. Where a theorem
  uses only comparisons it is proved for every `num`. The FFA and rotation kernels are proved
  over an arbitrary element type and an arbitrary addition. Division by zero over `numR` gives
  0 and stands for NaN or infinity. With `-ffinite-math-only` the compiler may assume that no
  infinity or NaN occurs; C111 is what justifies this for the search (C113 with normalise(); a constant
  series is the exception, there C113 gives the IEEE result, NaN, which such a compiler need not honour).
* **Python objects.** Where identity matters (time series sharing arrays, peaks and clusters
  shared between lists, flags set on clusters) the model has a heap or positions; elsewhere
  objects are values.
* **Processes.** `multiprocessing.Pool.map` is a transition system; theorems quantify over all
  its executions. The file system is shared state; writes arrive in pieces, writers may fail
  or be killed at any point.
* **External calls** are parameters; theorems hold for every behaviour of them unless a
  hypothesis says so. They are: numpy's `polyfit` (`fit`), `argsort` (any sorting permutation),
  uninitialised memory (`np.empty`), C's `log` and `pow` (`flog`, `fpow`), reading a file,
  `os.path.realpath`, `float()` of a text, astropy's `SkyCoord` and galactic coordinates,
  `yaml.safe_load`, `Fraction(x)` of a float (`as_fraction`), `|sin b|` of a galactic latitude (`abs_sin`).
* **numpy** is assumed to be version 2 where it matters (a float32 array minus an np.float64 scalar is
  a float64 array).
* **numpy and library primitives** (median, interp, reshape, mean, sort, base64, the part of
  the `schema` package used, `Fraction.limit_denominator`, `str.splitlines`, `str.strip`,
  `int()`, struct, UTF-8 decoding) are modelled by their documented semantics.

## 3. Trusted base

* Coq's kernel (coqc, coqchk), including its `vm_compute`.
* The axioms printed by `Print Assumptions` in the `Props` files. Only standard-library ones occur:
  `ClassicalDedekindReals.sig_forall_dec`, `ClassicalDedekindReals.sig_not_dec`,
  `FunctionalExtensionality.functional_extensionality_dep` (all three through `Reals`), and
  `Classical_Prop.classic` (through Flocq / Coquelicot). Section 6 lists them per theorem.
* The transcription from C++/Python to Gallina, which is by hand; every definition cites lines.
* Compiler and library semantics. The C++ flags of `setup.py` include `-fassociative-math` and
  `-march=native`, and numpy adds arrays pairwise or with vector instructions, so that neither the
  order of a sum nor the use of fused operations is known. `numF` and `numI` take a parameter
  `build` that says whether fused multiply-add is used and in what order the terms of each sum
  (`o_sum`: the inner loop of downsample, numpy's `mean`, `var` and `sum`) are added; theorems hold
  for every build. C124 proves that the builds give every order and nothing else. Expressions
  outside of loops and the running sums (whose partial sums are all needed) are evaluated as written.

## 4. Not modelled

How plots are drawn (what is drawn for a candidate is modelled), logging (except that formatting a
DM of None raises), timing decorators, how argparse splits the words of the command line (what the parsers accept is modelled), console output, pandas formatting of tables, YAML text, JSON text (the tree is
modelled), astropy coordinate mathematics, how numpy draws random numbers (the values drawn are a parameter), multi-threading limits
(`threadpoolctl`), NaN/infinity in input files (except for what C128 says of them), size_t overflow of `rows * cols` (except in benchmark_ffa2, C133), memory exhaustion
(including the variable-length stack array in `snr1`), non-ASCII text in `.inf` files.

### What each model file covers

| file | code | simplifications |
|---|---|---|
| Kernels | cpp/kernels.hpp and bindings | none beyond section 2 |
| Transforms | cpp/block.hpp, transforms.hpp, binding of ffa2 | float to size_t conversion truncates (`to_size`), values out of range are UB |
| Downsample | cpp/downsample.hpp and binding | |
| Snr | cpp/snr.hpp, bindings, libffa.boxcar_snr | |
| RunMed | cpp/running_median.hpp, libcpp.running_median | any element type with a comparison |
| FastRmed | running_medians.py | |
| Periodogram | cpp/periodogram.hpp and binding | log and pow are parameters |
| Libffa | libffa.py (ffa1, ffafreq, ffaprd, generate_width_trials), ffautils.py | |
| Metadata | metadata.py | validation of reserved keys; values are immutable |
| TimeSeries | time_series.py objects | heap of arrays; generation and loading are elsewhere |
| Folding | folding.py, TimeSeries.fold | |
| Search | search.py | |
| Cluster | clustering.py, sorting functions | |
| Peaks | peak_detection.py | polynomial fit is a parameter |
| Harmonic | pipeline/harmonic_testing.py, Fraction.limit_denominator | exact value of a float is a parameter |
| DmIter | pipeline/dmiter.py | abs(sin b) is a parameter; cap is infinite when it is 0 |
| Pipeline | pipeline/pipeline.py, peak_cluster.py, Candidate constructor | object identity by position |
| Ranges | range checks of config_validation.py, grouping of rseek.py | |
| Plot | Candidate.profile, dm_curve, plot, savefig and plot_subints, plot_profile, plot_table, plot_dm_curve as the data handed to matplotlib; the PNG is a function of these | axes, fonts, colours, layout |
| Rseek | the other functions of apps/rseek.py; ffa_search and fast_running_median for int and float arguments | layout of the printed table |
| Config | schemas of config_validation.py and the schema library they use | parsed YAML as input |
| Pool | multiprocessing.Pool.map, worker_pool.py, Pipeline.search | tasks are sequences of atomic actions; fault transitions in the writers' system |
| Writer | CandidateWriter, save_products | paths to contents; contents arrive in pieces |
| Sigproc | reading/sigproc.py, Metadata/TimeSeries.from_sigproc | little endian; file does not change while read |
| Presto | reading/presto.py, Metadata/TimeSeries.from_presto_inf | ASCII text |
| Json | serialization.py, to_dict/from_dict methods | tree, not text |
| Worker | worker_pool.py: one worker, one file | time series as values (justified by `worker_series_objects`) |
| Process | Pipeline.process, loaders of both formats, tables saved | one call per Pipeline object |
| Main | Pipeline.from_yaml_config and run_program; how the entries of the configuration reach the functions called, with their default arguments | all entries are read at the start, not when first used (a validated configuration has them all); the configuration contains no dates; bins and counts below 2^64; a finite polydeg |
| Signal | libffa.generate_signal, TimeSeries.generate, from_numpy_array, from_binary, from_npy_file | log, sin, cos, exp, power, pi, the normal deviates, file contents and numpy.load are parameters; a period of 0 excluded |
| PgPlot | Periodogram.freqs and plot as the data handed to matplotlib | fonts, layout |
| Benchmark | binding of benchmark_ffa2 | the elapsed time is a parameter |
| Cli | get_parser, main of pipeline.py | --help and --version; the words of the command line are already split into options |


## 5. Properties

For each: model -> statement -> proof method. Properties found false of the code are refuted
by a theorem `..._refuted`, and what remains true is proved beside it.

| id | modelled in | theorems in Props/ | approach |
|---|---|---|---|
| C01 C02 | Kernels | Kernels | loops over buffers, any element type and addition; loop invariant |
| C03 C04 | Kernels | Kernels | invariant of the accumulation loop, induction on wraps; C04 refuted for nsum > size |
| C05 | Transforms | Ffa | buffer-level transform with ping-pong scratch, strong induction on rows, frame conditions |
| C06-C09 | Transforms | Ffa | existence of the shift path by strong induction on rows; algebra over R from it |
| C10 C11 | Transforms, numF, numSF | Ffa | Flocq error analysis of `size_t(k*s + 0.5f)`, by parity of m and s; witness computed in binary32 |
| C12 | Transforms | Ffa | standard model of rounding on the binary summation tree |
| C13 C14 C23 | Libffa | Libffa | direct, real analysis; width trials by well-founded recursion |
| C15-C18 | Downsample | Downsample, Noise | loop = overlap sum over R; binary64 bounds with Flocq; variance of downsampled white noise from overlap weights |
| C19-C22 C81 | Snr | Snr, Response | prefix sums to window sums, max over phases, Cauchy-Schwarz on indicator windows |
| C24 C25 | RunMed | RunMed | quickselect partition invariant; ring buffer refinement to padded window |
| C26 | FastRmed | FastRmed | interpolation bounds |
| C27-C31 | Periodogram | Periodogram, PeriodogramFloat | nested-loop invariants, real analysis (ln), monotone rounding |
| C32 C62 C63 | Search | Search | composition of downsampling, transform and S/N |
| C33-C35 | TimeSeries, Metadata | TimeSeries | heap of buffers with aliasing; invariant over histories |
| C36-C38 C61 | Folding | Folding | exact arithmetic theorem, binary64 refutation |
| C39 C59 C60 | Cluster, Ranges | Cluster, Pipeline, Rseek | breaks in sorted order = connected components |
| C40 C64 C65 | Peaks | Peaks | quantiles and clusters against the specification of peaks |
| C41-C44 C75 | DmIter | DmIter | greedy invariants and exchange argument |
| C45 C47 C48 C51 C67 | Pipeline, Pool | Pipeline, Build, Pool | invariants over nested loops with mutable flags; every execution of the pool |
| C46 C66 | Harmonic | Harmonic | Stern-Brocot / continued fraction argument for limit_denominator |
| C49 C50 | Ranges | Ranges | order arguments |
| C52 C68 C78 | Writer | Writer, Run | decimal printing injective; file system map, interleavings and prefixes (crash) |
| C53 C54 | Json | Json | bit-level round trip; structural induction |
| C55 C56 C70 | Sigproc | Sigproc | byte parser; printer/parser round trip by induction on attributes |
| C57 C71 | Presto | Presto | line parser; induction on on/off pairs |
| C58 | Config | Config | schema interpreter vs. inductive specification |
| C69 | Pool | Pool | measure decreasing along executions |
| C72-C74 | Worker | Worker | composition of the above for one file |
| C76 C77 C79 C80 | Process | Process, Run | composition for a whole run; products as a function of the multiset of peaks |
| C82 | Process | Loaders | inversion of the loaders |
| C85-C88 | Plot | Plot | insertion into a sorted curve; inversion of the plot functions; a run whose candidates cannot be plotted |
| C83 C84 | Rseek | RseekRun, Rseek | composition of loader, search and grouping; case analysis on the Python type of an argument |
| C89-C93 | MainSpec, ConfigSpec | Main | inversion of the dictionaries of the validated configuration; composition with the theorems on runs; no trial can exist |
| C94-C97 | Pulse | Signal | trigonometric identities; expectation as a positive linear functional |
| C98 | PgPlot | PgPlot | maximum of a list |
| C99-C101 | Pulse, Boxcar, Overlap, Noise | Detect | the S/N is a linear functional of the samples; bound on the drift of the phase along a row |
| C102 | Boxcar, FfaSpec | FfaSnr | each row of the output is a sum of rotated input rows |
| C103 C104 | Boxcar, Sums | SnrFloat | forward error analysis: relative errors of products, quotients and square roots; the double accumulator has an error below one single precision unit |
| C105 | Overlap, Sums | DownsampleFloat | the weights are exact in double precision; variation of the weights with the ends of the interval; recursive summation |
| C106 | Boxcar, Noise, Overlap, FfaSpec, Sums | SearchFloat, Periodogram | the specification of one run of the search is generic in the arithmetic; the best response is a Lipschitz function of the profile; error of the additions of the transform, of the downsampling and of the noise |
| C107 C108 | Libm, Pulse, Boxcar, Noise, Overlap, Sums | Detect, CoverageFloat, SearchFloat | relative errors of the cycle count, the factors, the bounds on bins and rows; the drift of the signal through the rows stays within 1/4 bin of the range of a row that is evaluated, so that the geometric argument of C99 applies to the exact profile of C106 |
| C109 | - | Rseek | case analysis of the options |
| C110 | Ieee | Ieee | Flocq's correctness theorems for its binary floats, carried over to the functions of Coq's SpecFloat; the fused multiply-add is a normalisation of the exact value |
| C111 | Ieee, Noise, Sums | Ieee, KernelsIeee, DownsampleIeee, SearchIeee, Periodogram | simulation: every operation of the search on IEEE data is that on numbers because its operands are bounded by powers of 2; the additions of the transform and of the prefix sums are bounded by the number of terms, which is below 2^24 and 2^53 |
| C112 C114 | Ieee | NormIeee | the sum of n numbers of size 2^k stays below n 2^k; two different floats are at least 2^-149 apart and one of them is half of that from the mean, whose square is a normal double; a sample is at most sqrt(n) standard deviations from the mean. C114: computation |
| C113 | Ieee, Noise | NormIeee, WidthsIeee, NanIeee, SearchIeee | C112 and C111; the trial widths stay below bins_min because ducy_max * bins_min is rounded to less than bins_min; NaNs pass through every operation from the sample to the S/N |
| C115 C116 | Props.NormFloat (standard, norm_accuracy), Props.Detect (flux, boxcar_response) | Proof.NormFloat | error of the rounded mean and variance relative to the exact ones, then of the quotient; the response of the rounded series is compared with that of the exact one |
| C117 | Spec of C23 with rounded products | Proof.WidthsFloat, Proof.WidthsIeee | induction on the loop |
| C118 | Spec.Friends | Proof.ClusterFloat, Proof.Cluster | the rounded differences at most r are the exact differences at most some r', since rounding is monotone; then C39 |
| C119 C120 | Spec.Friends, Spec.Order, Props.Peaks (is_quantile, selected) | Proof.PeaksFloat, Props.Peaks | as C40 and C64 with the rounding errors of each quotient and difference |
| C121 | Props.Deredden (mostly_quiet, groups_of), Props.Worker (median_of) | Props.Deredden | a value held by the majority is the median; the groups touched by pulses in a window are counted turn by turn |
| C122 | Props.EndToEnd (pulse_train, median_blind, sure_snr, chain), Props.Detect (nearest_trial) | Props.EndToEnd | C121 shows that preparing the data is an affine map, then C99 and C40; the example runs rseek on a file of 10000 samples |
| C123 | Props.EndToEnd (pulse_train, median_blind, sure_snr, chain), Props.Process (selection, first_brightest, passes) | Props.ProcessDetect | C122 for the worker of each selected file, then C84 for the clusters, the filters and the candidates; the example is a run on one file of 10000 samples |
| C124 | SumOrder | SumOrder, DownsampleFloat | each step of the model is a step of the relation; conversely the positions of the terms added at each step give the build, by induction on the order |
| C125 | Ieee, Props.DereddenIeee (window_fits) | RunMedRel, DereddenIeee, DereddenFloat | the running median only compares and copies, so related data give related medians; scrunch, interp and round by bounds on each operation |
| C126 | Props.Worker (median_of), Props.DereddenIeee (window_fits), Props.DereddenError (median_accuracy) | DereddenError, DownsampleFloat (sum_near) | medians of lists within d of each other are within d; errors of means and of interpolation bounded operation by operation |
| C127 | Props.Deredden (mostly_quiet), Props.Detect (pulsed, flux, boxcar_response), Spec.Noise | Props.DereddenDetect | C121 and C126 for the dereddened samples, then C116; the standard deviation is 1-Lipschitz by Cauchy-Schwarz |
| C128 | Ieee | NotFinite, NanIeee | infinities and NaNs pass through every sum in any order; quickselect is total for any comparison; all-NaN search as in C113 |
| C129 | Spec.Friends, Props.Detect, Props.EndToEndFloat (sure_snr_rounded, chain_rounded) | Props.EndToEndFloat, ClusterFloat | C127 for the periodogram, C119 for the peaks, friends-of-friends with a radius widened by 2^-52 |
| C130 | Spec.Overlap, Props.Folding (binned), Props.FoldFloat (cell, growth, cell_floor) | DownsampleFloat (near, sum_near), Props.DownsampleFloat | C105 for both downsamplings, relative errors of sums of many terms as powers of 1 + 2^-24 |
| C131 | Proof.RunKeeps (passes_any, candidate_from, reloaded) | RunKeeps, Pool | insertion sort and slices keep elements whatever the comparison answers; pool_map_sound for the workers |
| C132 | Props.Detect, Props.EndToEndFloat (sure_snr_rounded, chain_rounded), Props.RunFloat (last_of, first_brightest_of, can_fold) | Props.RunFloat | C131 for the run, C129 for the worker, C130 for folding |
| C133 | Props.Benchmark | Transforms, Index | transform_spec for each round of the loop; computation for the two refutations |
| C134 | Spec.Libm, Props.DetectFloat (float_search) | TrialsFloat, CoverageFloat | relative errors of the plan (C127) bound each trial; the counterexample is computed rounding by rounding with `rnd64_eval` |
| C135 | Props.Cli (wellformed) | Props.Cli | case analysis |
| C136 | Spec.Libm, Props.DetectFloat (float_search), Props.WorkerFloat (segments_fit_rounded) | CoverageFloat, TrialsFloat | every frequency of the range is next to a trial (C127), so their number is at least the span over the step; the first and last trials by the order of C134 |
| C137 | Props.RunTotal (searchable_rounded), Props.WorkerFloat (segments_fit_rounded) | Proof.RunTotal, RunKeeps | each step after the search is shown to return in any arithmetic given its elementary parts (Proof.RunTotal); those parts in floating point: the harmonic test, folding, the median; uniqueness of the result from the pool theorem (C79) |
| C138 | – | Proof.RunTotal | the next index is at least one further |
| C139 | Spec.Smearing, Props.DmIter (in_range) | Proof.RadiusFloat | relative error of the radius through the two cancelling differences of inverse squares (2^-28); a rounded difference of doubles has the sign of the exact one; greedy steps in any arithmetic, then the exact monotonicity of C41 |
| C140 | Props.DmIterFloat (range_rounded, band_rounded, same_position, last_file) | Proof.RadiusFloat, Props.DmFloat | the exact proofs of C40 to C44 with the order of the doubles; the constructor reduces to the selection, then C139 |
| C141 | Props.PrepareFloat (adjacent, bins_resolved), Props.DmIterFloat | Props.RunTotal | totality of each stage of prepare(), monotone rounding for the largest sampling time, then C137 |
| C142 | Props.FreqFloat (the frequency of a row, inline) | Proof.RadiusFloat (relative errors) | relative error through each operation; the difference loses at most a factor 3 since the drift is below half of the frequency; consecutive rows are at least 2^-46 apart |
| C143 | Props.HarmonicFloat (phase_distance, dm_distance, snr_distance, near_best) | Proof.RadiusFloat, Proof.Harmonic | relative errors through products, quotients, square roots and minima; absolute errors relative to a bound through the cancelling differences; best approximation of the rounded ratio |
| C144 | hypotheses of the theorem (periods in a range, margins) | Props.PrepareFloat, Props.RunFloat, Proof.RadiusFloat | the rounded comparison of validate_range bounds the period of the range; the margin on the period absorbs the rounding of the product and of the quotient made by fold |
| C145 | statement of the theorem | Proof.RadiusFloat, Proof.ClusterFloat | the floor of a rounded quotient far from the next integer; remainders representable by Sterbenz; relative errors through sums of nonnegative terms |
| C146 | Proof.Pipeline.first_brightest, Props.Pipeline.passes, Props.SelectFloat (peakR, clusterR, filtersR, rangeR) | Props.Pipeline | the functions commute with reading the doubles as reals, function by function; then C45 and C47 |

## 6. Assumptions per theorem

As printed by `Print Assumptions`. Abbreviations: F = `FunctionalExtensionality.functional_extensionality_dep`, D = `ClassicalDedekindReals.sig_forall_dec`, N = `ClassicalDedekindReals.sig_not_dec`, C = `Classical_Prop.classic`.

**none (closed under the global context)**

* Props/Benchmark: `benchmark_ffa2_overflow_refuted`, `benchmark_ffa2_no_rows_refuted`
* Props/Cli: `parse_args_correct`, `cli_status`, `cli_cwd_refuted`
* Props/Config: `config_validation_exact`, `config_validation_idempotent`, `config_ranges_readable`, `config_subints_null_refuted`, `config_blank_find_peaks_refuted`, `config_no_ranges_refuted`, `config_bool_int_refuted`, `config_even_minpts_refuted`, `config_inverted_range_refuted`, `config_infinite_period_refuted`
* Props/Ffa: `ffa2_no_rows_refuted`, `ffa2_no_columns_refuted`, `ffa2_huge_refuted`
* Props/Folding: `fold_rows_refuted`, `fold_whole_length_refuted`
* Props/Json: `base64_roundtrip`, `base64_correct`, `base64_shape`, `json_roundtrip`, `json_roundtrip_exact`, `json_reload_stable`, `json_unknown_object`, `json_metadata_refuted`, `json_tuple_refuted`, `json_type_key_refuted`, `json_dataframe_dtypes_refuted`, `json_read_only_refuted`
* Props/Kernels: `rollback_rotates`, `rollback_empty_refuted`, `fused_rollback_add_rotates`, `py_circular_prefix_sum_refuted`
* Props/Libffa: `ffa1_checks`
* Props/Main: `config_read`, `config_means_unique`
* Props/NormIeee: `normalise_inplace_float32_refuted`
* Props/NotFinite: `normalise_not_finite`, `find_peaks_nan`
* Props/Pool: `pool_map_correct`, `pool_map_sound`, `pool_map_terminates`, `pool_map_returns`
* Props/Presto: `inf2dict_radio`, `inf2dict_high_energy`, `inf2dict_other_band`, `inf2dict_fake`, `data_fname_inf`, `data_fname_same_directory_refuted`
* Props/RunKeeps: `run_keeps_peaks`, `run_returns`
* Props/RunMed: `nth_element_selects`, `running_median_correct`
* Props/RunTotal: `run_always`, `select_dms_total`
* Props/Signal: `series_narrow`
* Props/Sigproc: `sigproc_header_roundtrip`, `sigproc_header_terminates`, `sigproc_header_accepts`, `sigproc_header_complete`, `sigproc_header_strict_refuted`
* Props/Snr: `snr_checks`, `snr2_checks`, `snr_no_widths_refuted`
* Props/SumOrder: `sum_any_order`
* Props/TimeSeries: `timeseries_not_inplace`, `timeseries_inplace`, `timeseries_isolated`, `timeseries_copy_independent`, `timeseries_tobs`
* Props/Worker: `worker_series_objects`, `worker_common_preprocessing`, `worker_ffa_search`, `worker_no_dm_refuted`
* Props/Writer: `candidate_fname_injective`, `candidate_files_any_point`, `save_products_correct`, `stale_candidates_refuted`, `save_products_files`, `save_products_determined`

**D N C F**

* Props/Benchmark: `benchmark_ffa2_correct`
* Props/CandidateFloat: `validated_ranges_fold_float`
* Props/ClusterFloat: `cluster1d_float_friends`, `cluster1d_float_exact_radius_refuted`
* Props/CoordFloat: `parse_float_coord_float`
* Props/DereddenDetect: `ffa_search_deredden_float_detects`
* Props/DereddenError: `deredden_rounding`
* Props/DereddenIeee: `deredden_ieee`, `ffa_search_deredden_ieee`
* Props/Detect: `periodogram_expected_snr`, `ffa_search_detects`, `periodogram_detects`
* Props/DetectFloat: `periodogram_float_covers`, `periodogram_float_detects`
* Props/DmFloat: `select_dms_float`
* Props/DmIterFloat: `dm_iterator_float`, `dm_iterator_reduces`
* Props/Downsample: `downsample_float_memory_safe`, `downsample_float_check`
* Props/DownsampleFloat: `downsample_rounding`
* Props/EndToEnd: `rseek_finds_pulses`, `worker_finds_pulses`
* Props/EndToEndFloat: `rseek_report_float`, `worker_float_finds_pulses`, `rseek_float_finds_pulses`
* Props/Ffa: `ffa2_float_fold`, `ffa2_float_deviation`, `ffa2_extreme_rows`, `ffa2_conserves`, `ffa2_linear`, `ffa2_rotation`, `ffa2_rounding_error`
* Props/FfaSnr: `ffa2_response_bound`, `ffa2_aligned`
* Props/FoldFloat: `fold_rounding`, `fold_float_returns`
* Props/Folding: `fold_rows_float_partial`
* Props/FreqFloat: `ffafreq_float`
* Props/HarmonicFloat: `htest_float_distances`
* Props/Ieee: `ieee_double`, `ieee_single`, `ieee_integers`
* Props/Libffa: `ffa1_folds`
* Props/Loaders: `sigproc_files_agree`, `presto_files_agree`
* Props/Main: `main_configuration`, `main_correct`, `main_total`, `main_determined`, `main_files`, `clrad_null_refuted`, `minpts_float_refuted`
* Props/Noise: `downsampled_variance_drift`, `downsampled_variance_small_drift`
* Props/NormFloat: `normalise_rounding`, `ffa_search_float_detects`
* Props/NormIeee: `normalise_ieee`, `normalise_constant_nan`, `ffa_search_ieee`, `ffa_search_constant_nan`, `normalise_float32`
* Props/NotFinite: `deredden_not_finite`, `ffa_search_not_finite`, `worker_not_finite`, `rseek_not_finite`
* Props/PeaksFloat: `find_peaks_float`, `segment_stats_float`
* Props/Periodogram: `periodogram_trials`, `periodogram_checks`, `periodogram_coverage`, `periodogram_snr`, `periodogram_period_max_refuted`, `periodogram_returns`
* Props/PeriodogramFloat: `periodogram_float_safe`
* Props/PeriodogramIeee: `periodogram_ieee`
* Props/PeriodogramRounding: `periodogram_rounding`
* Props/Plot: `process_plottable`, `process_plots`, `process_plots_total`, `plot_candidates_refuted`
* Props/PrepareFloat: `prepare_float_total`, `prepare_float_validated`, `run_float_prepared`
* Props/Process: `process_correct`
* Props/ProcessDetect: `process_finds_pulses`
* Props/RseekRun: `rseek_correct`, `rseek_safe`, `rseek_total`, `rseek_minpts_refuted`
* Props/Run: `process_files`, `process_determined`, `process_total`
* Props/RunFloat: `run_float_finds_pulses`
* Props/RunTotal: `run_float_total`, `fold_float_safe`, `htest_float`
* Props/Search: `ffa_search_fpmin_refuted`, `ffa_search_correct`, `ffa_search_affine`
* Props/SelectFloat: `flag_harmonics_float`, `candidate_filters_float`, `get_search_range_float`, `flag_harmonics_same`, `candidate_filters_same`, `get_search_range_same`
* Props/Signal: `von_mises_shape`, `von_mises_unique`, `generate_signal_correct`, `pulse_train_unique`, `pulse_train_periodic`, `generate_signal_snr`, `ts_generate_correct`, `ts_generate_raises`
* Props/SnrFloat: `circular_prefix_sum_rounding`, `snr_rounding`, `boxcar_snr_rounding`
* Props/SumOrder: `downsample_any_order`
* Props/TrialsFloat: `trial_periods_float`, `trial_periods_float_refuted`
* Props/WidthsFloat: `width_trials_float`
* Props/Worker: `process_fname_correct`, `process_fname_total`, `worker_even_width_refuted`
* Props/WorkerFloat: `segments_range`, `near_trial`, `trial_count`
* Props/WorkerReturns: `process_fname_float_total`, `worker_ok_float`

**D N F**

* Props/Build: `build_candidates_correct`, `build_candidates_load_refuted`, `validated_ranges_fold_partial`, `validated_ranges_fold_refuted`, `build_candidates_twice_refuted`
* Props/Cluster: `cluster1d_friends`
* Props/Deredden: `running_median_of_quiet_data`
* Props/DmIter: `select_dms_correct`, `select_dms_minimum_refuted`, `dm_iterator_correct`, `dm_iterator_all_files`, `dm_iterator_all_files_refuted`, `dm_iterator_band`, `dm_iterator_refuses`
* Props/Downsample: `downsample_integrates`, `downsample_conserves`, `downsample_linear`, `downsampled_variance_partial`, `downsampled_variance_refuted`
* Props/FastRmed: `fast_running_median_correct`, `fast_running_median_values`, `fast_running_median_short_refuted`
* Props/Ffa: `ffa2_exact_fold`
* Props/Folding: `fold_correct`, `fold_profile_sums`
* Props/Harmonic: `htest_correct`, `htest_denominator_refuted`, `htest_snr_doc_refuted`
* Props/Json: `json_empty_series_refuted`
* Props/Kernels: `circular_prefix_sum_correct`, `py_circular_prefix_sum_partial`
* Props/Libffa: `ffafreq_checks`, `ffafreq_trials`, `width_trials`
* Props/Loaders: `sigproc_metadata`, `presto_metadata`
* Props/NormFloat: `standard_sums`, `standard_max`, `response_change`
* Props/Peaks: `find_peaks_correct`, `segment_stats_correct`, `find_peaks_one_trial_refuted`
* Props/PgPlot: `pgram_freqs`, `pgram_plot`, `pgram_plot_index`
* Props/Pipeline: `flag_harmonics_correct`, `flag_harmonics_total`, `flag_harmonics_depth`, `candidate_filters_correct`, `candidate_filters_total`, `candidate_filters_none`, `cluster_peaks_correct`
* Props/Plot: `dm_curve_correct`, `profile_correct`, `plot_correct`
* Props/Pool: `search_correct`, `search_independent`, `iterate_filenames_chunks`
* Props/Presto: `from_presto_inf_correct`
* Props/Ranges: `get_search_range_correct`, `get_search_range_validated_refuted`, `validate_ranges_correct`
* Props/Response: `best_response_nonneg`, `snr_nonneg`
* Props/Rseek: `rseek_report_correct`, `rseek_report_none`
* Props/RseekRun: `rseek_arguments`
* Props/Run: `cluster_table_correct`
* Props/Signal: `series_constructors`
* Props/Sigproc: `parse_float_coord_correct`, `from_sigproc_correct`, `from_sigproc_one_channel_refuted`
* Props/Snr: `snr_matched_filter`, `boxcar_snr_matched_filter`, `snr_invariances`, `snr_best_width`
* Props/TimeSeries: `normalise_standard`, `timeseries_tobs_refuted`
* Props/Worker: `median_of_unique`, `deredden_accepts`, `deredden_defaults_refuted`

**D F**

* Props/Deredden: `pulse_train_is_mostly_quiet`
* Props/Noise: `downsampled_noise`
* Props/RunMed: `median_unique_R`
* Props/Sigproc: `parse_float_coord_total`
