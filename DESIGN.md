# A Rocq model of cddm

The model covers the Python package `/repo/cddm` (cross-differential dynamic
microscopy).  The source is read as text; it is neither built nor run.

## Conventions of the model

* One Gallina function per Python/numba function, mirroring its branches.  Every
  definition has a comment with the file and the lines it models and, where it
  simplifies, says so.
* Exceptions are values: `res A := Ok a | Raise e` where `e` names the Python
  exception class.  Reads outside an array are not given a default in the
  models; they are `Raise OutOfBounds` (numba does not check bounds, so this
  stands for undefined behaviour).
* Arrays are lists (one pixel: a list of samples; one video: a list of rows of
  pixels).  Time stamps and indices that may be negative are `Z`; lengths and
  non-negative indices are `nat`.  Python slices and negative indices are
  modelled explicitly (`Base.v`).
* Numbers: the kernels are written over an arbitrary field of characteristic 0
  (record `Fld` in `Base.v`), complex numbers as pairs over it.  Theorems
  therefore hold for exact rationals and for Coq's reals.  **Floating-point
  rounding, overflow and NaN propagation are not modelled**: every numeric
  statement is about exact arithmetic.  Functions that compare numbers
  (median, running minimum, ADC, windows, sector maps, weights) are over `R` or
  `Q`/`Z`.
* The library FFT (mkl/scipy/numpy) is modelled as the exact discrete Fourier
  transform over `R`.
* Random generators are oracles: any list of outcomes in the range of the
  generator.
* Threads are a labelled transition system; a theorem ranges over every
  interleaving.

## Layout

    rocq/theories/Base.v            fields, complex pairs, sums, Python indexing
    rocq/theories/*Model.v, ...     models (no proofs beyond what Coq needs)
    rocq/theories/*Spec.v           small independent specifications
    rocq/theories/*Proofs.v         lemmas
    rocq/theories/Prop_*.v          property theorems, `Print Assumptions`, examples

`Prop_*.v` files contain only `Theorem ... Proof. exact lemma. Qed.`,
`Print Assumptions` and one `Example` per theorem showing a concrete
non-trivial case that meets its hypotheses.

## Plan per property

| property | modelled | proof |
|---|---|---|
| C01 C02 C03 | the scatter kernels of `_core_nb.py` as nested folds; argument inspection of `core.py` | loop invariant: after each step the output equals the initial output plus the pair sum over the processed pairs |
| C04 | slice-based regular kernels with Python slice semantics and explicit out-of-bounds | equality of the slice sum with the pair sum for `arange` |
| C05 | `_vec` kernels on rows | column projection commutes with every loop step |
| C06 C15 C16 | difference, sum and count kernels | algebra on pair sums |
| C07 C12 | count kernels, default length | counting pairs; every pair has a delay below the default length |
| C08 C09 | sum kernels, running-sum recurrences | induction over the delay |
| C10 C11 | as C01 | additivity in the initial output; permutation invariance of sums |
| C13 C14 | zero-padded DFT over R | orthogonality of the characters, circular correlation theorem, no wrap for n <= L+1 |
| C17 C26 C27 C41 | decision functions over norm/method | case analysis / finite sweep lifted to all integers; induction over word lists |
| C18-C24 | all `_normalize_*` formulas, `normalize` | field identities on pair sums |
| C25 | `weighted_sum`, `weight_from_g`, `sigma_weighted` over R | real arithmetic |
| C28 | `fold_data` with Python slices | index arithmetic; refutation for mode -1 |
| C29 C30 | binning and level loop | induction over levels |
| C31-C36 C38-C40 | `_compute_multi_iter` as a step function over the frame stream | invariants over the frame index; decomposition of pair sums into chunks |
| C37 | running sums | induction |
| C42 | reshape functions on flat arrays | index bijection |
| C43-C46 | `convolve`, `_median`, `decreasing`, `increasing`, `interpolate` with explicit buffers | loop invariants |
| C47 C48 | `multilevel`, `triangular_kernel`, merging of times | induction over levels |
| C49-C51 | two-thread transition systems with a bounded queue | invariant over all interleavings, progress measure |
| C52 C53 | generators as lists of events ending in return or exception | induction over the video |
| C54-C56 | generator state machines, random oracles | induction |
| C57 C58 | `mirror` with fuel, `adc_clean` | termination measure; monotonicity |
| C59 C60 | crop / rfft2 conversions with Python slices | index arithmetic for all sizes |
| C61 | angle and ring masks over R | case analysis on wrap |
| C62-C64 | call protocol, configuration state machine | case analysis, invariant over call sequences |
| C65 | window formulas over R | bounds on cos |
| C66 | confidence band of the weighted estimate, `weight_*` over R | real arithmetic |
| C67 | computed weights in `normalize` | linearity of the smoothing in its input |
| C68-C70 | filters and averages over an arbitrary ordered field | loop invariants, Archimedean argument |
| C71 C72 | drawing of particles, parallel drawing | bounds of indices; two interleavings that lose an update |
| C73 | transforms of videos, normalization of transforms | induction over the video |
| C74 | tables of delays and counts of pairs of pairs | loop invariants; witnesses of lost pairs |
| C75 | effective counts of multilevel data | sums over triangles; comparison with the pairs of a regular record |
| C76 | shift, equalize, selection of pixels | polar form over the reals; squares determine roots up to sign |
| C77 C78 | noise estimates, weights with backgrounds | means over finite experiments; running minimum, monotone passes of denoise |
| C79 | multiple-tau correlation with complex output | zero arrays of the levels against the loops of count_occurrence and the kernels; out-of-bounds reads as exceptions |
| C80 | random binning, fast part of multiple-tau data | oracle for the random numbers; binary digits of the first frame |
| C81 | normalization of multiple-tau data | parts of the data are normalized alike; kinds of tuples followed through the functions |
| C82 | Statistics, background subtraction and the start of normalized data | stats, subtract_background, value at delay 0 |
| C83 | Filtering of frames at a wave vector | dls, dls_video and k_point_kernel as convolutions |
| C84 | Averages shown by the viewers | Half-plane averages of `DataViewer` over full-plane sectors; computed masks; correlation viewers; sliders of `VideoViewer`. Counter-examples for even widths, `get_k`, stale maps, `fold=False`. |
| C85 | Walks with velocities, steps and initial coordinates | positions after t steps in closed form; what arguments are accepted |
| C86 | Mean counts of random triggering | mean over all outcomes of the number of pairs at a delay |
| C87 | Delays of the two-camera random triggering schemes | mean counts of delays of create_random_times1 / 2 over all outcomes |
| C88 | Configuration at import | import-time decisions of conf.py |
| C89 | Retired normalization formulas | retired formulas of _core_nb.py |
| C90 | Spectra as they are shown | spectra as they are shown |
| C91 | Form factor of a spot | form factor of a spot |
| C92 | Normalization of arrays of pixels, masks and returned weights | C92_pixels, C92_mask, C92_wrong_mask, C92_two, C92_two_refuted, C92_weight |
| C93 | Correlations of arrays along any axis | arrays as shapes with a function of the index; moveaxis as insertion and deletion in index lists; a program on arrays is shown to commute with taking a pixel, bind by bind |
| C94 | Log-spaced averages of complex correlation data | the two parts of the mean of both sides; refused without a decision; fold=False refuted |
| C95 | Multilevel and log-spaced data of arrays | every pixel as if it were alone; shapes of the results |
| C96 | Multiple-tau data of arrays | binning, levels, reshaping and masks of arrays reduce to one pixel |
| C97 | Streams of frames with any number of axes | a simulation, frame by frame, of the stream of one pixel by the stream of arrays |
| C98 | Overall phases and translated frames | invariance of each formula under a common factor; re-indexing of the transform by a cyclic shift |
| C99 | Messages, progress bars and frame rates | printing functions as values with a log of messages; the log-free part is proved equal to the functions of VideoModel; bounds of the sums of quotients of 100 by powers of two |
| C100 | Signals multiplied by a number, and flickering light | sums of pairs are homogeneous of degree two in the gain; every step of normalize is homogeneous; the spectrum at zero is the sum of the pixels |
| C101 | Deprecated names and the warnings of the user | after every change of the filters all registries are out of date, and the new filter is the first one |
| C102 | In-place operations on videos, the memory they change and the types of the pixels | induction over the frames with the memory as a function of addresses; wrapping twice is wrapping once |
| C103 | The buttons of the video viewer | invariant of the slider by induction over trees of clicks; the remaining way to the last frame decreases |
| C104 | The noise of the simulated camera | moments of affine functions and of sums over products of lists; round trip of decimal numerals |
| C105 | The energy of frames and of their spectra | orthogonality of the roots of unity in each direction; folding of sums that are symmetric; inner product with a single pixel |
| C106 | The titles of the figures | decimal numerals do not contain a colon, so a title tells its number; induction over the generators |
| C107 | The images of differences that are shown | maximum of a list by induction; field arithmetic |
| C108 | The sliders of the data viewers | invariant of the viewer without its masks over sessions; floors and rings of C61 |
| C109 | The check boxes of the correlation viewers | bits of sixteen norms; invariant over sessions; the recursion by induction over its depth |

## Trusted base

1. Coq 8.16.1: its kernel, its reduction machines (`vm_compute` is used in examples and
   witnesses) and the parts of the standard library that the files import.  No other
   library is used, no plugin, no axiom of our own, no functor, no `Admitted`.
2. The axioms of the standard library that `Print Assumptions` lists.  They enter only
   through the real numbers (`Reals`): the two decision principles of the construction
   of the reals, functional extensionality and, through `atan`/`acos` and `ln`/`exp`
   on the whole line, excluded middle.  The list per theorem is below.
3. The reading of the source.  The model was written from the text of `/repo/cddm`; the
   code was not run.  Comments give the lines of every definition.
4. What the model abstracts from, listed next.

### Simplifications

* **Numbers** are exact.  Kernels are over any field of characteristic 0; functions that
  compare numbers are over any ordered field; square roots, logarithms, cosines and
  arctangents are those of Coq's reals.  Rounding, overflow (also of int64 time stamps
  and counters) and float32/float64 conversions are not modelled.  NaN and infinity are
  modelled where a function treats them on purpose: counts of zero in `normalize`
  (`NonFin`), missing data in `decreasing`, `increasing`, `log_average`, `log_merge`
  (`None`), masks in `reshape_frame`/`reshape_output` and conversions of half-plane
  data (a parameter).
* **Shapes.**  Correlation, normalization, multiple tau and filters are modelled for the
  time series of one pixel; the multi-pixel kernels are modelled on rows and proved equal
  to the one-pixel kernels pixel by pixel (C05, C02), normalization also for arrays of any
  number of axes with broadcasting (C92).  The correlation functions, sums, `ccorr` and
  `acorr` are also modelled for arrays with any `axis` argument, output array and memory
  layout (C93), multilevel and log-spaced data for arrays of any number of axes (C95), the in-memory multiple-tau algorithm with reshaping and masks as well (C96), the streaming functions for frames of any number of axes (C97): copies made by numpy are not seen, dtypes not checked.  There is no numpy broadcasting except where a definition says so.
* **In-place updates** are values threaded through.  Aliasing of input and output is
  modelled for the filters (`alias`) and, with a memory of addresses, for the in-place
  operations on videos (C102).  `np.empty` is an arbitrary parameter.
* **Generators** are the list of the values they yield together with the exception with
  which they end.
* **Libraries.**  The FFT is the exact discrete Fourier transform; `arctan2`, `floor`,
  rounding to integers are parameters with their defining property as a hypothesis (and
  instances for the rationals and the reals that satisfy it).
* **Randomness and clocks** are oracles: theorems hold for every outcome.
* **Threads** are transition systems with interleaving steps (C49-C51, C72).  A queue
  operation is one step.

### What is modelled

| source | modelled | in |
|---|---|---|
| `_core_nb.py` | scatter, sum, count and difference kernels, one pixel and vectors (236-570); FFT kernels (571-699); filters, interpolation, median (57-233); normalization formulas in use and retired, weights, deviations (813-1228); tables of delays, mixed counts (740-811) | TauModel, Kernels, VecModel, FftModel, AvgModel, NormModel, WeightModel, RetiredModel |
| `core.py` | argument inspection and default lengths, all regular and irregular correlation functions, FFT correlation, `_is_aligned`, axes and output arrays (AxisModel), `acorr`, `ccorr`, `iacorr`, `iccorr`, reshaping of frames, `subtract_background`, `stats` | CoreModel, Regular*, FftModel, CorrModel, AxisModel, StreamModel, ReshapeModel, StatsModel |
| `multitau.py` | binning, `_compute_multi`, `acorr_multi`, `ccorr_multi`, `_compute_multi_iter` and its four public callers, `triangular_kernel`, `multilevel`, `merge_multilevel`, `log_average`, `log_merge`, `normalize_multi`, effective counts | MultiModel, StreamModel, StreamArrayModel, LevelModel, LogFoldModel (complex data, `fold`), LevelArrayModel and MultiArrayModel (arrays), CountModel, MultiNormModel |
| `norm.py` | `norm_flags`, `norm_from_string`, `scale_factor`, `normalize`, weights, `sigma_*`, noise estimates, `shift_data`, `equalize_data`, `fold_data`, `take_data` | NormModel, NormArrayModel (arrays, masks, returned weight), WeightModel, NoiseModel, ShiftModel |
| `avg.py` | `denoise`, `decreasing`, `increasing`, `convolve`, `log_interpolate` | AvgModel |
| `fft.py` | choice of library, cropping, `rfft2_video`, `fft2_video`, `normalize_fft`, `dls`, `dls_video` and their helpers | ConfModel, MapModel, Fft2Model, DlsModel |
| `map.py` | all functions but `plot_indexmap` | MapModel, SectorModel, DlsModel |
| `video.py` | all generators over videos (in-place versions with memory and types: InplaceModel), `fromarrays`, `asarrays`, `threaded`, `play`, `play_threaded`, `norm_rfft2`, titles of figures, images of differences | VideoModel, InplaceModel, ThreadModel, SpectrumModel, TitleModel, ShownModel |
| `sim.py`, `_sim_nb.py` | triggers, particle videos, random times and their counts, walks in a box with all arguments, ADC and its noise, drawing, coordinate transform, `form_factor` | SimModel, ShotModel, WalkModel, SpectrumModel |
| `window.py` | all windows | WindowModel |
| `viewer.py` | data shown by the viewers: masks and averages, representation of complex data, indices, frames of videos, buttons of the video viewer | ViewerModel, ButtonModel |
| `decorators.py` | `skip_runtime_error`, `deprecated` and the deprecated names | DeprecatedModel |
| `conf.py`, `print_tools.py` | setters, message switches, decisions at import (environment, configuration file, cores, first calls of the setters), `print_progress`, `print_frame_rate` | ConfModel, StartModel, ProgressModel |

### What is not modelled

* `viewer.py`: figures and the sliders of the array viewers (the data that is plotted is modelled, C84, the sliders of the data viewers, C108, the check boxes of the correlation viewers, C109, and the buttons of the video viewer, C103); the windows of `video.ImageShow` (its images and titles are modelled, C90, C106, C107) and all plotting functions.
* `cddm/test/`, `examples/` and `doc/`.
* `decorators.py`: `DocInherit` (not used by the package).
* `conf.py`: parsing of the configuration file, the configuration directory, threading of
  MKL and pyfftw.
* Everything printed, except the bars, frame rates and messages of `asarrays`, `asmemmaps` and the multiple-tau algorithm (C99).
* `sim.seed`, `plot_random_walk`; the random generator (the noise of the camera is modelled with the numbers drawn as arguments, C104).
* Streaming with `level_size = 0` (the code does not end).

## Assumptions of every theorem

What `Print Assumptions` prints below each theorem in `Prop_*.v`, grouped.

**Closed under the global context** (632 theorems):

C43_values, C43_linear, C43_range, C43_short, C43_in_place, C43_in_place_refuted, C44_median, C44_unique, C44_same_as_slow, C44_monotone, C45_decreasing, C45_increasing, C45_increasing_in_place, C45_increasing_refuted, C46_linear, C46_nodes, C46_between, C46_short, C68_nodes, C68_linear, C68_mixed_refuted, C68_unwritten_refuted, C69_range, C69_ends, C69_affine, C69_short, C93_cross, C93_auto, C93_fft, C93_sums, C93_ccorr, C93_acorr, C93_layout, C93_pipeline, C93_out, C93_shapes, C93_axis, C93_axis_fft, C93_complex_diff, C93_aligned, C93_axis_refuted, C103_range, C103_ends, C103_play, C103_fast, C103_stop, C103_steps, C103_still, C103_fast_refuted, C109_allowed, C109_click, C109_session, C109_reach, C109_structured_refuted, C109_recursion_refuted, C80_fast, C80_cross, C80_auto, C80_fast_auto, C80_delay, C80_delay_refuted, C63_set_fftlib, C63_set_rfft2lib, C63_set_showlib, C63_sound, C63_set_verbose, C64_restored, C64_quiet, C64_nesting_refuted, C64_level_ignored, C64_quietly, C01_cross_correlate_pair_sum, C01_invalid_arguments, C02_complex_signed_delays, C02_documented_formula_is_conjugate, C02_documented_formula_refuted, C03_auto_correlate_unordered_pairs, C03_invalid_arguments, C04_regular_agrees_with_irregular, C04_longer_output_reads_out_of_bounds, C05_cross_correlate_pixels, C05_cross_correlate_complex_pixels, C05_cross_difference_pixels, C05_auto_pixels, C05_auto_pixels_exist, C05_cross_sum_kernel_pixels, C06_cross_difference_square, C06_difference_from_correlation, C06_difference_nonnegative, C07_counts_count_pairs, C07_counts_are_correlations_of_ones, C08_cross_sum_real, C08_cross_sum_complex, C09_auto_sum_averages_ends, C09_repeated_times_refuted, C10_correlations_accumulate, C10_auto_correlations_accumulate, C10_sums_accumulate, C10_counts_accumulate, C10_sequence_of_data_sets, C10_cross_correlate_sequence, C11_shift_invariance, C11_shift_invariance_sums, C11_shift_invariance_counts, C11_storage_order, C11_storage_order_auto, C11_complex_auto_order_refuted, C11_storage_order_sums, C11_storage_order_counts, C11_swap_signals, C11_swap_signals_complex, C12_default_counts_keep_all_pairs, C12_default_correlations_keep_all_pairs, C12_default_auto_correlation_keeps_all_pairs, C15_folding, C15_folding_counts, C16_auto_is_half_of_cross, C16_complex, C16_counts, C16_sums, C75_shape, C75_effective, C75_between, C75_uniform, C75_fits, C75_short_refuted, C75_first, C75_errors, C75_log_average, C75_log_merge, C75_log_merge_refused, C75_ccorr, C75_acorr, C75_multi_errors, C75_true_counts, C75_linear_counts, C75_linear_counts_refuted, C101_consistent, C101_call, C101_same, C101_names, C101_k_indexmap, C101_settled, C101_overrides, C101_filters, C101_reset_refuted, C101_skip, C83_convolution, C83_constant_window, C83_point_window, C83_cropped, C83_many, C83_none, C83_video, C83_refused, C83_k_point_kernel, C83_component_refuted, C105_products, C105_energy, C105_differences, C105_half, C105_faithful, C105_faithful_half, C105_width_refuted, C26_spaces, C29_arguments, C36_one_time, C53_slices, C53_whole, C59_mode, C61_no_width, C62_broadcast, C63_initial, C36_chunk_refused, C42_mask_errors, C13_cross_correlate_fft, C13_cross_correlate_fft_complex, C13_auto_correlate_fft, C13_fft_is_circular, C13_empty, C13_long_output_refuted, C13_repeated_times_refuted, C14_cross_sum_fft_complex, C14_cross_sum_fft_real, C14_auto_sum_fft, C14_regular_rejected, C100_flicker_spectra, C100_flicker_frames, C100_two_ways, C100_analysis, C91_value, C91_half, C91_even, C91_refused, C91_average, C100_gain_real, C100_gain_complex, C100_gain_diff, C100_gain_auto, C100_gain_auto_complex, C100_gain_auto_diff, C100_gain_stats, C102_values, C102_second_pass, C102_error, C102_same_as_copy, C102_types, C102_numbers, C102_integers, C102_normalize, C102_aliased_refuted, C102_dtype_refuted, C102_half_done_refuted, C102_operations, C47_first, C47_choose, C47_mean, C47_kernel, C47_linear, C47_range, C47_complex, C47_errors, C48_full, C48_half, C48_log_average, C48_log_merge, C48_power_of_two, C48_period_3_refuted, C48_present, C48_t_multilevel, C48_errors, C95_multilevel, C95_merge_levels, C95_average, C95_merge, C95_pixels, C94_average, C94_merge, C94_real, C94_undecided, C94_hermitian, C94_merge_unfolded_refuted, C94_average_unfolded_refuted, C59_rfft2_crop, C59_fft2_crop, C59_one_axis, C59_refused, C59_no_junk, C59_twice, C60_roundtrip, C60_conj, C60_without_shape, C60_back, C60_mask, C60_crop, C60_nyquist_refuted, C73_complete, C73_rfft2_video, C73_fft2_video, C73_too_small, C73_normalize, C73_normalize_empty, C29_mean_data, C29_slice_data, C29_block_mean, C29_cross_mean, C29_auto_mean, C29_cross_first, C29_auto_first, C30_number_of_levels, C30_rejected, C30_cross_levels, C30_auto_levels, C96_cross, C96_auto, C96_divisor, C96_one_axis, C96_mask, C96_mask_refused, C96_block_means, C96_axis_refuted, C96_divisor_refuted, C96_mask_divisor_refuted, C96_mask_axes_refuted, C79_arrays, C79_cross, C79_counts_refuted, C79_auto, C79_auto_refuted, C81_parts, C81_kinds, C81_levels, C81_complex_refuted, C77_noise_level, C77_level_scaling, C77_noise_mean, C77_noise_mean_modes, C77_noise_delta, C17_cross_rejected, C17_cross_complex_rejected, C17_auto_rejected, C17_cross_accepted, C17_cross_complex_accepted, C17_cross_diff_accepted, C17_auto_accepted, C17_auto_diff_accepted, C18_subtracted, C18_subtracted_complex, C18_equals_subtracting_first, C18_equals_subtracting_first_complex, C18_auto, C18_complex_auto_refuted, C19_structured_subtracted, C19_structured, C19_structured_complex, C19_auto, C20_compensated, C20_compensated_complex, C20_compensated_structured, C20_compensated_structured_complex, C20_auto, C21_same_result, C21_auto, C22_modes, C22_modes_complex, C22_modes_unweighted, C22_back_and_forth, C23_affine, C23_affine_complex, C23_offset, C23_offset_baseline_refuted, C24_real_part, C24_weighted_refuted, C24_empty_delay, C24_empty_delay_real, C26_flags, C26_strings, C26_words, C26_unknown_word, C26_both, C26_both_diff_refuted, C27_accepts, C27_accepts_complex, C27_cross, C27_auto, C27_cross_diff, C27_own_norm, C27_default, C28_positive, C28_mean, C28_negative_shifted, C28_negative_refuted, C28_errors, C92_pixels, C92_mask, C92_wrong_mask, C92_two, C92_weight, C92_two_refuted, C99_bar, C99_bar_grows, C99_progress, C99_frame_rate, C99_rate_of, C99_result, C99_no_count, C99_messages_harmless_refuted, C99_printed, C99_multi_steps, C99_multi_bars, C86_outcomes, C86_finite, C86_mean, C86_zero_refuted, C86_none, C42_round_trip, C42_mask, C42_frame, C42_divisor_errors, C42_one_axis_refuted, C42_mask_divisor_refuted, C42_levels_refuted, C42_axis_refuted, C42_axis_default_refuted, C89_correlation, C89_difference, C89_structure, C89_in_use, C89_none, C89_reader_refuted, C87_outcomes, C87_uniform, C87_zero, C61_indexmap, C61_half_indexmap, C61_refused, C61_halves_refuted, C61_grid, C61_wavevector, C62_fft2, C62_mask, C62_all, C62_scalar_refuted, C62_rfft2_refuted, C62_rfft2_mask_refuted, C76_take, C104_gaussian, C104_poisson, C104_poisson_counts, C104_bit_depth, C104_no_letters, C104_levels, C104_more_bits, C104_adc, C104_none, C104_dark, C104_negative_refuted, C107_range, C107_swap, C107_equal, C107_light, C107_flicker, C107_sizes, C107_cv, C54_selects, C54_negative, C54_empty, C54_prefix, C55_pairs, C55_iff, C55_single, C55_lost_refuted, C56_single, C56_long, C56_long_refuted, C56_dual, C56_dual2, C56_video, C57_mirror, C57_other_boxes, C57_walk, C57_rationals, C70_inside, C70_identity, C70_rotation, C58_clean, C58_bits, C58_adc, C58_rationals, C58_dtype, C58_dtype_refuted, C71_psf, C71_psf_box, C71_psf_outside, C71_points, C72_serial, C72_parallel_refuted, C108_nearest, C108_values, C108_opened, C108_drawn, C108_placed, C108_zero_refuted, C108_reach, C108_reach_refuted, C22_modes_smoothed, C22_modes_smoothed_complex, C67_scale_smoothed, C67_scale_smoothed_complex, C67_variance, C90_shown, C90_refused, C90_range, C90_scale, C90_centre, C90_flat_refuted, C88_flag, C88_silent_refuted, C88_build, C88_version, C88_version_refuted, C88_cores, C88_started, C88_refused, C88_fallback_refuted, C82_stats, C82_variance, C82_variance_sign, C82_subtract, C82_subtracted_first, C82_start, C82_start_all, C82_structured_bound, C31_block_means, C31_halves, C32_iccorr, C32_iccorr_complex, C32_regular, C32_regular_complex, C33_iacorr, C33_regular, C34_cross, C34_auto, C34_levels, C35_cross, C35_cross_complex, C35_auto, C38_levels_lost, C38_levels_lost_auto, C38_equality_refuted, C39_chunks, C39_counts_smaller, C40_buffer, C40_levels, C40_equality_refuted, C36_frames, C36_more_frames, C36_fewer_frames, C36_iccorr_short, C37_cross, C37_auto, C37_multi, C41_default_norm, C41_n_omitted, C41_n_omitted_type_error, C41_mode, C41_diff_full, C97_multi, C97_multi_auto, C97_iter, C97_iter_auto, C97_divisor, C97_divisor_auto, C97_one_axis, C97_one_axis_auto, C97_mask, C97_mask_auto, C97_mask_iter, C97_mask_iter_auto, C97_in_memory, C97_divisor_refuted, C97_mask_divisor_refuted, C97_other_shape_refuted, C97_in_memory_complex, C97_in_memory_auto, C97_empty, C97_short, C74_cross_tau, C74_lengths, C74_shapes_refuted, C74_auto_tau, C74_unsorted, C74_cross_count, C74_room, C74_cross_count_one, C74_auto_count, C74_time_zero_refuted, C74_narrow_refuted, C74_period_zero, C49_frames, C49_none_inside, C50_frames, C50_after_threaded, C50_fps_finite, C50_terminates, C50_truncated, C51_queue, C106_injective, C106_unique, C106_numbers, C106_fresh, C106_fft_cameras, C106_fft_twice_refuted, C106_same_title, C98_phase_real, C98_phase_complex, C98_phase_diff, C98_phase_auto, C98_phase_auto_diff, C98_stats, C98_two_phases, C98_dft_shift, C98_moved_video, C98_analysis, C51_play, C51_figures, C51_diff_dt, C52_values, C52_errors, C52_inverse, C52_load, C52_memmaps, C53_values, C53_mismatch, C53_inverse, C53_crop, C53_mask, C53_normalize, C84_average, C84_masked, C84_sizes_refuted, C84_rows_refuted, C84_apart, C84_refused, C84_stale_refuted, C84_corr, C84_fold, C84_fold_refuted, C84_repr, C84_video, C84_list, C84_indices, C84_axes_refuted, C84_nyquist_refuted, C85_walk, C85_particles, C85_drift, C85_callable, C85_delta_refuted, C85_refused, C85_shape, C85_unusable, C85_column, C85_callable_refuted, C85_delta_axis_refuted, C85_number_refuted, C25_ends, C25_normalize, C67_scale, C67_scale_one_variance, C67_scale_complex, C67_two_variances_refuted.


**`ClassicalDedekindReals.sig_forall_dec`, `FunctionalExtensionality.functional_extensionality_dep`** (15 theorems):

C25_between, C25_weight_nonneg, C25_weight_range, C25_weight_one, C25_weight_complex, C25_minimizes, C25_minimizes_real, C25_normalize_between, C66_minimizes, C69_monotone, C78_corr, C78_diff_first, C78_diff_refuted, C78_unfiltered, C78_line.


**`ClassicalDedekindReals.sig_forall_dec`, `ClassicalDedekindReals.sig_not_dec`, `FunctionalExtensionality.functional_extensionality_dep`** (19 theorems):

C13_fft_equals_direct_reals, C91_average_refuted, C76_shift, C76_shift_result, C76_shift_refuted, C76_even, C76_errors, C76_equalize, C76_equalize_result, C76_equalize_refuted, C76_equalize_twice, C98_equalize, C25_sigma, C66_no_background, C65_tukey, C65_hann, C65_blackman, C65_refused, C65_centre.


**`ClassicalDedekindReals.sig_forall_dec`, `ClassicalDedekindReals.sig_not_dec`, `Classical_Prop.classic`, `FunctionalExtensionality.functional_extensionality_dep`** (6 theorems):

C68_real_logarithm, C68_real_mixed_refuted, C61_real, C84_real, C65_gaussian, C65_symmetric.
