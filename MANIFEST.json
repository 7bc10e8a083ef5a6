{
 "claims": [
  {
   "property": "C01",
   "status": "proved",
   "theorems": [
    "C01_cross_correlate_pair_sum",
    "C01_invalid_arguments"
   ],
   "note": "Any integer times; inadmissible arguments raise ValueError."
  },
  {
   "property": "C02",
   "status": "proved",
   "theorems": [
    "C02_complex_signed_delays",
    "C02_documented_formula_is_conjugate",
    "C02_documented_formula_refuted"
   ],
   "note": "The documented formula is the conjugate; refuted with a witness."
  },
  {
   "property": "C03",
   "status": "proved",
   "theorems": [
    "C03_auto_correlate_unordered_pairs",
    "C03_invalid_arguments"
   ],
   "note": ""
  },
  {
   "property": "C04",
   "status": "proved",
   "theorems": [
    "C04_regular_agrees_with_irregular",
    "C04_longer_output_reads_out_of_bounds"
   ],
   "note": "Also shown: for n > L+1 the compiled loop reads outside the arrays."
  },
  {
   "property": "C05",
   "status": "proved",
   "theorems": [
    "C05_cross_correlate_pixels",
    "C05_cross_correlate_complex_pixels",
    "C05_cross_difference_pixels",
    "C05_auto_pixels",
    "C05_auto_pixels_exist",
    "C05_cross_sum_kernel_pixels"
   ],
   "note": ""
  },
  {
   "property": "C06",
   "status": "proved",
   "theorems": [
    "C06_cross_difference_square",
    "C06_difference_from_correlation",
    "C06_difference_nonnegative"
   ],
   "note": ""
  },
  {
   "property": "C07",
   "status": "proved",
   "theorems": [
    "C07_counts_count_pairs",
    "C07_counts_are_correlations_of_ones"
   ],
   "note": ""
  },
  {
   "property": "C08",
   "status": "proved",
   "theorems": [
    "C08_cross_sum_real",
    "C08_cross_sum_complex"
   ],
   "note": ""
  },
  {
   "property": "C09",
   "status": "proved",
   "theorems": [
    "C09_auto_sum_averages_ends",
    "C09_repeated_times_refuted"
   ],
   "note": "Distinct times; the documented formula fails with repeated times (witness)."
  },
  {
   "property": "C10",
   "status": "proved",
   "theorems": [
    "C10_correlations_accumulate",
    "C10_auto_correlations_accumulate",
    "C10_sums_accumulate",
    "C10_counts_accumulate",
    "C10_sequence_of_data_sets",
    "C10_cross_correlate_sequence"
   ],
   "note": ""
  },
  {
   "property": "C11",
   "status": "proved",
   "theorems": [
    "C11_shift_invariance",
    "C11_shift_invariance_sums",
    "C11_shift_invariance_counts",
    "C11_storage_order",
    "C11_storage_order_auto",
    "C11_complex_auto_order_refuted",
    "C11_storage_order_sums",
    "C11_storage_order_counts",
    "C11_swap_signals",
    "C11_swap_signals_complex"
   ],
   "note": "Complex auto_correlate is order independent for distinct times only (witness)."
  },
  {
   "property": "C12",
   "status": "proved",
   "theorems": [
    "C12_default_counts_keep_all_pairs",
    "C12_default_correlations_keep_all_pairs",
    "C12_default_auto_correlation_keeps_all_pairs"
   ],
   "note": ""
  },
  {
   "property": "C13",
   "status": "proved",
   "theorems": [
    "C13_cross_correlate_fft",
    "C13_cross_correlate_fft_complex",
    "C13_auto_correlate_fft",
    "C13_fft_equals_direct_reals",
    "C13_fft_is_circular",
    "C13_empty",
    "C13_long_output_refuted",
    "C13_repeated_times_refuted"
   ],
   "note": ""
  },
  {
   "property": "C14",
   "status": "proved",
   "theorems": [
    "C14_cross_sum_fft_complex",
    "C14_cross_sum_fft_real",
    "C14_auto_sum_fft",
    "C14_regular_rejected"
   ],
   "note": ""
  },
  {
   "property": "C15",
   "status": "proved",
   "theorems": [
    "C15_folding",
    "C15_folding_counts"
   ],
   "note": ""
  },
  {
   "property": "C16",
   "status": "proved",
   "theorems": [
    "C16_auto_is_half_of_cross",
    "C16_complex",
    "C16_counts",
    "C16_sums"
   ],
   "note": ""
  },
  {
   "property": "C17",
   "status": "proved",
   "theorems": [
    "C17_cross_rejected",
    "C17_cross_complex_rejected",
    "C17_auto_rejected",
    "C17_cross_accepted",
    "C17_cross_complex_accepted",
    "C17_cross_diff_accepted",
    "C17_auto_accepted",
    "C17_auto_diff_accepted"
   ],
   "note": ""
  },
  {
   "property": "C18",
   "status": "proved",
   "theorems": [
    "C18_subtracted",
    "C18_subtracted_complex",
    "C18_equals_subtracting_first",
    "C18_equals_subtracting_first_complex",
    "C18_auto",
    "C18_complex_auto_refuted"
   ],
   "note": "C18_complex_auto_refuted records that the complex normalization of acorr data is not that of the background-subtracted signal."
  },
  {
   "property": "C19",
   "status": "proved",
   "theorems": [
    "C19_structured_subtracted",
    "C19_structured",
    "C19_structured_complex",
    "C19_auto"
   ],
   "note": ""
  },
  {
   "property": "C20",
   "status": "proved",
   "theorems": [
    "C20_compensated",
    "C20_compensated_complex",
    "C20_compensated_structured",
    "C20_compensated_structured_complex",
    "C20_auto"
   ],
   "note": ""
  },
  {
   "property": "C21",
   "status": "proved",
   "theorems": [
    "C21_same_result",
    "C21_auto"
   ],
   "note": ""
  },
  {
   "property": "C22",
   "status": "proved",
   "theorems": [
    "C22_modes",
    "C22_modes_complex",
    "C22_modes_unweighted",
    "C22_back_and_forth",
    "C22_modes_smoothed",
    "C22_modes_smoothed_complex"
   ],
   "note": "The scaled or weighted cases need a variance different from zero. With the program's own smoothing (windowed averages, avg.py) the weighted cases are C22_modes_smoothed and C22_modes_smoothed_complex, for records in which every delay occurs."
  },
  {
   "property": "C23",
   "status": "proved",
   "theorems": [
    "C23_affine",
    "C23_affine_complex",
    "C23_offset",
    "C23_offset_baseline_refuted"
   ],
   "note": ""
  },
  {
   "property": "C24",
   "status": "proved",
   "theorems": [
    "C24_real_part",
    "C24_weighted_refuted",
    "C24_empty_delay",
    "C24_empty_delay_real"
   ],
   "note": "Holds for unweighted norms and for weighted norms with a given weight; C24_weighted_refuted records that it fails when the weight is computed from the complex data."
  },
  {
   "property": "C25",
   "status": "proved",
   "theorems": [
    "C25_between",
    "C25_ends",
    "C25_weight_nonneg",
    "C25_weight_range",
    "C25_weight_one",
    "C25_weight_complex",
    "C25_minimizes",
    "C25_minimizes_real",
    "C25_sigma",
    "C25_normalize",
    "C25_normalize_between"
   ],
   "note": "sigma_weighted is a number only if |g|^2 <= 1 - delta^2; the number under the root is minimized without that condition. Uses the real numbers of the standard library."
  },
  {
   "property": "C26",
   "status": "proved",
   "theorems": [
    "C26_flags",
    "C26_strings",
    "C26_words",
    "C26_unknown_word",
    "C26_both",
    "C26_both_diff_refuted",
    "C26_spaces"
   ],
   "note": "C26_both_diff_refuted records that 14 and 6 differ on difference data. C26_spaces fixes the white space removed from norm strings."
  },
  {
   "property": "C27",
   "status": "proved",
   "theorems": [
    "C27_accepts",
    "C27_accepts_complex",
    "C27_cross",
    "C27_auto",
    "C27_cross_diff",
    "C27_own_norm",
    "C27_default"
   ],
   "note": ""
  },
  {
   "property": "C28",
   "status": "proved",
   "theorems": [
    "C28_positive",
    "C28_mean",
    "C28_negative_shifted",
    "C28_negative_refuted",
    "C28_errors"
   ],
   "note": "mode=-1 is off by one: C28_negative_shifted says what it computes, C28_negative_refuted that it is not the documented data[-i]."
  },
  {
   "property": "C29",
   "status": "proved",
   "theorems": [
    "C29_mean_data",
    "C29_slice_data",
    "C29_block_mean",
    "C29_cross_mean",
    "C29_auto_mean",
    "C29_cross_first",
    "C29_auto_first",
    "C29_arguments"
   ],
   "note": "C29_arguments: which methods and binnings are accepted, and their defaults."
  },
  {
   "property": "C30",
   "status": "proved",
   "theorems": [
    "C30_number_of_levels",
    "C30_rejected",
    "C30_cross_levels",
    "C30_auto_levels"
   ],
   "note": ""
  },
  {
   "property": "C31",
   "status": "proved",
   "theorems": [
    "C31_block_means",
    "C31_halves"
   ],
   "note": ""
  },
  {
   "property": "C32",
   "status": "proved",
   "theorems": [
    "C32_iccorr",
    "C32_iccorr_complex",
    "C32_regular",
    "C32_regular_complex"
   ],
   "note": ""
  },
  {
   "property": "C33",
   "status": "proved",
   "theorems": [
    "C33_iacorr",
    "C33_regular"
   ],
   "note": ""
  },
  {
   "property": "C34",
   "status": "proved",
   "theorems": [
    "C34_cross",
    "C34_auto",
    "C34_levels"
   ],
   "note": "Real correlation, cross and auto (auto: methods corr and fft). The fast level is not compared here; the slow levels are equal whatever the times and the period."
  },
  {
   "property": "C35",
   "status": "proved",
   "theorems": [
    "C35_cross",
    "C35_cross_complex",
    "C35_auto"
   ],
   "note": ""
  },
  {
   "property": "C36",
   "status": "proved",
   "theorems": [
    "C36_frames",
    "C36_more_frames",
    "C36_fewer_frames",
    "C36_iccorr_short",
    "C36_one_time",
    "C36_chunk_refused"
   ],
   "note": "Short streams raise ValueError if more than one frame is needed; with one frame needed and an empty iterator the exception is UnboundLocalError. level_size=0 is outside the model. C36_one_time: a single camera with one time argument. C36_chunk_refused: chunk sizes that are refused."
  },
  {
   "property": "C37",
   "status": "proved",
   "theorems": [
    "C37_cross",
    "C37_auto",
    "C37_multi"
   ],
   "note": ""
  },
  {
   "property": "C38",
   "status": "proved",
   "theorems": [
    "C38_levels_lost",
    "C38_levels_lost_auto",
    "C38_equality_refuted"
   ],
   "note": "The witness refutes the documented equality; the general theorems say which levels are lost."
  },
  {
   "property": "C39",
   "status": "proved",
   "theorems": [
    "C39_chunks",
    "C39_counts_smaller"
   ],
   "note": "At regular times with at least two chunks; the first theorem identifies the result for any increasing times."
  },
  {
   "property": "C40",
   "status": "proved",
   "theorems": [
    "C40_buffer",
    "C40_levels",
    "C40_equality_refuted"
   ],
   "note": "The statement about whole runs is for an explicit nlevel; the statement about the buffers is general."
  },
  {
   "property": "C41",
   "status": "proved",
   "theorems": [
    "C41_default_norm",
    "C41_n_omitted",
    "C41_n_omitted_type_error",
    "C41_mode",
    "C41_diff_full"
   ],
   "note": "n omitted: never succeeds; TypeError as soon as the other arguments are valid (otherwise their own exception comes first)."
  },
  {
   "property": "C42",
   "status": "proved",
   "theorems": [
    "C42_round_trip",
    "C42_mask",
    "C42_frame",
    "C42_divisor_errors",
    "C42_one_axis_refuted",
    "C42_mask_divisor_refuted",
    "C42_levels_refuted",
    "C42_axis_refuted",
    "C42_axis_default_refuted",
    "C42_mask_errors"
   ],
   "note": "the four cases where the round trip does not hold are proved as C42_..._refuted C42_mask_errors: masks and axes that are refused."
  },
  {
   "property": "C43",
   "status": "proved",
   "theorems": [
    "C43_values",
    "C43_linear",
    "C43_range",
    "C43_short",
    "C43_in_place",
    "C43_in_place_refuted"
   ],
   "note": ""
  },
  {
   "property": "C44",
   "status": "proved",
   "theorems": [
    "C44_median",
    "C44_unique",
    "C44_same_as_slow",
    "C44_monotone"
   ],
   "note": ""
  },
  {
   "property": "C45",
   "status": "proved",
   "theorems": [
    "C45_decreasing",
    "C45_increasing",
    "C45_increasing_in_place",
    "C45_increasing_refuted"
   ],
   "note": ""
  },
  {
   "property": "C46",
   "status": "proved",
   "theorems": [
    "C46_linear",
    "C46_nodes",
    "C46_between",
    "C46_short"
   ],
   "note": ""
  },
  {
   "property": "C47",
   "status": "proved",
   "theorems": [
    "C47_first",
    "C47_choose",
    "C47_mean",
    "C47_kernel",
    "C47_linear",
    "C47_range",
    "C47_complex",
    "C47_errors"
   ],
   "note": ""
  },
  {
   "property": "C48",
   "status": "proved",
   "theorems": [
    "C48_full",
    "C48_half",
    "C48_log_average",
    "C48_log_merge",
    "C48_power_of_two",
    "C48_period_3_refuted",
    "C48_present",
    "C48_t_multilevel",
    "C48_errors"
   ],
   "note": ""
  },
  {
   "property": "C49",
   "status": "proved",
   "theorems": [
    "C49_frames",
    "C49_none_inside"
   ],
   "note": "All interleavings of the worker and the consumer; at most 6 steps per frame. A None inside the video ends it there."
  },
  {
   "property": "C50",
   "status": "proved",
   "theorems": [
    "C50_frames",
    "C50_after_threaded",
    "C50_fps_finite",
    "C50_terminates",
    "C50_truncated"
   ],
   "note": "Termination of the unlimited-speed loop needs a fair schedule; with fps it is bounded outright."
  },
  {
   "property": "C51",
   "status": "proved",
   "theorems": [
    "C51_queue",
    "C51_play",
    "C51_figures",
    "C51_diff_dt"
   ],
   "note": "Frames unchanged for every clock and every interleaving with the display; failing figures and dt truncation stated."
  },
  {
   "property": "C52",
   "status": "proved",
   "theorems": [
    "C52_values",
    "C52_errors",
    "C52_inverse",
    "C52_load",
    "C52_memmaps"
   ],
   "note": "store is what writing a frame into an array of the first frame's dtype and shape does."
  },
  {
   "property": "C53",
   "status": "proved",
   "theorems": [
    "C53_values",
    "C53_mismatch",
    "C53_inverse",
    "C53_crop",
    "C53_mask",
    "C53_normalize",
    "C53_slices",
    "C53_whole"
   ],
   "note": "Pixel operations are arbitrary, so wrap-around arithmetic is covered; broadcasting is not modelled. C53_slices: slices with negative or missing ends."
  },
  {
   "property": "C54",
   "status": "proved",
   "theorems": [
    "C54_selects",
    "C54_negative",
    "C54_empty",
    "C54_prefix"
   ],
   "note": ""
  },
  {
   "property": "C55",
   "status": "proved",
   "theorems": [
    "C55_pairs",
    "C55_iff",
    "C55_single",
    "C55_lost_refuted"
   ],
   "note": "C55_iff: no pair is lost iff the times are paired; C55_lost_refuted is a witness of a silent loss."
  },
  {
   "property": "C56",
   "status": "proved",
   "theorems": [
    "C56_single",
    "C56_long",
    "C56_long_refuted",
    "C56_dual",
    "C56_dual2",
    "C56_video"
   ],
   "note": "C56_long_refuted: dt_min = n+1 can raise ValueError."
  },
  {
   "property": "C57",
   "status": "proved",
   "theorems": [
    "C57_mirror",
    "C57_other_boxes",
    "C57_walk",
    "C57_rationals"
   ],
   "note": "Exact arithmetic in any Archimedean ordered field; with floats a coordinate far outside the box can make the loop endless, which this model does not show."
  },
  {
   "property": "C58",
   "status": "proved",
   "theorems": [
    "C58_clean",
    "C58_bits",
    "C58_adc",
    "C58_rationals",
    "C58_dtype",
    "C58_dtype_refuted"
   ],
   "note": "uint16 intensities above 65535 are accepted: C58_dtype_refuted."
  },
  {
   "property": "C59",
   "status": "proved",
   "theorems": [
    "C59_rfft2_crop",
    "C59_fft2_crop",
    "C59_one_axis",
    "C59_refused",
    "C59_no_junk",
    "C59_twice",
    "C59_mode"
   ],
   "note": "kimax=0 on a frame with more than one row raises ValueError (C59_refused); the result never depends on the uninitialised np.empty (C59_no_junk). C59_mode: other modes are refused."
  },
  {
   "property": "C60",
   "status": "proved",
   "theorems": [
    "C60_roundtrip",
    "C60_conj",
    "C60_without_shape",
    "C60_back",
    "C60_mask",
    "C60_crop",
    "C60_nyquist_refuted"
   ],
   "note": "C60_nyquist_refuted: an even height cut at height/2 gives height+1 rows, which as_fft2_shape refuses. C60_without_shape: an even width comes back one wider."
  },
  {
   "property": "C61",
   "status": "proved",
   "theorems": [
    "C61_indexmap",
    "C61_half_indexmap",
    "C61_refused",
    "C61_halves_refuted",
    "C61_grid",
    "C61_wavevector",
    "C61_real",
    "C61_no_width"
   ],
   "note": "C61_real: for real numbers with sqrt and arctan2, no hypotheses but the parameter ranges (standard axioms of the reals). C61_halves_refuted: complementary half planes do not partition the boundary directions. C61_no_width: a zero width divides by zero."
  },
  {
   "property": "C62",
   "status": "proved",
   "theorems": [
    "C62_fft2",
    "C62_mask",
    "C62_all",
    "C62_scalar_refuted",
    "C62_rfft2_refuted",
    "C62_rfft2_mask_refuted",
    "C62_broadcast"
   ],
   "note": "fft2 mode proved; the documented scalar k and the default rfft2 mode are refuted for all data (C62_scalar_refuted, C62_rfft2_refuted, C62_rfft2_mask_refuted). C62_broadcast: masks of different shapes."
  },
  {
   "property": "C63",
   "status": "proved",
   "theorems": [
    "C63_set_fftlib",
    "C63_set_rfft2lib",
    "C63_set_showlib",
    "C63_sound",
    "C63_set_verbose",
    "C63_initial"
   ],
   "note": "C63_initial: the configuration at import."
  },
  {
   "property": "C64",
   "status": "proved",
   "theorems": [
    "C64_restored",
    "C64_quiet",
    "C64_nesting_refuted",
    "C64_level_ignored",
    "C64_quietly"
   ],
   "note": "C64_nesting_refuted: the last call decides, not the nesting. C64_quietly: after an exception messages stay off."
  },
  {
   "property": "C65",
   "status": "proved",
   "theorems": [
    "C65_tukey",
    "C65_hann",
    "C65_blackman",
    "C65_gaussian",
    "C65_symmetric",
    "C65_refused",
    "C65_centre"
   ],
   "note": "Real numbers (standard axioms of the reals); float rounding is not modelled."
  },
  {
   "property": "C66",
   "status": "proved",
   "theorems": [
    "C66_minimizes",
    "C66_no_background"
   ],
   "note": ""
  },
  {
   "property": "C67",
   "status": "proved",
   "theorems": [
    "C67_scale",
    "C67_scale_one_variance",
    "C67_scale_complex",
    "C67_two_variances_refuted",
    "C67_scale_smoothed",
    "C67_scale_smoothed_complex",
    "C67_variance"
   ],
   "note": "C67_two_variances_refuted records the failure for two different variances; C67_scale_smoothed(_complex) use the program's own smoothing; C67_variance pins the scale factor itself."
  },
  {
   "property": "C68",
   "status": "proved",
   "theorems": [
    "C68_nodes",
    "C68_linear",
    "C68_mixed_refuted",
    "C68_unwritten_refuted",
    "C68_real_logarithm",
    "C68_real_mixed_refuted"
   ],
   "note": ""
  },
  {
   "property": "C69",
   "status": "proved",
   "theorems": [
    "C69_range",
    "C69_ends",
    "C69_affine",
    "C69_short",
    "C69_monotone"
   ],
   "note": ""
  },
  {
   "property": "C70",
   "status": "proved",
   "theorems": [
    "C70_inside",
    "C70_identity",
    "C70_rotation"
   ],
   "note": ""
  },
  {
   "property": "C71",
   "status": "proved",
   "theorems": [
    "C71_psf",
    "C71_psf_box",
    "C71_psf_outside",
    "C71_points"
   ],
   "note": "Exact condition of memory safety; psf_gauss is an arbitrary function."
  },
  {
   "property": "C72",
   "status": "proved",
   "theorems": [
    "C72_serial",
    "C72_parallel_refuted"
   ],
   "note": "C72_parallel_refuted is an interleaving that loses one contribution."
  },
  {
   "property": "C73",
   "status": "proved",
   "theorems": [
    "C73_complete",
    "C73_rfft2_video",
    "C73_fft2_video",
    "C73_too_small",
    "C73_normalize",
    "C73_normalize_empty"
   ],
   "note": "Exact DFT over any field with a root of unity; real frames for rfft2."
  },
  {
   "property": "C74",
   "status": "proved",
   "theorems": [
    "C74_cross_tau",
    "C74_lengths",
    "C74_shapes_refuted",
    "C74_auto_tau",
    "C74_unsorted",
    "C74_cross_count",
    "C74_room",
    "C74_cross_count_one",
    "C74_auto_count",
    "C74_time_zero_refuted",
    "C74_narrow_refuted",
    "C74_period_zero"
   ],
   "note": "C74_time_zero_refuted, C74_narrow_refuted: pairs that the counts lose; C74_shapes_refuted: the shape assertion compares an array with itself."
  },
  {
   "property": "C75",
   "status": "proved",
   "theorems": [
    "C75_shape",
    "C75_effective",
    "C75_between",
    "C75_uniform",
    "C75_fits",
    "C75_short_refuted",
    "C75_first",
    "C75_errors",
    "C75_log_average",
    "C75_log_merge",
    "C75_log_merge_refused",
    "C75_ccorr",
    "C75_acorr",
    "C75_multi_errors",
    "C75_true_counts",
    "C75_linear_counts",
    "C75_linear_counts_refuted"
   ],
   "note": "C75_short_refuted: level_size 2 and 3 misalign the average; C75_linear_counts_refuted: the linear counts differ from the numbers of pairs."
  },
  {
   "property": "C76",
   "status": "proved",
   "theorems": [
    "C76_shift",
    "C76_shift_result",
    "C76_shift_refuted",
    "C76_even",
    "C76_errors",
    "C76_equalize",
    "C76_equalize_result",
    "C76_equalize_refuted",
    "C76_equalize_twice",
    "C76_take"
   ],
   "note": "Real numbers. C76_shift_refuted, C76_equalize_refuted: the documented purpose fails for the values named; arctan2 and the complex root are parameters with their defining property."
  },
  {
   "property": "C77",
   "status": "proved",
   "theorems": [
    "C77_noise_level",
    "C77_level_scaling",
    "C77_noise_mean",
    "C77_noise_mean_modes",
    "C77_noise_delta"
   ],
   "note": "Means are over finitely many outcomes with arbitrary probabilities in the field."
  },
  {
   "property": "C78",
   "status": "proved",
   "theorems": [
    "C78_corr",
    "C78_diff_first",
    "C78_diff_refuted",
    "C78_unfiltered",
    "C78_line"
   ],
   "note": "C78_diff_refuted: two contents of memory give first weights 1 and 0 for the same data."
  },
  {
   "property": "C79",
   "status": "proved",
   "theorems": [
    "C79_arrays",
    "C79_cross",
    "C79_counts_refuted",
    "C79_auto",
    "C79_auto_refuted"
   ],
   "note": "C79_counts_refuted and C79_auto_refuted record that counts and data do not match and that the default auto-correlation reads out of bounds."
  },
  {
   "property": "C80",
   "status": "proved",
   "theorems": [
    "C80_fast",
    "C80_cross",
    "C80_auto",
    "C80_fast_auto",
    "C80_delay",
    "C80_delay_refuted"
   ],
   "note": "C80_delay_refuted: a signal that is on in every second frame, correlated with itself, gives zeros or ones depending on the random numbers only."
  },
  {
   "property": "C81",
   "status": "proved",
   "theorems": [
    "C81_parts",
    "C81_kinds",
    "C81_levels",
    "C81_complex_refuted"
   ],
   "note": "C81_complex_refuted: complex data cannot be normalized, since counts and data have different lengths (C79)."
  },
  {
   "property": "C82",
   "status": "proved",
   "theorems": [
    "C82_stats",
    "C82_variance",
    "C82_variance_sign",
    "C82_subtract",
    "C82_subtracted_first",
    "C82_start",
    "C82_start_all",
    "C82_structured_bound"
   ],
   "note": "subtract_background and stats are modelled for one pixel along the frames; other axes and the out argument are not. A variance of zero is excluded where the result is divided by it."
  },
  {
   "property": "C83",
   "status": "proved",
   "theorems": [
    "C83_convolution",
    "C83_constant_window",
    "C83_point_window",
    "C83_cropped",
    "C83_many",
    "C83_none",
    "C83_video",
    "C83_refused",
    "C83_k_point_kernel",
    "C83_component_refuted"
   ],
   "note": "Discrete Fourier transforms are exact sums over a root of unity."
  },
  {
   "property": "C84",
   "status": "proved",
   "theorems": [
    "C84_average",
    "C84_masked",
    "C84_sizes_refuted",
    "C84_rows_refuted",
    "C84_apart",
    "C84_refused",
    "C84_stale_refuted",
    "C84_corr",
    "C84_fold",
    "C84_fold_refuted",
    "C84_repr",
    "C84_video",
    "C84_list",
    "C84_indices",
    "C84_axes_refuted",
    "C84_nyquist_refuted",
    "C84_real"
   ],
   "note": ""
  },
  {
   "property": "C85",
   "status": "proved",
   "theorems": [
    "C85_walk",
    "C85_particles",
    "C85_drift",
    "C85_callable",
    "C85_delta_refuted",
    "C85_refused",
    "C85_shape",
    "C85_unusable",
    "C85_column",
    "C85_callable_refuted",
    "C85_delta_axis_refuted",
    "C85_number_refuted"
   ],
   "note": "Exact arithmetic; np.sqrt is any function; arrays of at most two axes with numpy's broadcasting rules; random generators are oracles."
  },
  {
   "property": "C86",
   "status": "proved",
   "theorems": [
    "C86_outcomes",
    "C86_finite",
    "C86_mean",
    "C86_zero_refuted",
    "C86_none"
   ],
   "note": "The random integers are taken as independent and uniform: the mean is over all outcomes, each once."
  },
  {
   "property": "C87",
   "status": "proved",
   "theorems": [
    "C87_outcomes",
    "C87_uniform",
    "C87_zero"
   ],
   "note": "mean number of pairs of frames at each delay in the two dual-camera triggering schemes, by counting all outcomes; the outcomes are equally likely (numpy's randint is taken to be uniform and independent)"
  },
  {
   "property": "C88",
   "status": "proved",
   "theorems": [
    "C88_flag",
    "C88_silent_refuted",
    "C88_build",
    "C88_version",
    "C88_version_refuted",
    "C88_cores",
    "C88_started",
    "C88_refused",
    "C88_fallback_refuted"
   ],
   "note": "import-time decisions of conf.py; refuted: the warning about an invalid variable is unreachable, a numba of major version 1 counts as older than 0.45, the fallback for too many threads fails with AttributeError"
  },
  {
   "property": "C89",
   "status": "proved",
   "theorems": [
    "C89_correlation",
    "C89_difference",
    "C89_structure",
    "C89_in_use",
    "C89_none",
    "C89_reader_refuted"
   ],
   "note": "unused formulas; refuted: _g is off by one (index > len(a))"
  },
  {
   "property": "C90",
   "status": "proved",
   "theorems": [
    "C90_shown",
    "C90_refused",
    "C90_range",
    "C90_scale",
    "C90_centre",
    "C90_flat_refuted"
   ],
   "note": "exact arithmetic, the transform is the exact DFT"
  },
  {
   "property": "C91",
   "status": "proved",
   "theorems": [
    "C91_value",
    "C91_half",
    "C91_even",
    "C91_refused",
    "C91_average",
    "C91_average_refuted"
   ],
   "note": "psf_gauss is a parameter; the mesh coordinate i*height/navg is truncated exactly"
  },
  {
   "property": "C92",
   "status": "proved",
   "theorems": [
    "C92_pixels",
    "C92_mask",
    "C92_wrong_mask",
    "C92_two",
    "C92_weight",
    "C92_two_refuted"
   ],
   "note": "Arrays are functions of positions with a shape and numpy broadcasting; the out argument is not modelled. The per-pixel claim for single arrays needs a first axis other than two (C92_two and C92_two_refuted show what happens otherwise)."
  },
  {
   "property": "C93",
   "status": "proved",
   "theorems": [
    "C93_cross",
    "C93_auto",
    "C93_fft",
    "C93_sums",
    "C93_ccorr",
    "C93_acorr",
    "C93_layout",
    "C93_pipeline",
    "C93_out",
    "C93_shapes",
    "C93_axis",
    "C93_axis_fft",
    "C93_complex_diff",
    "C93_aligned",
    "C93_axis_refuted"
   ],
   "note": "copies and dtypes of arrays not modelled; numpy's AxisError is IndexError"
  },
  {
   "property": "C94",
   "status": "proved",
   "theorems": [
    "C94_average",
    "C94_merge",
    "C94_real",
    "C94_undecided",
    "C94_hermitian",
    "C94_merge_unfolded_refuted",
    "C94_average_unfolded_refuted"
   ],
   "note": "fold=True in full; fold=False is offered by the documentation and refuted: log_merge refuses rows of 2n-1 entries, log_average puts negative delays at positive times."
  },
  {
   "property": "C95",
   "status": "proved",
   "theorems": [
    "C95_multilevel",
    "C95_merge_levels",
    "C95_average",
    "C95_merge",
    "C95_pixels"
   ],
   "note": "One equation per function covers values and exceptions of every pixel."
  },
  {
   "property": "C96",
   "status": "proved",
   "theorems": [
    "C96_cross",
    "C96_auto",
    "C96_divisor",
    "C96_one_axis",
    "C96_mask",
    "C96_mask_refused",
    "C96_block_means",
    "C96_axis_refuted",
    "C96_divisor_refuted",
    "C96_mask_divisor_refuted",
    "C96_mask_axes_refuted"
   ],
   "note": "Refuted parts of the documentation: C96_axis_refuted, C96_divisor_refuted, C96_mask_divisor_refuted, C96_mask_axes_refuted."
  },
  {
   "property": "C97",
   "status": "proved",
   "theorems": [
    "C97_multi",
    "C97_multi_auto",
    "C97_iter",
    "C97_iter_auto",
    "C97_divisor",
    "C97_divisor_auto",
    "C97_one_axis",
    "C97_one_axis_auto",
    "C97_mask",
    "C97_mask_auto",
    "C97_mask_iter",
    "C97_mask_iter_auto",
    "C97_in_memory",
    "C97_divisor_refuted",
    "C97_mask_divisor_refuted",
    "C97_other_shape_refuted",
    "C97_in_memory_complex",
    "C97_in_memory_auto",
    "C97_empty",
    "C97_short"
   ],
   "note": ""
  },
  {
   "property": "C98",
   "status": "proved",
   "theorems": [
    "C98_phase_real",
    "C98_phase_complex",
    "C98_phase_diff",
    "C98_phase_auto",
    "C98_phase_auto_diff",
    "C98_stats",
    "C98_two_phases",
    "C98_dft_shift",
    "C98_moved_video",
    "C98_analysis",
    "C98_equalize"
   ],
   "note": "Translations are around the edges (np.roll), for which the phase is exact; particles that leave the frame are outside. The second phase theorem needs norms without the squares, since the structured norms mix the signals."
  },
  {
   "property": "C99",
   "status": "proved",
   "theorems": [
    "C99_bar",
    "C99_bar_grows",
    "C99_progress",
    "C99_frame_rate",
    "C99_rate_of",
    "C99_result",
    "C99_no_count",
    "C99_messages_harmless_refuted",
    "C99_printed",
    "C99_multi_steps",
    "C99_multi_bars"
   ],
   "note": "Formatting of floating point numbers is a parameter; ticks of the clock are integers. That messages never change a result is refuted (C99_messages_harmless_refuted): at level 2 a video loaded within one tick of the clock ends with ZeroDivisionError."
  },
  {
   "property": "C100",
   "status": "proved",
   "theorems": [
    "C100_gain_real",
    "C100_gain_complex",
    "C100_gain_diff",
    "C100_gain_auto",
    "C100_gain_auto_complex",
    "C100_gain_auto_diff",
    "C100_gain_stats",
    "C100_flicker_spectra",
    "C100_flicker_frames",
    "C100_two_ways",
    "C100_analysis"
   ],
   "note": "The gain is proved for ccorr, ccorr_complex, acorr, acorr_complex and the differences; the two ways of normalizing for ccorr and acorr."
  },
  {
   "property": "C101",
   "status": "proved",
   "theorems": [
    "C101_consistent",
    "C101_call",
    "C101_same",
    "C101_names",
    "C101_k_indexmap",
    "C101_settled",
    "C101_overrides",
    "C101_filters",
    "C101_reset_refuted",
    "C101_skip"
   ],
   "note": "warnings.warn and warnings.simplefilter of the Python library are modelled; 'reset filter' in a comment of the code is refuted (C101_reset_refuted)."
  },
  {
   "property": "C102",
   "status": "proved",
   "theorems": [
    "C102_values",
    "C102_second_pass",
    "C102_error",
    "C102_same_as_copy",
    "C102_types",
    "C102_numbers",
    "C102_integers",
    "C102_normalize",
    "C102_aliased_refuted",
    "C102_dtype_refuted",
    "C102_half_done_refuted",
    "C102_operations"
   ],
   "note": "Videos held in memory (lists of arrays or views); floating point numbers are exact; numpy's rules for unsigned integers and numbers are modelled."
  },
  {
   "property": "C103",
   "status": "proved",
   "theorems": [
    "C103_range",
    "C103_ends",
    "C103_play",
    "C103_fast",
    "C103_stop",
    "C103_steps",
    "C103_still",
    "C103_fast_refuted"
   ],
   "note": "The value of the slider is exact (hundredths of a frame); Slider.set_val stores it unrounded, as matplotlib does."
  },
  {
   "property": "C104",
   "status": "proved",
   "theorems": [
    "C104_gaussian",
    "C104_poisson",
    "C104_poisson_counts",
    "C104_bit_depth",
    "C104_no_letters",
    "C104_levels",
    "C104_more_bits",
    "C104_adc",
    "C104_none",
    "C104_dark",
    "C104_negative_refuted"
   ],
   "note": "Moments are those of finitely many equally likely draws; the square root is a parameter whose square is the signal."
  },
  {
   "property": "C105",
   "status": "proved",
   "theorems": [
    "C105_products",
    "C105_energy",
    "C105_differences",
    "C105_half",
    "C105_faithful",
    "C105_faithful_half",
    "C105_width_refuted"
   ],
   "note": "The transform is the exact discrete Fourier transform."
  },
  {
   "property": "C106",
   "status": "proved",
   "theorems": [
    "C106_injective",
    "C106_unique",
    "C106_numbers",
    "C106_fresh",
    "C106_fft_cameras",
    "C106_fft_twice_refuted",
    "C106_same_title"
   ],
   "note": "Viewers are numbers; the user does not give titles of the form Fig.n themselves (numbered)."
  },
  {
   "property": "C107",
   "status": "proved",
   "theorems": [
    "C107_range",
    "C107_swap",
    "C107_equal",
    "C107_light",
    "C107_flicker",
    "C107_sizes",
    "C107_cv"
   ],
   "note": "Numbers are exact; infinities and nan are one value."
  },
  {
   "property": "C108",
   "status": "proved",
   "theorems": [
    "C108_nearest",
    "C108_values",
    "C108_opened",
    "C108_drawn",
    "C108_placed",
    "C108_zero_refuted",
    "C108_reach",
    "C108_reach_refuted"
   ],
   "note": "Matplotlib is modelled as sliders that keep values inside their limits and selectors that call back; drawing and data_repr are left out. C108_drawn needs that set_mask had not been called before the figure was opened (v_maps = None)."
  },
  {
   "property": "C109",
   "status": "proved",
   "theorems": [
    "C109_allowed",
    "C109_click",
    "C109_session",
    "C109_reach",
    "C109_structured_refuted",
    "C109_recursion_refuted"
   ],
   "note": "The data is reduced to the kind of tuple and the sums it has; set_active of matplotlib turns the box and calls the callback. Masks and drawing of the callback are those of C108."
  }
 ]
}