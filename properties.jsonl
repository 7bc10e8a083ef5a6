{"id": "C01", "title": "cross_correlate returns the pair sum at every delay", "statement": "For complex=False, out[k] of cross_correlate(f1,f2,t1,t2,n) is exactly the sum over all index pairs (i,j) with |t2[j]-t1[i]| = k of Re(conj(f1[i])*f2[j]), for every k < n; pairs with a larger delay are ignored and nothing else contributes.", "quantifier": "all signals f1,f2, all integer time arrays t1,t2 (any order, repeated or negative times) and all output lengths n", "why_tests_cant": "the double loop scatters into the output through data-dependent indices; a test only samples particular time arrays", "anchors": ["cddm/core.py:cross_correlate", "cddm/_core_nb.py:_cross_corr", "cddm/_core_nb.py:_cross_corr_vec"]}
{"id": "C02", "title": "complex cross_correlate stores signed delays", "statement": "For complex=True the output has 2n-1 entries; entry k (0<=k<n) is the sum of conj(f1[i])*f2[j] over pairs with t2[j]-t1[i]=k and entry -k (Python negative index) the sum over pairs with t2[j]-t1[i]=-k. The docstring formula f1[i]*conj(f2[j]) is the complex conjugate of what is computed.", "quantifier": "all complex signals, all integer time arrays, all n >= 1", "why_tests_cant": "negative indices wrap around inside the kernel; every delay of both signs must land in its own cell for every n", "anchors": ["cddm/core.py:cross_correlate", "cddm/_core_nb.py:_cross_corr_complex"]}
{"id": "C03", "title": "auto_correlate counts every unordered pair once", "statement": "auto_correlate(f,t,n)[k] is the sum over i<=j with |t[j]-t[i]|=k of Re(conj(f[i])*f[j]) (complex=True: conj of the earlier frame times the later frame, whatever the order the frames are stored in).", "quantifier": "all signals, all integer time arrays including unsorted ones, all n", "why_tests_cant": "the negative-delay branch is only reached by unsorted times", "anchors": ["cddm/core.py:auto_correlate", "cddm/_core_nb.py:_auto_corr", "cddm/_core_nb.py:_auto_corr_complex"]}
{"id": "C04", "title": "regular-spacing algorithms agree with the irregular ones", "statement": "With t omitted (regular data, aligned memory) cross_correlate, cross_difference, auto_correlate, auto_difference (real and complex) return exactly what the irregular algorithm returns for t=0,1,...,L-1, and never read outside the input arrays, whenever n <= L+1.", "quantifier": "all signals of equal length L and all n <= L+1", "why_tests_cant": "which kernel runs depends on memory layout; agreement is needed for every length and n", "anchors": ["cddm/_core_nb.py:_cross_corr_regular", "cddm/_core_nb.py:_cross_corr_complex_regular", "cddm/_core_nb.py:_auto_corr_regular", "cddm/_core_nb.py:_auto_corr_complex_regular", "cddm/_core_nb.py:_cross_diff_regular", "cddm/_core_nb.py:_auto_diff_regular"]}
{"id": "C05", "title": "pixels are processed independently", "statement": "The multi-pixel (vectorised) kernels give, for each pixel, the output of the one-dimensional kernel on that pixel's time series, so the result does not depend on frame shape, thread_divisor or memory layout.", "quantifier": "all frame sizes, all frames, all time arrays", "why_tests_cant": "row-at-a-time accumulation touches every pixel of a row in one call; independence has to hold for every shape", "anchors": ["cddm/_core_nb.py:_cross_corr_vec", "cddm/_core_nb.py:_cross_corr_add_vec", "cddm/_core_nb.py:_auto_corr_vec", "cddm/_core_nb.py:_cross_diff_vec", "cddm/_core_nb.py:_cross_sum_vec"]}
{"id": "C06", "title": "cross_difference is the mean square difference and matches correlation", "statement": "cross_difference(f1,f2,t1,t2)[k] is the sum over pairs at delay k of |f2[j]-f1[i]|^2, and equals (sum of squares at delay k) - 2*cross_correlate[k], where the sum of squares is cross_sum(|f1|^2)+cross_sum(|f2|^2) as returned by ccorr. It is never negative.", "quantifier": "all signals, times and n", "why_tests_cant": "algebraic identity between three independent kernels for every input", "anchors": ["cddm/core.py:cross_difference", "cddm/core.py:auto_difference", "cddm/_core_nb.py:_cross_diff", "cddm/_core_nb.py:_auto_diff", "cddm/_core_nb.py:_cross_sum"]}
{"id": "C07", "title": "count arrays count the contributing pairs", "statement": "cross_count(t1,t2,n)[k] / auto_count(t,n)[k] is exactly the number of pairs that contribute to cross_correlate / auto_correlate at delay k; it equals the correlation of all-ones signals with the same times.", "quantifier": "all integer time arrays, all n, real and complex layout", "why_tests_cant": "division by count is only a mean if count and data kernels select exactly the same pairs for every input", "anchors": ["cddm/core.py:cross_count", "cddm/core.py:auto_count", "cddm/_core_nb.py:_add_count_cross", "cddm/_core_nb.py:_add_count_cross_complex", "cddm/_core_nb.py:_add_count_auto"]}
{"id": "C08", "title": "cross_sum sums the first signal over contributing pairs", "statement": "cross_sum(f,t,t_other,n)[k] = sum over pairs (i,j) with |t_other[j]-t[i]|=k of f[i]; complex=True separates the signs of t_other[j]-t[i], time_inversion=True exchanges them. The regular-spacing running-sum implementations return the same values for n <= L+1.", "quantifier": "all signals, times, n; real and complex layouts, both time directions", "why_tests_cant": "the regular implementation updates a running total by subtracting the two edge samples each step; correctness is an induction over the delay", "anchors": ["cddm/core.py:cross_sum", "cddm/_core_nb.py:_cross_sum", "cddm/_core_nb.py:_cross_sum_complex", "cddm/_core_nb.py:_cross_sum_regular", "cddm/_core_nb.py:_cross_sum_complex_regular", "cddm/_core_nb.py:_cross_sum_complex_regular_inverted"]}
{"id": "C09", "title": "auto_sum averages the two ends of each pair", "statement": "auto_sum(f,t,n)[k] = sum over i<=j with |t[i]-t[j]|=k of (f[i]+f[j])/2 whenever no two frames share the same time; with repeated times the value at delay zero is different from that documented formula.", "quantifier": "all signals and all time arrays without repeats (plus a witness with repeats)", "why_tests_cant": "the implementation derives it from cross_sum by halving all delays but zero", "anchors": ["cddm/core.py:auto_sum"]}
{"id": "C10", "title": "aout accumulates data sets", "statement": "Passing a previous result as aout adds the new contribution cell by cell: the result equals previous + fresh result, so processing several data sets in any order and grouping gives the sum of their separate results (correlation, difference, sum and count arrays).", "quantifier": "all initial output arrays and all inputs, any sequence of data sets", "why_tests_cant": "an accumulation law over all histories of calls", "anchors": ["cddm/core.py:_default_out", "cddm/core.py:cross_correlate", "cddm/core.py:ccorr"]}
{"id": "C11", "title": "correlations depend only on time differences and not on storage order", "statement": "Adding one constant to all times leaves every correlation, difference, sum and count result unchanged (the internal subtraction of the minimum is invisible), and permuting frames together with their times leaves cross_correlate, cross_difference, cross_sum and the real auto_correlate unchanged. Exchanging the two inputs leaves the real cross-correlation unchanged and conjugates and reverses the complex one.", "quantifier": "all shifts, all permutations, all inputs", "why_tests_cant": "quantifies over all permutations", "anchors": ["cddm/core.py:_inspect_cross_arguments", "cddm/core.py:_inspect_auto_arguments", "cddm/core.py:cross_correlate"]}
{"id": "C12", "title": "the default output length keeps every pair", "statement": "With n omitted every pair of frames contributes to exactly one delay: the entries of cross_count add up to len(t1)*len(t2), those of auto_count to L(L+1)/2, and the last delay is actually reached by some pair.", "quantifier": "all non-empty time arrays", "why_tests_cant": "conservation law over all inputs", "anchors": ["cddm/core.py:_determine_full_length_cross", "cddm/core.py:_determine_full_length_auto", "cddm/core.py:_default_count"]}
{"id": "C13", "title": "the fft method equals the direct method", "statement": "In exact arithmetic cross_correlate_fft / auto_correlate_fft return the same array as cross_correlate / auto_correlate (real and complex) whenever the times in each array are distinct and n does not exceed the time span by more than one. With repeated times, or with n larger than that, the outputs differ.", "quantifier": "all complex signals, all distinct integer times, all lengths; witnesses for the excluded cases", "why_tests_cant": "needs orthogonality of the DFT for every length", "anchors": ["cddm/core.py:cross_correlate_fft", "cddm/core.py:auto_correlate_fft", "cddm/_core_nb.py:_cross_corr_fft_regular", "cddm/_core_nb.py:_cross_corr_fft", "cddm/_core_nb.py:_auto_corr_fft", "cddm/_core_nb.py:_fill_data"]}
{"id": "C14", "title": "cross_sum_fft equals cross_sum", "statement": "In exact arithmetic cross_sum_fft / auto_sum_fft return the same values as cross_sum / auto_sum for distinct times and n within the time span.", "quantifier": "all signals, all distinct times", "why_tests_cant": "needs orthogonality of the DFT for every length", "anchors": ["cddm/core.py:cross_sum_fft", "cddm/core.py:auto_sum_fft", "cddm/_core_nb.py:_cross_sum_fft", "cddm/_core_nb.py:_cross_sum_complex_fft", "cddm/_core_nb.py:_fill_ones"]}
{"id": "C15", "title": "folding the complex correlation gives the real one", "statement": "For every input, Re(complex[0]) = real[0] and Re(complex[k]+complex[-k]) = real[k] for 1<=k<n, and the complex count folds to the real count in the same way.", "quantifier": "all signals, times and n", "why_tests_cant": "relation between two separately written kernels, for all inputs", "anchors": ["cddm/_core_nb.py:_cross_corr", "cddm/_core_nb.py:_cross_corr_complex", "cddm/_core_nb.py:_add_count_cross_complex"]}
{"id": "C16", "title": "auto-correlation is half of the cross-correlation of a signal with itself", "statement": "For distinct times, ccorr(f,f,t,t) equals acorr(f,t) at delay 0 and is twice acorr(f,t) at every other delay, simultaneously for the correlation, the count, and the signal sums, so the normalized results of acorr and of ccorr(f,f) agree.", "quantifier": "all signals, all distinct times, all n", "why_tests_cant": "relation between two families of kernels for all inputs", "anchors": ["cddm/core.py:acorr", "cddm/core.py:ccorr", "cddm/core.py:auto_sum"]}
{"id": "C17", "title": "norm and method arguments are validated and decide which arrays are returned", "statement": "ccorr/acorr accept exactly the documented (norm, method) combinations and raise ValueError otherwise; the squares array is returned iff the STRUCTURED bit is set (corr/fft), the sums iff the SUBTRACTED bit is set.", "quantifier": "all norm integers, all methods, both auto and cross", "why_tests_cant": "exhaustive over the decision table and all integers", "anchors": ["cddm/core.py:_default_method", "cddm/core.py:_default_norm", "cddm/core.py:ccorr", "cddm/core.py:acorr"]}
{"id": "C18", "title": "background-subtracted normalization equals correlating background-subtracted signals", "statement": "normalize(ccorr(f1,f2,...), background=(b1,b2), norm=SUBTRACTED|STANDARD)[k] equals ccorr(f1-b1,f2-b2)[k]/count[k], for every delay with a non-zero count; real and complex.", "quantifier": "all signals, times, backgrounds b1,b2 (not only true means), all delays", "why_tests_cant": "algebraic identity over all data", "anchors": ["cddm/norm.py:normalize", "cddm/_core_nb.py:_normalize_corr_subtracted_real", "cddm/_core_nb.py:_normalize_corr_subtracted_complex"]}
{"id": "C19", "title": "structured normalization equals variance minus half the mean square difference", "statement": "norm=STRUCTURED|SUBTRACTED yields var - 1/2 * mean over pairs at delay k of |(f2[j]-b2)-(f1[i]-b1)|^2; norm=STRUCTURED yields var - 1/2*mean|f2[j]-f1[i]|^2 + 1/2*|b1-b2|^2.", "quantifier": "all signals, times, backgrounds, variances, delays with non-zero count", "why_tests_cant": "algebraic identity over all data", "anchors": ["cddm/norm.py:normalize", "cddm/_core_nb.py:_normalize_struct_subtracted_real", "cddm/_core_nb.py:_normalize_struct_baseline_real"]}
{"id": "C20", "title": "compensated normalization removes the delay-dependent mean", "statement": "norm=COMPENSATED|STANDARD equals the per-delay covariance (mean of products minus product of the per-delay means); COMPENSATED|STRUCTURED equals var - 1/2*(mean square difference minus |difference of per-delay means|^2).", "quantifier": "all data with non-zero count", "why_tests_cant": "algebraic identity over all data", "anchors": ["cddm/_core_nb.py:_normalize_corr_compensated_real", "cddm/_core_nb.py:_normalize_corr_compensated_complex", "cddm/_core_nb.py:_normalize_struct_compensated_real"]}
{"id": "C21", "title": "difference-method data and structured correlation data normalize to the same result", "statement": "For the same signals, normalize of method='diff' data and normalize of method='corr' data agree for norm 2 and norm 6 in both output modes 'corr' and 'diff'.", "quantifier": "all signals, times, backgrounds, variances, delays with non-zero count", "why_tests_cant": "two independent computation paths must agree for all inputs", "anchors": ["cddm/norm.py:normalize", "cddm/_core_nb.py:_normalize_cdiff_1", "cddm/_core_nb.py:_normalize_cdiff_3"]}
{"id": "C22", "title": "output modes are inverse representations", "statement": "mode='diff' output equals 2*(var - corr) of the mode='corr' output, for every norm and method; converting back and forth is the identity.", "quantifier": "all data, all supported norms", "why_tests_cant": "identity over all inputs", "anchors": ["cddm/norm.py:_diff2corr", "cddm/norm.py:_corr2diff", "cddm/norm.py:normalize"]}
{"id": "C23", "title": "normalization is blind to constant offsets", "statement": "Adding constants c1,c2 to the two signals (and to their backgrounds) leaves the results for norms 5, 6, 9 and 10 unchanged; multiplying both signals by a real gain g multiplies the result by g^2.", "quantifier": "all constants, gains and data", "why_tests_cant": "invariance over all inputs", "anchors": ["cddm/norm.py:normalize"]}
{"id": "C24", "title": "complex normalization: real part is the real normalization; empty delays are infinite", "statement": "For each norm the complex normalization of complex data equals the complex formula with real part identical to the real-data normalization of the real parts, and a delay with zero count gives inf+inf*j rather than an error.", "quantifier": "all data, all norms", "why_tests_cant": "case analysis over all norms and counts", "anchors": ["cddm/_core_nb.py:_normalize_struct_subtracted_complex", "cddm/_core_nb.py:_normalize_struct_baseline_complex", "cddm/_core_nb.py:_normalize_struct_compensated_complex"]}
{"id": "C25", "title": "weighted normalization is a convex combination", "statement": "weighted_sum(x,y,w) lies between x and y for 0<=w<=1, returns x at w=1 and y at w=0 and the common value if x=y; the weight computed by weight_from_g is in [0,1] for g>=0, in [-1,1] always, 1 exactly iff g=1 and delta=0, and minimizes the predicted variance sigma_weighted over all weights.", "quantifier": "all real g, delta, x, y, w", "why_tests_cant": "real-analysis statement over a continuum", "anchors": ["cddm/_core_nb.py:weighted_sum", "cddm/_core_nb.py:weight_from_g", "cddm/_core_nb.py:sigma_weighted"]}
{"id": "C26", "title": "normalization flags always form a supported norm", "statement": "norm_flags for every argument combination and norm_from_string for every string accepted return one of the norms normalize supports (1,2,3,5,6,7,9,10,11,13,14,15), and unknown words raise ValueError; COMPENSATED together with SUBTRACTED is treated exactly like SUBTRACTED.", "quantifier": "all flag combinations and all word lists", "why_tests_cant": "all finite word lists (unbounded)", "anchors": ["cddm/norm.py:norm_flags", "cddm/norm.py:norm_from_string", "cddm/norm.py:_norm_from_ccorr_data", "cddm/norm.py:normalize"]}
{"id": "C27", "title": "data computed with a norm can be normalized with that norm", "statement": "For each norm accepted by ccorr/acorr the returned tuple is accepted by normalize with the same norm, and with every norm whose flags are a subset of what the data supports; requests the data cannot support raise ValueError instead of returning a value.", "quantifier": "all norms, methods, auto/cross", "why_tests_cant": "whole decision table", "anchors": ["cddm/norm.py:_norm_from_ccorr_data", "cddm/norm.py:_norm_from_cdiff_data", "cddm/core.py:_default_norm"]}
{"id": "C28", "title": "fold_data", "statement": "For data of length 2n-1 with signed delays, mode=1 returns the positive delays, mode=0 returns at delay i the mean of data[i] and conj(data[-i]) (and data[0] at 0). mode=-1, documented to return data[-i] at delay i, returns data[-(i+1)] for i>=1: every delay is off by one and the last entry is the largest positive delay.", "quantifier": "all data, all n>=1", "why_tests_cant": "index arithmetic for every n", "anchors": ["cddm/norm.py:fold_data"]}
{"id": "C29", "title": "binning levels hold block means", "statement": "Level l of the in-memory multi-tau calculation correlates the signal whose k-th sample is the mean of the 2^l consecutive frames k*2^l .. (k+1)*2^l-1 (BINNING_MEAN) or frame k*2^l (BINNING_FIRST); trailing frames that do not fill a block are dropped in MEAN mode.", "quantifier": "all signals of every length, all levels", "why_tests_cant": "induction over levels for every length including odd ones", "anchors": ["cddm/multitau.py:mean_data_cpu", "cddm/multitau.py:mean_data_parallel", "cddm/multitau.py:slice_data", "cddm/multitau.py:_compute_multi"]}
{"id": "C30", "title": "the number of multi-tau levels is maximal", "statement": "With nlevel omitted the computed number of levels is the largest one for which the most coarse-grained signal still has at least level_size samples; ccorr_multi needs level_size > 4 and at least level_size frames.", "quantifier": "all lengths and level sizes", "why_tests_cant": "loop with an unbounded number of iterations", "anchors": ["cddm/multitau.py:_determine_lengths"]}
{"id": "C31", "title": "streaming buffers hold the binned signal of the current and previous chunk", "statement": "While frames are added one by one, after any number of frames each level of the ring buffer holds, at slot k mod chunk_size, the block mean of the most recent complete block number k; in particular both halves (current and previous chunk) are intact whenever a chunk completes.", "quantifier": "all frame sequences of any length, all even chunk sizes, all levels", "why_tests_cant": "invariant over all histories", "anchors": ["cddm/multitau.py:_add_data1", "cddm/multitau.py:_add_data2"]}
{"id": "C32", "title": "iccorr in full mode equals ccorr", "statement": "iccorr(mode='full') over a stream returns, for the correlation, count, squares and sums, exactly the arrays ccorr would return on the first nframes frames held in memory, provided n <= chunk_size for regular times (for irregular times: no two frames in non-adjacent chunks are closer than n).", "quantifier": "all frame streams, all chunk sizes, all n", "why_tests_cant": "induction over the number of chunks", "anchors": ["cddm/core.py:iccorr", "cddm/multitau.py:_compute_multi"]}
{"id": "C33", "title": "iacorr in full mode equals acorr for real correlation", "statement": "The same for iacorr and acorr with complex=False.", "quantifier": "all frame streams, all chunk sizes, all n", "why_tests_cant": "induction over the number of chunks", "anchors": ["cddm/core.py:iacorr", "cddm/multitau.py:_compute_multi"]}
{"id": "C34", "title": "iccorr_multi equals ccorr_multi at every level", "statement": "With nlevel omitted and BINNING_MEAN, each slow level of iccorr_multi(mode='full') equals the same level of ccorr_multi on the first nframes frames.", "quantifier": "all frame streams, all chunk sizes, all level sizes", "why_tests_cant": "induction over chunks and levels", "anchors": ["cddm/multitau.py:iccorr_multi", "cddm/multitau.py:_compute_multi_iter", "cddm/multitau.py:ccorr_multi"]}
{"id": "C35", "title": "chunk mode omits exactly the pairs across chunks", "statement": "mode='chunk' returns the sum over chunks of the result on each chunk alone; for every delay it never counts more pairs than full mode and the missing ones are exactly those whose two frames lie in different chunks.", "quantifier": "all frame streams and chunk sizes", "why_tests_cant": "induction over chunks", "anchors": ["cddm/multitau.py:_compute_multi"]}
{"id": "C36", "title": "the number of processed frames", "statement": "The streaming functions process nframes = chunk_size*2^D frames with nframes <= count < 2*nframes; additional frames of the iterator are ignored, and an iterator that ends early raises ValueError instead of returning partial data.", "quantifier": "all counts, chunk sizes, iterator lengths", "why_tests_cant": "loop with unbounded iterations, all stream lengths", "anchors": ["cddm/multitau.py:_compute_multi_iter", "cddm/multitau.py:_default_chunk_size", "cddm/multitau.py:_inspect_t1_t2_count"]}
{"id": "C37", "title": "streaming statistics", "statement": "The background and variance yielded with the n-th chunk are exactly the mean and the variance of all frames processed so far (after subtraction of the automatic background, if enabled, which is the mean of the first chunk).", "quantifier": "all streams, every intermediate yield", "why_tests_cant": "holds at every prefix of every stream", "anchors": ["cddm/multitau.py:_calc_stats", "cddm/_core_nb.py:_add_stats_vec", "cddm/multitau.py:_compute_multi_iter", "cddm/core.py:stats"]}
{"id": "C38", "title": "streaming with an explicit nlevel loses levels", "statement": "The documented equality of iccorr_multi and ccorr_multi fails if nlevel is given explicitly: levels whose block count is below one chunk stay zero with zero counts although the in-memory function fills them.", "quantifier": "there is a stream, chunk size and nlevel", "why_tests_cant": "the defect needs a particular relation of nlevel, chunk size and stream length", "anchors": ["cddm/multitau.py:_compute_multi"]}
{"id": "C39", "title": "complex streaming auto-correlation loses inter-chunk pairs", "statement": "The documented equality of iacorr and acorr fails for complex=True: pairs across chunks are computed at negative delays and then cropped away, so counts at every non-zero delay are too small.", "quantifier": "all streams with at least two chunks", "why_tests_cant": "needs comparison for all streams", "anchors": ["cddm/multitau.py:_compute_multi_iter", "cddm/core.py:iacorr"]}
{"id": "C40", "title": "streaming BINNING_FIRST keeps the last frame of each block", "statement": "With BINNING_FIRST the streaming functions keep frame (k+1)*2^j-1 of block k at level j whereas the in-memory functions keep frame k*2^j, so the documented equality fails for this binning mode.", "quantifier": "all streams", "why_tests_cant": "for all levels and blocks", "anchors": ["cddm/multitau.py:_add_data1", "cddm/multitau.py:slice_data"]}
{"id": "C41", "title": "argument errors of the streaming functions", "statement": "iacorr with its default norm always raises ValueError; iccorr/iacorr with n omitted raise TypeError; iacorr with method 'diff' in full mode raises as soon as a second chunk completes. No input makes these calls succeed.", "quantifier": "all other arguments and all data", "why_tests_cant": "the failure must be shown for every input", "anchors": ["cddm/core.py:iacorr", "cddm/core.py:_default_norm", "cddm/multitau.py:_compute_multi"]}
{"id": "C42", "title": "reshape_input and reshape_output are inverse", "statement": "Reshaping frames for threaded computation, computing pixel by pixel over the first axis and reshaping back gives the result of computing on the frames themselves: for two-axis frames with every divisor of the frame size (also with leading level axes), for more axes without leading axes, and without divisor for frames not having exactly one axis. With a two-axis mask, data comes back at the masked positions and NaN everywhere else. Divisor 0 raises ZeroDivisionError, negative divisors and those that do not divide the frame size raise ValueError, scalar frames TypeError. One-axis frames, a mask together with a divisor, levels of three-axis frames and axis 1 with a divisor do not come back.", "quantifier": "all frame shapes, divisors, masks", "why_tests_cant": "all shapes and masks", "anchors": ["cddm/core.py:reshape_input", "cddm/core.py:reshape_output", "cddm/core.py:reshape_frame", "cddm/core.py:thread_frame_shape"]}
{"id": "C43", "title": "convolve preserves constants, linear data and the range, but not when run in place", "statement": "convolve keeps the length and both end points, maps constant and linear data to themselves, and each interior output is (a[i-1]+2a[i]+a[i+1])/4, so outputs stay within the minimum and maximum of the input. Arrays of length 2 or less raise AssertionError. The compiled kernel itself is not safe in place: run on its own input it reads the neighbour it has just overwritten and computes a recursive filter.", "quantifier": "all arrays longer than 2", "why_tests_cant": "all lengths and values, including aliasing of input and output", "anchors": ["cddm/_core_nb.py:convolve"]}
{"id": "C44", "title": "median is the true running median of three", "statement": "Every interior output of median is the middle one of the three neighbouring values (also for ties), end points are unchanged, and it may be called in place.", "quantifier": "all arrays longer than 2", "why_tests_cant": "all orders and ties", "anchors": ["cddm/_core_nb.py:_median", "cddm/_core_nb.py:_median_slow"]}
{"id": "C45", "title": "decreasing is the running minimum; increasing misses the first sample", "statement": "decreasing returns the running minimum, hence a non-increasing array bounded by the data. increasing never writes its first output, so out[0] is whatever was in the output buffer, and every later value is the maximum of that and the data from the second sample on; only when run in place it is the running maximum.", "quantifier": "all arrays", "why_tests_cant": "depends on uninitialised memory, invisible to most tests", "anchors": ["cddm/_core_nb.py:decreasing", "cddm/_core_nb.py:increasing"]}
{"id": "C46", "title": "interpolate is exact on linear data and at the nodes", "statement": "interpolate returns a*x+b for data a*x+b at every x (also outside the range) and the stored value at each node, for strictly increasing x with at least two nodes.", "quantifier": "all increasing node arrays, all query points", "why_tests_cant": "continuum of inputs", "anchors": ["cddm/_core_nb.py:interpolate"]}
{"id": "C47", "title": "multilevel averaging equals triangular weighting", "statement": "multilevel with BINNING_FIRST returns data[k*2^l] at level l, position k (NaN past the end); with BINNING_MEAN the first value of each level is data[0] and the interior values equal the convolution of the data with triangular_kernel(l), whose weights are non-negative, symmetric and add up to one; linear data are reproduced everywhere and the range is kept; with BINNING_CHOOSE each value is one of the 2^l samples of its block. Complex data are averaged part by part and need a fold argument.", "quantifier": "all data lengths and levels", "why_tests_cant": "induction over levels", "anchors": ["cddm/multitau.py:multilevel", "cddm/multitau.py:triangular_kernel", "cddm/_core_nb.py:convolve"]}
{"id": "C48", "title": "merged log-spaced times are strictly increasing", "statement": "merge_multilevel and log_average return strictly increasing times that start at 0 and double in spacing per level, each paired with the value of its level and position. The times of log_merge increase exactly when there are no slow levels or (n-1)*2^L < period*n, where n is the level size and L the least with period <= 2^L: always when the period is a power of two, but not e.g. for period 3 and n >= 4. Dropping the NaN entries always leaves increasing times.", "quantifier": "all level sizes and numbers of levels", "why_tests_cant": "all sizes; the failure needs an unusual period", "anchors": ["cddm/multitau.py:merge_multilevel", "cddm/multitau.py:log_average", "cddm/multitau.py:log_merge", "cddm/multitau.py:t_multilevel"]}
{"id": "C49", "title": "threaded yields the frames in order, then None", "statement": "For every video, queue size and thread schedule, the iterator returned by threaded yields exactly the frames of the video in order followed by one None, and never blocks forever. (The final None is handed to the consumer as if it were a frame; a None inside the video ends it there; an error of the video ends it silently.)", "quantifier": "all videos, all queue sizes, all interleavings of the two threads", "why_tests_cant": "schedules cannot be enumerated by tests", "anchors": ["cddm/video.py:threaded"]}
{"id": "C50", "title": "play_threaded is the identity on frames", "statement": "For every video and schedule play_threaded yields exactly the frames of the video in order, without a trailing None, and terminates; if the video raises in the background thread the consumer sees a normal, truncated video.", "quantifier": "all videos, all interleavings, fps given or not", "why_tests_cant": "schedules cannot be enumerated by tests", "anchors": ["cddm/video.py:play_threaded"]}
{"id": "C51", "title": "play and show_video do not change the video", "statement": "play, show_video and show_diff yield the frames they receive unchanged and in order, whatever the timing and the state of the display queues, as long as the figures can show them (show_video: the frame id exists; show_diff: exactly two frames; otherwise the video ends there with an error after a prefix); at most one pending image is ever queued. With dt, show_diff cuts the video to the shorter of t1 and t2.", "quantifier": "all videos, all clock readings, all display consumers", "why_tests_cant": "depends on wall clock", "anchors": ["cddm/video.py:play", "cddm/video.py:show_video", "cddm/video.py:show_diff"]}
{"id": "C52", "title": "asarrays and fromarrays are inverse", "statement": "asarrays(fromarrays(arrays), count=len) returns the arrays; a count smaller than the video raises IndexError, a larger one leaves uninitialised rows at the end, an empty video raises StopIteration, a missing count of a video without length ValueError; load returns the multi-frames. asmemmaps on a list always raises TypeError, with or without count.", "quantifier": "all videos and counts", "why_tests_cant": "all lengths", "anchors": ["cddm/video.py:asarrays", "cddm/video.py:fromarrays", "cddm/video.py:asmemmaps", "cddm/video.py:load"]}
{"id": "C53", "title": "frame arithmetic on videos", "statement": "add(subtract(x,y),y) = x on the common prefix (also in the wrap-around arithmetic of unsigned frames), subtract/add/multiply yield min(len x, len y) frames with the pixelwise values and raise ValueError at the first multi-frame with a different number of frames (earlier frames having been yielded); crop and mask act on each frame of each multi-frame alone and select the right pixels; normalize_video gives each frame with non-zero mean the mean 1.", "quantifier": "all videos", "why_tests_cant": "all videos and lengths, partial output before the error", "anchors": ["cddm/video.py:subtract", "cddm/video.py:add", "cddm/video.py:multiply", "cddm/video.py:crop", "cddm/video.py:mask"]}
{"id": "C54", "title": "data_trigger selects exactly the requested items", "statement": "For non-empty non-negative indices data_trigger yields data[i] for the distinct indices i in increasing order (those within the data); a negative index blocks all output; empty indices raise.", "quantifier": "all data and index lists, with repetitions, in any order", "why_tests_cant": "all lists", "anchors": ["cddm/sim.py:data_trigger"]}
{"id": "C55", "title": "particles_video pairs the frames of both cameras", "statement": "For increasing times on both cameras particles_video yields exactly one dual frame per k, made from the particle positions at t1[k] and t2[k], if and only if for all k the exposures of frame k of both cameras precede those of frame k+1; otherwise frames are silently lost. With one camera everything after the first time that does not increase is lost.", "quantifier": "all increasing time sequences satisfying the condition; witness otherwise", "why_tests_cant": "state machine over all time sequences", "anchors": ["cddm/sim.py:particles_video", "cddm/sim.py:create_random_times1", "cddm/sim.py:create_random_times2"]}
{"id": "C56", "title": "random trigger times", "statement": "create_random_time yields strictly increasing times, one per period of n, with gaps of at least dt_min (for dt_min <= n) for every outcome of the random generator; for dt_min = n+1 some outcome raises ValueError. create_random_times1/2 yield times in period k that satisfy the pairing condition of particles_video, so simple_brownian_video yields one dual frame per period.", "quantifier": "all random outcomes, all nframes, n", "why_tests_cant": "all random outcomes", "anchors": ["cddm/sim.py:create_random_time", "cddm/sim.py:create_random_times1", "cddm/sim.py:create_random_times2"]}
{"id": "C57", "title": "mirror wraps into the box", "statement": "mirror(x,x0,x1) with x0<x1 terminates and returns the unique value in [x0,x1) that differs from x by a multiple of x1-x0; all coordinates yielded by brownian_walk are inside the box, and exactly count coordinates are yielded. With a reversed box mirror never returns.", "quantifier": "all x, all boxes, all random steps", "why_tests_cant": "termination and all random walks", "anchors": ["cddm/_sim_nb.py:mirror", "cddm/sim.py:brownian_walk"]}
{"id": "C58", "title": "adc_clean clips and is monotone", "statement": "The ADC output is always within 0..max_value, non-decreasing in the signal, 0 at or below black level and max_value at or above saturation plus black level; the frame dtype check accepts exactly the documented intensities except that uint16 intensities above 65535 are accepted. The fixed conversions adc_8bit to adc_16bit have the same properties and differ from adc by at most one step.", "quantifier": "all signals and parameters with positive saturation", "why_tests_cant": "continuum", "anchors": ["cddm/_sim_nb.py:adc_clean", "cddm/sim.py:adc", "cddm/sim.py:_inspect_frame_dtype"]}
{"id": "C59", "title": "cropping FFT data keeps every retained frequency", "statement": "fft2_crop and rfft2_crop with kimax>=1 (kjmax>=1) return at each signed frequency (|ki|<=kimax, |kj|<=kjmax) the input value of the same frequency, raise ValueError for cut-offs that do not fit; kimax=0 on a frame with more than one row never succeeds.", "quantifier": "all frame sizes and cut-offs", "why_tests_cant": "negative-index slicing for all sizes and parities", "anchors": ["cddm/fft.py:rfft2_crop", "cddm/fft.py:fft2_crop", "cddm/fft.py:_determine_cutoff_indices"]}
{"id": "C60", "title": "half-plane and full-plane FFT data are interchangeable", "statement": "from_rfft2_data(as_rfft2_data(f), shape) = f for every Hermitian-symmetric f of either parity of height and width when the shape is given; as_rfft2_conj(f)[i,j] = f[-i,-j] for j>=1. Without the shape argument an even width comes back with width+1 columns.", "quantifier": "all sizes and parities, all Hermitian data", "why_tests_cant": "reversal slices for all parities", "anchors": ["cddm/map.py:from_rfft2_data", "cddm/map.py:as_rfft2_data", "cddm/map.py:as_rfft2_conj", "cddm/map.py:as_fft2_shape"]}
{"id": "C61", "title": "sector index maps", "statement": "Every wavevector gets either -1 or exactly the index of the ring nearest to its length; rings partition all lengths. A sector contains exactly the angles within sector/2 of its mean modulo a full turn, except at the two boundary angles, whose inclusion depends on whether the sector wraps: two complementary half-plane sectors (angle 0 and 180, width 180) both omit +90 degrees and both include -90 degrees.", "quantifier": "all angles, sectors, wavevector maps", "why_tests_cant": "continuum of angles", "anchors": ["cddm/map.py:fft2_sector_indexmap", "cddm/map.py:sector_indexmap", "cddm/map.py:fft2_grid", "cddm/map.py:rfft2_grid", "cddm/map.py:fft2_k_indexmap", "cddm/map.py:_kangle"]}
{"id": "C62", "title": "k_select: what it returns, and the calls that always fail", "statement": "In mode fft2 with a list k_select returns one entry (mean length, mean data) for each listed k that occurs in the index map and none for the others, k=None tries all indices, and masked data gives the same as full data with the mask. A scalar k never succeeds (TypeError) although the documentation promises a (k, data) tuple. In the default mode rfft2 with three or more columns every call with a k that occurs raises IndexError (k=None always does), and with a mask every non-empty list raises ValueError, because the conjugate mask is taken of the already halved mask.", "quantifier": "all data and parameters", "why_tests_cant": "all inputs fail", "anchors": ["cddm/map.py:k_select", "cddm/map.py:_k_select_real", "cddm/map.py:_k_select_complex"]}
{"id": "C63", "title": "configuration setters keep a usable library selected", "statement": "After any sequence of set_fftlib, set_rfft2lib, set_showlib, set_verbose calls with any strings the selected library is a supported and installed one, and every function of fft.py finds a branch with an importable library; an unsupported name raises ValueError and changes nothing, a missing library warns and changes nothing; each setter returns the previous value.", "quantifier": "all sequences of calls and strings, all combinations of installed libraries", "why_tests_cant": "all histories", "anchors": ["cddm/conf.py:set_fftlib", "cddm/conf.py:set_rfft2lib", "cddm/conf.py:set_showlib", "cddm/conf.py:set_verbose"]}
{"id": "C64", "title": "disabling and enabling prints", "statement": "A balanced sequence of v=disable_prints() ... enable_prints(v) restores the verbosity set by the user; but nesting is not supported: an inner pair re-enables printing inside an outer disabled region. The argument of enable_prints has no effect, and a computation that raises inside the region (there is no try/finally) leaves messages switched off.", "quantifier": "all call sequences", "why_tests_cant": "all nestings", "anchors": ["cddm/print_tools.py:disable_prints", "cddm/print_tools.py:enable_prints", "cddm/conf.py:set_verbose"]}
{"id": "C65", "title": "window functions stay within [0,1] and vanish outside the inscribed ellipse", "statement": "blackman, hann, tukey (0<=alpha<=1) take values in [0,1], are 0 exactly at and beyond radius 1, never rise with the radius and are symmetric about the middle of the frame; tukey equals 1 up to radius 1-alpha, tukey(alpha=1) is hann, alpha outside [0,1] raises ValueError; gaussian is in (0,1] and refuses sigma<=0. Radius 0 is a pixel only for odd sizes.", "quantifier": "all shapes, radii and alpha", "why_tests_cant": "continuum", "anchors": ["cddm/window.py:blackman", "cddm/window.py:tukey", "cddm/window.py:hann", "cddm/window.py:_tukey", "cddm/window.py:gaussian"]}
{"id": "C66", "title": "weights with backgrounds are optimal", "statement": "weight_prime_from_g(g, delta, b1, b2) is the unique minimum over all weights of sigma_prime_weighted, whenever |g|^2 <= 1 - delta^2; with zero backgrounds both functions coincide with weight_from_g and sigma_weighted.", "quantifier": "all complex g, b1, b2, all real delta and weights", "why_tests_cant": "real-analysis statement over a continuum", "anchors": ["cddm/_core_nb.py:weight_prime_from_g", "cddm/_core_nb.py:sigma_prime_weighted"]}
{"id": "C67", "title": "the scale option only divides by the variance", "statement": "normalize(scale=True) equals normalize(scale=False) divided by the variance (scale_factor), for all norms and modes, when the weight is given or there is a single variance; with two different variances and a computed weight it does not, because noise_delta is left unscaled.", "quantifier": "all data, backgrounds, variances, norms, modes, weights", "why_tests_cant": "identity over all inputs; only visible with weights and unequal variances", "anchors": ["cddm/norm.py:normalize", "cddm/norm.py:noise_delta", "cddm/norm.py:scale_factor"]}
{"id": "C68", "title": "log_interpolate is exact at the nodes and linear in the logarithm of time", "statement": "log_interpolate returns the stored value at each node, and a*log(t)+b at every t > 1 for data a*log(x)+b at nodes x >= 1. If the first node is 0 and the second one is larger than 1, the values between them mix a linear and a logarithmic scale and are not the stored ones; nodes [0,1] leave the later times with logarithm below 1 (t = 2) unwritten.", "quantifier": "all increasing node arrays and all times", "why_tests_cant": "continuum of inputs; the wrong branch needs a particular pair of first nodes and the unwritten one depends on uninitialised memory", "anchors": ["cddm/avg.py:log_interpolate", "cddm/_core_nb.py:_log_interpolate"]}
{"id": "C69", "title": "denoise commutes with affine maps and keeps the range", "statement": "denoise(x, n) (n rounds of median and convolve) stays within the minimum and maximum of the data, satisfies denoise(a*x+b) = a*denoise(x)+b for every a (also negative) and b, keeps the end points, and raises AssertionError for arrays of length 2 or less.", "quantifier": "all arrays and numbers of rounds", "why_tests_cant": "all values, orders and numbers of rounds", "anchors": ["cddm/avg.py:denoise", "cddm/_core_nb.py:convolve", "cddm/_core_nb.py:_median"]}
{"id": "C70", "title": "coordinate_transform rotates about the centre", "statement": "coordinate_transform returns points of the box; without offset and rotation it is the identity on the box; with them it is, modulo the box, a rotation about the frame centre that keeps distances, followed by the offset.", "quantifier": "all points, shapes, offsets and rotations (cos^2+sin^2=1)", "why_tests_cant": "continuum of coordinates", "anchors": ["cddm/sim.py:coordinate_transform", "cddm/sim.py:_coordinate_rotate"]}
{"id": "C71", "title": "drawing stays inside the frame and sums all particles", "statement": "draw_psf accesses only pixels of the frame exactly when every particle satisfies h+size < 2*height and w+size < 2*width (so for all particles of the frame iff size <= height, width); each pixel then gets, modulo the range of its type, the sum of the spots of all particles that wrap onto it. draw_points adds each intensity at its pixel and refuses lists of different lengths.", "quantifier": "all frames, particles, sizes and point spread functions", "why_tests_cant": "compiled code without bounds checks, all wrap-arounds", "anchors": ["cddm/_sim_nb.py:draw_psf", "cddm/_sim_nb.py:draw_points", "cddm/_sim_nb.py:psf_gauss"]}
{"id": "C72", "title": "draw_psf loses contributions when run in parallel", "statement": "Drawn one particle after the other each pixel is the sum of all contributions; with NUMBA_PARALLEL two particles covering one pixel can lose a contribution (nb.prange with an unprotected read and write).", "quantifier": "all orders of threads; witness of the lost update", "why_tests_cant": "depends on thread timing", "anchors": ["cddm/_sim_nb.py:draw_psf"]}
{"id": "C73", "title": "Fourier transforms of frames and videos", "statement": "Each frame of rfft2_video/fft2_video is the cropped DFT of that frame; the transform of a real frame is Hermitian and from_rfft2_data of its half equals the full transform; a frame too small for the cut-off ends the video with ValueError after the frames before it; normalize_fft gives 1 at zero frequency, does not depend on the scale of the frame and is idempotent.", "quantifier": "all frames, sizes, parities, cut-offs and videos", "why_tests_cant": "all sizes and contents; order of yields and failures", "anchors": ["cddm/fft.py:rfft2_video", "cddm/fft.py:fft2_video", "cddm/fft.py:_rfft2", "cddm/fft.py:_fft2", "cddm/fft.py:normalize_fft"]}
{"id": "C74", "title": "delay tables of irregular measurements", "statement": "cross_tau_times/auto_tau_times store, per frame, every delay to the frames of the other camera that is smaller than n, positive and negative ones apart, stopping with an error when the table is too narrow; they are exact for sorted times. cross_count_mixed/auto_count_mixed count, per delay and residue of the time of the first frame modulo the period, the pairs of pairs, except those whose first frame has time 0 and delays that do not fit the table.", "quantifier": "all increasing lists of times, widths, periods and lengths", "why_tests_cant": "all time lists; silent losses for time 0 and overfull delays", "anchors": ["cddm/_core_nb.py:cross_tau_times", "cddm/_core_nb.py:auto_tau_times", "cddm/_core_nb.py:cross_count_mixed", "cddm/_core_nb.py:auto_count_mixed"]}
{"id": "C75", "title": "effective counts of multilevel data", "statement": "multilevel_count gives at level l and entry k the effective number of measurements (sum w n)^3 / sum (w n)^2 of the triangle average about delay k*2^l, between the bounds set by the weights, for level_size >= 4; log_average_count and log_merge_count return them at the same times as log_average and log_merge. ccorr_multi_count and acorr_multi_count return lines that end at (count - level_size)/period; with period 1 no entry is the number of pairs of frames, and for one camera the count at delay 0 is zero.", "quantifier": "all counts, lengths, level sizes, periods and binning modes", "why_tests_cant": "all shapes, alignment of kernels longer than the data, off-by-one at the end of the line", "anchors": ["cddm/multitau.py:multilevel_count", "cddm/multitau.py:ccorr_multi_count", "cddm/multitau.py:acorr_multi_count", "cddm/multitau.py:log_average_count", "cddm/multitau.py:log_merge_count"]}
{"id": "C76", "title": "phase of misaligned correlation data", "statement": "shift_data keeps the absolute values and gives opposite angles to opposite delays, with a real value at delay 0; for data c(i) e^(i phi) the result at delay i is +-|c(i)| e^(i phi), so that the misalignment stays and the angle of c(i) is lost. equalize_data gives conjugate values at opposite delays, removes the misalignment exactly where Re c(i) > 0, changes the sign where Re c(i) < 0, and is idempotent on odd lengths. With an even number of values the middle one is uninitialised memory. take_data selects the pixels of the mask in every array but the counts.", "quantifier": "all complex data, lengths, misalignment angles, contents of memory", "why_tests_cant": "all angles and lengths; documented purpose holds only for part of the values", "anchors": ["cddm/norm.py:shift_data", "cddm/norm.py:equalize_data", "cddm/norm.py:take_data"]}
{"id": "C77", "title": "noise estimates", "statement": "For frames with zero-mean noise that is uncorrelated between pixels and has variance I, the mean of the squared modulus of every component of the Fourier transform of the windowed frame is that of the signal plus noise_level(window, I). noise_mean lies in [0,1], returns v for correlation data starting at sf(1-v) and for difference data starting at 2 sf v, and agrees between modes. noise_delta lies in (-1,1), is odd in the cameras, zero only for equal variances, and its unscaled value is the scaled one times the scale factor.", "quantifier": "all windows, signals, noise distributions with finitely many outcomes, wave vectors, data and variances", "why_tests_cant": "statement about means over random outcomes, exact for all windows", "anchors": ["cddm/norm.py:noise_level", "cddm/norm.py:noise_mean", "cddm/norm.py:noise_delta"]}
{"id": "C78", "title": "weights from data with backgrounds", "statement": "weight_prime_from_data with the filter returns, for correlation data, the weights of a falling function with values in [0,1] that is independent of uninitialised memory, each optimal where g^2 <= 1 - delta^2; data on a falling line passes unchanged. For difference data the first weight does not depend on the data at all but on uninitialised memory. Short data gives AssertionError, other modes ValueError.", "quantifier": "all real data, backgrounds, noise parameters, scale factors, contents of memory", "why_tests_cant": "fresh memory is usually zero in tests, which hides the dependence", "anchors": ["cddm/norm.py:weight_prime_from_data", "cddm/avg.py:denoise", "cddm/_core_nb.py:increasing", "cddm/_core_nb.py:decreasing"]}
{"id": "C79", "title": "multiple-tau correlation with complex output", "statement": "With complex=True every slow level of ccorr_multi holds the complex cross-correlation of the block means for all delays -n..n (2n+1 cells, delay d in cell d modulo 2n+1), but its count array has n cells holding the pair counts of the delays |d| < n/2 (and of both delays n/2 for even n): the count array belongs to other delays than the data. acorr_multi(complex=True) on a level with at least 2n block means holds the delays 0..2n with counts for 0..n-1; with the default number of levels the last level has fewer block means, and the kernels read outside the arrays unless there is no slow level.", "quantifier": "all data, level sizes, norms, methods, alignments, numbers of levels", "why_tests_cant": "no test asks for complex multiple-tau output; out-of-bounds reads in compiled kernels pass silently", "anchors": ["cddm/multitau.py:ccorr_multi", "cddm/multitau.py:acorr_multi", "cddm/multitau.py:_compute_multi"]}
{"id": "C80", "title": "random binning and the fast part of multiple-tau data", "statement": "The fast part of ccorr_multi/acorr_multi is the correlation for n = period*level_size with the caller's times less the smallest of them (both cameras by the same amount). With BINNING_CHOOSE level l of the slow part correlates every 2^l-th frame of each signal, one from each complete block of 2^l frames, starting at a frame below 2^l; the frames at which the two signals and their squares start are drawn independently, so that delay d of level l is a sum over frames at a distance d*2^l+o2-o1, and the squares do not belong to the samples.", "quantifier": "all data, times, level sizes, periods, norms, methods, outcomes of the random generator", "why_tests_cant": "random choices are not repeatable and the error is below the spacing of the delays", "anchors": ["cddm/multitau.py:choose_data", "cddm/multitau.py:_compute_multi", "cddm/multitau.py:ccorr_multi", "cddm/multitau.py:acorr_multi"]}
{"id": "C81", "title": "normalization of multiple-tau data", "statement": "Data returned by ccorr_multi and acorr_multi have the same optional arrays in the fast part and in all levels, for all methods, norms and binnings. On such data normalize_multi equals normalize applied to the fast part and to every level with the arguments of the caller (default norm, norm as number or as string), including the exceptions; level l of the normalized result is the normalized correlation of the block means. Complex multiple-tau data with at least one level are refused for all arguments.", "quantifier": "all data, backgrounds, variances, norms, modes, scales, filters", "why_tests_cant": "the tests normalize only a few data sets, none of them complex", "anchors": ["cddm/multitau.py:normalize_multi", "cddm/multitau.py:ccorr_multi", "cddm/multitau.py:acorr_multi", "cddm/norm.py:normalize"]}
{"id": "C82", "title": "Statistics, background subtraction and the start of normalized data", "statement": "stats returns the mean and the variance (mean of |x - mean|^2) of every signal, one pair for one signal and two pairs for two, and non-finite numbers only for an empty signal. The variance is the mean of |x|^2 minus |mean|^2, is unchanged by an added constant, scales with |a|^2, is never negative and is zero exactly for constant signals. subtract_background subtracts the given background or else the mean, returns it on request, and what remains has mean zero and the same variance; normalizing the correlation of the raw signal with the mean as background equals correlating the signal from which subtract_background removed it. With the numbers of stats as arguments normalize gives at delay 0 the variance (1 if scaled, 0 in mode diff) for every norm the data supports, weighted norms included whatever their finite weight, and structured norms never exceed that value at any delay.", "quantifier": "For all signals, distinct measurement times, methods, norms, modes, weights and lengths for which the call of acorr is accepted, over every field (every ordered field for the inequalities).", "why_tests_cant": "Tests compare a few random signals with numpy; they cannot show that every combination of norm, mode, scaling and weight starts at the same value.", "anchors": ["cddm/core.py:960-999", "cddm/norm.py:489-726", "cddm/_core_nb.py:833-1000"]}
{"id": "C83", "title": "Filtering of frames at a wave vector", "statement": "dls returns the cyclic convolution of the frame with the window times the plane wave of the wave vector. With a constant window one Fourier component of the frame is left, that at minus the wave vector, which for real frames is the conjugate of the one asked for; reading the documentation as 'the component at kvec' is refuted by a witness. A window of one pixel leaves the frame unchanged. With a cut-off the result has the cropped size and its spectrum at the kept wave vectors is that of the uncropped result. Several wave vectors with one window, or with a window for each, give the results of separate calls; dls_video gives those of dls frame by frame. Wave vectors outside the window raise IndexError, before any frame is read, and frames of another shape ValueError. k_point_kernel is the function that dls convolves with.", "quantifier": "For all frames, windows, wave vectors and cut-offs that fit, frame sizes with a root of unity, over every field.", "why_tests_cant": "There is no test of dls at all; a test on sample frames could not tell kvec from its opposite on real frames by looking at amplitudes.", "anchors": ["cddm/fft.py:248-302", "cddm/map.py:336-343", "cddm/fft.py:59-68"]}
{"id": "C84", "title": "Averages shown by the viewers", "statement": "For half-plane data DataViewer shows the mean over the wave vectors of the full plane that have the index asked for (as in C61) and were computed, each taken with the conjugate where only its opposite is in the half plane; get_k is the mean of their lengths, and set_mask tells whether there are any. Data of the computed pixels alone gives the same average. This holds if no index has a wave vector along with its opposite, which is shown for all planes of odd sizes (with real numbers and arctangents without further hypotheses); for even widths it is refuted by a witness, since the last column is counted twice. Also refuted: get_k for data of computed pixels (IndexError), new data of another size (IndexError), fold=False (still folds), a slider for an axis that is not below the number of sliders (IndexError). Viewers of correlation data show what DataViewer shows of data normalized, folded and averaged beforehand. Modes of complex data, indices of array viewers, and the frame shown by VideoViewer after any moves of its slider are as described.", "quantifier": "For all data, masks, sizes, sectors, indices, slider moves, over every ordered field and over the reals.", "why_tests_cant": "The viewers are only exercised by opening windows; a wrong conjugate or a pixel counted twice changes the plotted mean slightly and raises no error.", "anchors": ["cddm/viewer.py:61-186", "cddm/viewer.py:255-283", "cddm/viewer.py:315-319", "cddm/viewer.py:594-765", "cddm/viewer.py:895-1033"]}
{"id": "C85", "title": "Walks with velocities, steps and initial coordinates", "statement": "brownian_walk and brownian_particles yield count arrays of num_particles points of the box. With a fixed delta and a fixed velocity (a number, one per coordinate, or one per particle) particle j is at time t at its initial position plus delta sqrt(dt) times the sum of its first t normal variables plus t velocity dt, up to multiples of the box; with delta = 0 it drifts. With callables every step is the one of the values they return. Initial coordinates of a wrong number or shape, velocities that do not fit and frame sizes that are not two numbers are refused. Refuted by witnesses: a callable velocity means the same as a fixed one (it is not multiplied by dt), a callable delta may return one number per particle (it ends with ValueError for three or more particles, and is used per coordinate for two), and the number of points always equals num_particles (one particle with three deltas becomes three).", "quantifier": "For all boxes with positive sides, counts, initial coordinates, arguments that numpy can broadcast and outcomes of the random generators, over every archimedean ordered field.", "why_tests_cant": "The positions are random; a test can only compare means over many particles, and a factor of dt is invisible for the default dt = 1.", "anchors": ["cddm/sim.py:83-194", "cddm/_sim_nb.py:42-45"]}
{"id": "C86", "title": "Mean counts of random triggering", "statement": "create_random_time with dt_min <= 1 gives, over all values of the random numbers, exactly all sequences of one time in each period of n. random_time_count returns for every delay k with n <= k <= nframes n the mean over all of them of the number of pairs of frames at delay k, and for 0 < k < n this mean plus k (n-k) / n^3 (at most 1 / (4 n)). At k = 0, where there are always nframes pairs, it returns n times as many (refuted); without frames it raises ValueError for n > 1.", "quantifier": "For all numbers of frames, all periods and all delays, over every field of characteristic 0 with an order.", "why_tests_cant": "The counts are compared with nothing in the code; testing them needs the average over n^nframes outcomes.", "anchors": ["cddm/sim.py:332-346"]}
{"id": "C87", "title": "Delays of the two-camera random triggering schemes", "statement": "Over all outcomes of the random generators, create_random_times1(nframes, n) meets each delay k = 2nq + d (-n < d <= n) in (nframes - |q|)/(2n) pairs of frames in the mean, so that within a period all delays are equally frequent; create_random_times2 meets delay zero (4n-1)/(2n-1) times as often as the other delays of the first period, and in the other periods a delay at distance |d| from a multiple of 2n more often by 2(n-|d|) in n(2n-1)", "quantifier": "all numbers of frames, all n > 0, all delays of either sign, all outcomes of the generators", "why_tests_cant": "a mean over (2n)^nframes outcomes; a test samples a few of them and sees only fluctuations", "anchors": ["cddm/sim.py:348-356", "cddm/sim.py:358-368"]}
{"id": "C88", "title": "Configuration at import", "statement": "At import every flag (parallel, cache, fastmath, precision) is taken from its environment variable if that is an integer, else from the file if it holds a known word, else from its default; numpy and numba types have the same width; when the import succeeds the selected libraries are installed and every FFT function finds its branch, and numba has the requested number of threads; it raises exactly when numba is missing, the file names an unknown library, the cores cannot be counted, or the requested number of numba threads is out of range (the fallback calls a function that does not exist)", "quantifier": "all environments, all configuration files, all sets of installed modules, all numbers of cores and threads, all interpretations of strings as integers", "why_tests_cant": "import-time code runs once per process on one machine; a test sees one environment", "anchors": ["cddm/conf.py:26-33", "cddm/conf.py:82-129", "cddm/conf.py:146-171", "cddm/conf.py:186-202", "cddm/conf.py:340-383"]}
{"id": "C89", "title": "Retired normalization formulas", "statement": "The formulas of _core_nb.py that are no longer called compute, from sums over pairs of frames, the mean product (background removed after, before, or means removed), the mean square difference (baseline removed after or before) and minus half the mean square difference; each of the formulas in use equals the retired one with the variance added; the reader _g gives a symmetric array extended by zero but reads outside of the array at its first place beyond", "quantifier": "all fields, all non-empty lists of pairs of complex frames, all backgrounds; all integer indices", "why_tests_cant": "symbolic identity between two generations of formulas for all inputs; the retired ones have no callers and no tests", "anchors": ["cddm/_core_nb.py:1076-1143", "cddm/_core_nb.py:1223-1228"]}
{"id": "C90", "title": "Spectra as they are shown", "statement": "norm_rfft2 shows the non-redundant half of the spectrum of a frame, row k at row k + height//2 modulo the height, the mean intensity left out; the modulus divided by the scale, real and imaginary parts divided by twice the scale and moved by one half, all limited to 0 ... 1; with no scale given the largest value is shown as 1, moduli are never cut and parts below minus the scale are shown as 0; the mean intensity is shown black, or grey for the parts; a frame with nothing but its mean is shown as NaN; other modes and empty frames are refused", "quantifier": "all ordered fields, all frames of any size, all scales, all moduli that are not negative", "why_tests_cant": "the scale depends on the frame; limits, parity of the height and empty spectra are particular inputs", "anchors": ["cddm/video.py:607-634"]}
{"id": "C91", "title": "Form factor of a spot", "statement": "form_factor gives, at every frequency of the plane or half-plane, the square root of the mean over an navg x navg mesh of positions of the squared modulus of the transform of the drawn spot (wrapped, modulo the range of the type) multiplied with the window; the half-plane is the first columns of the plane and the plane is even; unsupported types, intensities and modes are refused, navg = 0 is ZeroDivisionError, navg < 0 gives the number 0; the result is never below the average modulus that is documented, and differs from it in general", "quantifier": "all ordered fields, window sizes, windows, spot sizes up to the window's, meshes, types", "why_tests_cant": "an identity over all windows, meshes and frequencies, and an inequality against the documented average", "anchors": ["cddm/sim.py:31-76", "cddm/_sim_nb.py:127-159"]}
{"id": "C92", "title": "Normalization of arrays of pixels, masks and returned weights", "statement": "For data tuples of any number of pixel axes, with backgrounds and variances given as pairs or single arrays of the shape of a frame, every row of the result of normalize is the normalization of that pixel alone, and the call is refused exactly as for one pixel; with a mask the rows are those of the unmasked result where the mask is True, in row-major order; a mask of another shape is refused with IndexError; the weight returned with ret_weight gives the same result and the same weight when passed back. A single background or variance whose first axis has length two is not taken per pixel: it is unpacked into the statistics of two videos (refuted witness).", "quantifier": "all frame shapes, numbers of delays, data, masks, norms, modes, scales, weights and denoising functions that keep the length", "why_tests_cant": "array shapes and broadcasting: tests use one shape; the two-row case needs a frame or half-plane of exactly two rows", "anchors": ["cddm/norm.py:134-163", "cddm/norm.py:232-312", "cddm/norm.py:429-463", "cddm/norm.py:489-726", "cddm/norm.py:741-762"]}
{"id": "C93", "title": "Correlations of arrays along any axis", "statement": "For arrays with any number of axes and the time along any valid axis (positive or negative), cross_correlate, cross_difference, auto_correlate, auto_difference, cross_sum, auto_sum, their FFT versions, ccorr and acorr give for every pixel exactly what the series of that pixel alone gives; the pixels keep their order, the delays are the last axis, and an error occurs only if a pixel alone is an error. Output arrays are accepted only with the pixels of the data. A new tuple of ccorr does not depend on the axis, the memory layout or align: every pixel holds the sums over its pairs, and normalize of the tuple is the normalization of every pixel alone. Arrays of different shapes are refused with ValueError, and an axis that does not exist is refused by ccorr and acorr; cross_correlate of one-dimensional data with a given n does not notice it (refuted witness).", "quantifier": "all shapes, axes, data, times, n, norms, methods, layouts, alignments and output arrays", "why_tests_cant": "the kernels chosen depend on the axis, the layout and the times; tests fix one array order and compare few pixels", "anchors": ["cddm/core.py:66-73", "cddm/core.py:75-190", "cddm/core.py:192-252", "cddm/core.py:390-667", "cddm/core.py:759-957", "cddm/core.py:1022-1296"]}
{"id": "C94", "title": "Log-spaced averages of complex correlation data", "statement": "log_average and log_merge of complex data with fold=True give, at the times of the real functions, the log averages and merged results of the real and of the imaginary part of (c(d)+conj c(-d))/2, missing values staying missing; complex data without a decision about folding are refused, and for real data the argument has no effect. Without folding log_merge refuses every complex result, and log_average gives the negative delays at positive times.", "quantifier": "all complex data of 2n-1 delays, all sizes, periods, numbers of levels, binnings and choices of random binning", "why_tests_cant": "The tests merge one set of real data; complex data, missing entries, and every length of rows and number of levels cannot be enumerated.", "anchors": ["cddm/multitau.py:1437-1441", "cddm/multitau.py:1506-1533", "cddm/multitau.py:1558-1611", "cddm/norm.py:845-858"]}
{"id": "C95", "title": "Multilevel and log-spaced data of arrays", "statement": "For arrays with any number of pixel axes and the delays along the last one, multilevel, merge_multilevel, log_average and log_merge (levels along the first axis, folding, transposition, reshape and concatenation included) give for every pixel exactly the result of that pixel alone, the same times and the same exceptions; the result has the pixel axes followed by one axis as long as the list of times; fast and slow data of different pixels are not merged.", "quantifier": "all shapes, numbers of levels, sizes, binnings, random choices, real and complex data with missing entries, and every index of a pixel", "why_tests_cant": "A test checks a few shapes; a wrong transposition or reshape can agree by accident for equal lengths of axes and one level.", "anchors": ["cddm/multitau.py:85-101", "cddm/multitau.py:1407-1533", "cddm/multitau.py:1558-1611", "cddm/norm.py:845-858"]}
{"id": "C96", "title": "Multiple-tau data of arrays", "statement": "For arrays of frames with zero, two or more axes and the time along any axis, ccorr_multi (real and complex) and acorr_multi return arrays whose pixels are exactly what the function gives for the series of that pixel alone, with the levels along the first axis of the second tuple; a divisor of the number of pixels of a frame with two axes changes nothing; frames with one axis (time first) gain a leading axis of length one; with a mask of two axes the pixels of the mask are those of the array and the rest is np.nan. So level l+1 of each pixel is the correlation of its block means over 2^(l+1) frames. The documented freedom of axis, thread_divisor and mask does not hold for frames with one axis, for a mask with a divisor and for masks with one or three axes.", "quantifier": "all shapes, axes, times, periods, level sizes, binnings, random choices, numbers of levels, normalizations, methods, memory layouts and contents of np.empty, every index of a pixel", "why_tests_cant": "A test checks a few shapes, mostly square frames with the time first; wrong reshaping of other layouts gives plausible numbers.", "anchors": ["cddm/multitau.py:61-144", "cddm/multitau.py:159-302", "cddm/multitau.py:303-401", "cddm/core.py:254-322", "cddm/core.py:334-388"]}
{"id": "C97", "title": "Streams of frames with any number of axes", "statement": "For streams of frames of one shape with zero, two or more axes, iccorr_multi, iacorr_multi, iccorr (real and complex) and iacorr return arrays whose pixels, in the data of all levels, the means and the variances, are exactly what the function gives for the stream of the values of that pixel alone; a divisor of the number of pixels of frames with two axes changes nothing; frames with one axis gain a leading axis of length one in the data, not in the means and variances; with a mask of two axes the pixels of the mask are those of the stream and all others np.nan. At regular times the arrays of iccorr (real and complex) and iacorr are those of ccorr and acorr for the frames in memory. An empty stream and a stream of too few frames are errors. The documented freedom of thread_divisor and mask does not hold for frames with one axis and for a mask with a divisor; a frame of another shape with as many pixels is not noticed.", "quantifier": "all shapes of frames, numbers of frames, times, periods, level and chunk sizes, binnings, random choices, numbers of levels, normalizations, methods, modes, backgrounds, memory layouts and contents of np.empty, every index of a pixel", "why_tests_cant": "A test checks a few small streams; the chunks, levels and reshaping interact with the shape, and a mixed up pixel gives plausible numbers.", "anchors": ["cddm/multitau.py:497-511", "cddm/multitau.py:555-651", "cddm/multitau.py:716-1087", "cddm/multitau.py:1089-1254", "cddm/core.py:324-332", "cddm/core.py:1299-1483"]}
{"id": "C98", "title": "Overall phases and translated frames", "statement": "Multiplying the signals of both cameras by a complex number of absolute value one, and the background with them, leaves the result of normalize (or its exception) unchanged for ccorr, ccorr_complex, acorr and acorr_complex, with the methods corr, fft and diff, every norm including the weighted ones, mode, scale and weight; the statistics of such signals are the multiplied background and the same variance. Different factors u1, u2 multiply every complex value normalized without the squares by conj(u1) u2. Moving a frame around its edges multiplies each entry of its Fourier transform by a number of absolute value one, so that stats, ccorr and normalize of a moved video give, at every wave vector, exactly the data of the video. If the second camera sees the first one's signal times a phase, the complex data is turned by it and equalize_data gives back the data of one camera with itself wherever its real part is positive.", "quantifier": "all fields and signals, times, lengths, factors of absolute value one, all frames and videos of one shape, all translations and wave vectors within the cut-off", "why_tests_cant": "A test uses a few frames, angles and normalizations; the invariance is a property of all formulas together, and a wrong sign or conjugate in one of them keeps the results plausible.", "anchors": ["cddm/norm.py:489-726", "cddm/_core_nb.py:833-1101", "cddm/core.py:976-999", "cddm/fft.py:188-246", "cddm/norm.py:793-817"]}
{"id": "C99", "title": "Messages, progress bars and frame rates", "statement": "print_progress prints nothing below verbosity level 1 and otherwise one line whose bar is exactly as long as asked for, filled in proportion to the step (rounded down), never less than at an earlier step and completely only at the last one, where a line feed follows; it fails only for a total of zero. print_frame_rate prints at level 2 and fails if the clock has not moved. asarrays and asmemmaps return (or raise) the same with messages as without, except in these two cases, and print a bar for each multi-frame. The steps shown by the multiple-tau algorithm start at 0, never decrease and reach 100 only with the last one, so that its bars never fail and end with the only line feed.", "quantifier": "all steps, totals, lengths, fill characters, verbosity levels, videos, counts, clocks and numbers of levels", "why_tests_cant": "the formulas of the bar are checked for every step and total; the failures need a count of zero or a clock that stands still, which no test arranges", "anchors": ["cddm/print_tools.py:21-41", "cddm/video.py:50-144", "cddm/multitau.py:221-298"]}
{"id": "C100", "title": "Signals multiplied by a number, and flickering light", "statement": "Multiplying both signals (and so their background by u and their variance by |u|^2) by any complex number u other than zero leaves the data normalized with scale=True unchanged for every method, norm, mode and weight, and multiplies them by |u|^2 with scale=False; a video whose frames are multiplied each by its own number gives the same normalized frames (normalize_video) and the same normalized spectra (normalize_fft); the two ways of normalizing differ by the number of pixels only, so that the normalized correlations are the same.", "quantifier": "all signals, numbers, times, norms, modes, weights and videos with frames that are not dark", "why_tests_cant": "A flickering lamp is removed exactly only for real arithmetic and for all frames at once; tests use one video and one norm, and the examples only claim that the two functions are equivalent.", "anchors": ["cddm/video.py:280-302", "cddm/fft.py:304-327", "cddm/norm.py:489-726", "cddm/core.py:976-1000", "examples/auto_correlate_multi.py"]}
{"id": "C101", "title": "Deprecated names and the warnings of the user", "statement": "A call of a deprecated name (rfft2, fft2, sector_indexmap, k_indexmap) gives the result of the function behind it and shows one warning with the name and the replacement at every call, also from the same line and whatever warning filters the user has set; it is never turned into an exception. The list of filters does not grow with the number of calls, but the filters of the user for deprecation warnings have no effect after the first call. The decorator of the event handlers hides RuntimeError only.", "quantifier": "all results, places of call, filters and histories of warnings", "why_tests_cant": "The effect depends on the filters, on registries of earlier warnings and on the place of the call; test runners install filters of their own.", "anchors": ["cddm/decorators.py:71-96", "cddm/fft.py:329-335", "cddm/map.py:39-101", "cddm/map.py:345-374"]}
{"id": "C102", "title": "In-place operations on videos, the memory they change and the types of the pixels", "statement": "subtract, add, multiply and normalize_video with inplace=True on frames stored at different places, none of which is also a frame of the second video, yield the values of the operation on the original frames, overwrite exactly these frames, and keep those values; a second pass works on the results. They are the values without inplace, cut to the type of the first video; a video of integers is refused in place if the second one holds numbers, and always by normalize_video. Unsigned integers wrap around and dtype is applied only to the wrapped values. Frames that are read after they were overwritten, repeated frames and errors in the second camera give other results.", "quantifier": "all memories, videos in memory, placements of the frames, types and operations", "why_tests_cant": "The results depend on which arrays share memory and on the history of passes over them; tests use fresh arrays and one pass.", "anchors": ["cddm/video.py:225-328"]}
{"id": "C103", "title": "The buttons of the video viewer", "statement": "Whatever buttons of the video viewer are clicked, in any order and also while the video is playing, only frames of the video are asked for, and playing always ends. Play shows every later frame once and in order up to the last one; FF from the first frame takes 99 steps and shows the frames j*count//100; Stop lets one more frame pass; > and < move by one frame and stop at the ends. The buttons >>> and <<< move by the step of the last playing, so that they are not faster than > and < before FF was used, and FF is slower than Play for videos of less than 100 frames.", "quantifier": "all lengths of the video, all sequences of clicks, and all clicks during the pauses of playing, nested to any depth", "why_tests_cant": "The behaviour depends on the history of the clicks and on clicks that arrive inside the loop that plays the video.", "anchors": ["cddm/viewer.py:61-176"]}
{"id": "C104", "title": "The noise of the simulated camera", "statement": "Gaussian noise whose draws have mean 0 and variance 1, and Poisson noise whose draws have the moments of Poisson's distribution, both give pixels whose mean and variance are the sum of the signal and the readout noise. Poisson noise is never negative and leaves dark frames black. The image has one pixel for each pixel of the frame and uses the levels 0 ... 2^n-1 of a bit depth \"<n>bit\" up to 16 bits, as uint8 up to 8 bits; more bits give the image of 16 bits; other noise models are refused. With Gaussian noise a negative signal is not a number, and its pixel can be brighter than white.", "quantifier": "all frames, signals, readout noises, black levels, bit depths, strings, and all draws of the random generator", "why_tests_cant": "Noise is random: tests see a few draws and compare averages within a tolerance.", "anchors": ["cddm/sim.py:414-458", "cddm/_sim_nb.py:73-94"]}
{"id": "C105", "title": "The energy of frames and of their spectra", "statement": "The sum of the products of two spectra is the sum of the products of the frames times the number of pixels; so the energy of a spectrum is the energy of its frame times the number of pixels, and the squared difference of two frames is that of their spectra. The stored half of the spectrum of a real frame has that energy when the columns with a partner are counted twice. Frames with the same spectrum are the same, and so are real frames of the same width with the same stored half; the half alone does not tell the width.", "quantifier": "all shapes, all frames over any field with roots of unity", "why_tests_cant": "Parseval's identity is about all pixels and all wave vectors at once; tests compare single values.", "anchors": ["cddm/fft.py:48-85"]}
{"id": "C106", "title": "The titles of the figures", "statement": "Figures of show_video and show_diff without titles get the titles Fig.n with different numbers, continuing those of the figures that are open, the outermost one first, so that no figure replaces another; after playing to the end the numbers start again. show_fft chooses its title when it is called and not when playing starts: called for different cameras the titles differ, called twice for the same camera they are the same, and one of the two figures is lost.", "quantifier": "all sequences of calls, all open figures, all camera numbers", "why_tests_cant": "It depends on when generators start and on figures left over from earlier videos.", "anchors": ["cddm/video.py:602-605", "cddm/video.py:636-663", "cddm/video.py:688-693", "cddm/video.py:732-737"]}
{"id": "C107", "title": "The images of differences that are shown", "statement": "The image of the difference of two frames that are not negative and not both black has shades from 0 to 1; it is the difference divided by twice the brightest pixel, around 1/2. Equal frames give 1/2, black ones no number; swapping the frames turns the shades around 1/2; more light on both frames changes nothing, and with normalize not even different light on the two frames. OpenCV gets shades up to 1: brighter images are divided by their brightest pixel, which keeps all ratios.", "quantifier": "all frames of all sizes, all factors", "why_tests_cant": "The images are only looked at; no test checks them.", "anchors": ["cddm/video.py:373-380", "cddm/video.py:721-730"]}
{"id": "C108", "title": "The sliders of the data viewers", "statement": "In DataViewer and the viewers derived from it, after the figure was opened and in every session of moves of the sliders and of the selector: the values of the sliders stay inside their limits and the index of the ring is the nearest integer (halves to even) and one of 0 ... int(kmap.max()); every such index can be reached; what is drawn after a move that set_mask and get_data accept is exactly the data that a new viewer gives for the present values, whatever was moved before, with the mode selected. A sector of zero, which the slider permits, is refused by set_mask: curve and masks stay the same for every later move of the other sliders. The rings of the longest wave vectors cannot be reached if the largest length is rounded up (both stated as refutations).", "quantifier": "for all data, shapes, masks, initial attributes and sequences of moves of any length; for all ordered fields with a floor function and all functions in place of sqrt and arctan2 (lengths not negative)", "why_tests_cant": "A session is a sequence of moves of any length with stale masks and maps kept between them; a test clicks through a few.", "anchors": ["cddm/viewer.py:630-672", "cddm/viewer.py:722-765", "cddm/viewer.py:767-784"]}
{"id": "C109", "title": "The check boxes of the correlation viewers", "statement": "In CorrViewer and MultitauViewer the four boxes (structured, subtracted, weighted, compensated) show the normalization in use after the figure was opened and after every sequence of clicks, and that normalization is one that the data permits (structured parts need the sum of squares, subtracted and compensated ones the sums of the signals; differences are structured). A click is carried out if the data permits the new normalization, otherwise the box is turned back and nothing changes; one nested call of the callback is enough. Every permitted normalization is reached from every other with at most four clicks. With weighted on, the box structured changes nothing; after data that permits neither the shown nor the clicked normalization the callback calls itself without end (both stated as refutations).", "quantifier": "all kinds of data, all initial norms, all sequences of clicks of any length", "why_tests_cant": "The callback calls itself through matplotlib, and sessions are sequences of any length; no test opens the figures.", "anchors": ["cddm/viewer.py:843-882", "cddm/viewer.py:971-975", "cddm/norm.py:365-426"]}
