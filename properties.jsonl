{"id": "C01", "title": "Length invariant of every vector", "statement": "After any history of constructor calls and mutating calls which avoids four kinds of calls, `len() <= alloc_len()` (so `data(..)` never indexes outside the storage), and a vector whose `is_complex()` is true has an even `len()`. The four kinds to avoid are exactly the ones which can break it: growing a vector with a buffer of fixed length, a `to_complex` that fails, `sifft` of a vector which tracks its domain at run time, and declaring a real vector of odd length complex; each of them is shown to break it.", "ideal": "After any sequence of constructor calls and mutating calls, `len() <= alloc_len()` (so `data(..)` never indexes outside the storage), and a vector whose `is_complex()` is true has an even `len()`.", "quantifier": "all storage kinds, all initial contents, all finite histories of API calls (resize, resize_b, zero_pad, zero_interleave, reverse, swap_halves, decimatei, to_complex/to_real, element-wise operations, ...)", "why_tests_cant": "It is a property of histories: a test runs one history, while the invariant must survive every interleaving of shrinking, growing and number-space conversions.", "anchors": ["vector/src/vector_types/vec_impl_and_indexers.rs: DspVec, ResizeOps::resize, ResizeBufferedOps::resize_b", "vector/src/vector_types/support_core.rs", "vector/src/vector_types/support_std.rs"]}
{"id": "C02", "title": "resize keeps the prefix and fails atomically", "statement": "`resize(n)` either returns an error and leaves the vector exactly as it was, or sets `len()` to `n` and keeps the first min(old len, n) elements; it fails with InputMustHaveAnEvenLength exactly for an odd `n` on a complex vector and with TypeCanNotResize exactly when the storage cannot hold `n` elements.", "quantifier": "all vectors, all storage kinds, all requested lengths", "why_tests_cant": "Needs all combinations of length, allocated length, capacity and storage kind.", "anchors": ["vector/src/vector_types/vec_impl_and_indexers.rs: resize", "vector/src/vector_types/support_std.rs: Resize for Vec", "vector/src/vector_types/support_core.rs: Resize for slices, ArrayVec"]}
{"id": "C03", "title": "Odd complex input gives an empty vector", "statement": "A conversion of a storage into a complex vector yields `len() == 0` when the storage has an odd number of elements, and `len()` equal to the number of elements otherwise; this check is missing exactly in `to_gen_dsp_vec` of a shared slice and in the `From` implementations, whose `len()` is always the number of elements, also an odd one.", "ideal": "Every conversion of a storage into a complex vector yields `len() == 0` when the storage has an odd number of elements, and `len()` equal to the number of elements otherwise.", "quantifier": "all storages of all lengths, all conversion methods (to_complex_time_vec, to_complex_freq_vec, to_gen_dsp_vec(true,..), From)", "why_tests_cant": "There is one code path per storage kind and conversion; a test of one says nothing about another.", "anchors": ["vector/src/vector_types/to_from_vec_conversions.rs", "vector/src/vector_types/support_core.rs", "vector/src/vector_types/support_std.rs"]}
{"id": "C04", "title": "rededicate empties the vector", "statement": "`rededicate_from`/`rededicate` returns a vector of the target type over the same storage with the same delta. Its `len()` is 0 if number space and domain both change and the old one in every other case; so after a change of only one of them the old data is readable under the new interpretation, even with an odd length in a complex vector.", "ideal": "`rededicate_from`/`rededicate` returns a vector of the target type with `len() == 0` and unchanged `alloc_len()`; the old data never becomes readable under the new interpretation.", "quantifier": "all source vectors, all source/target combinations of number space and domain", "why_tests_cant": "The check combines two independent conditions; only some of the combinations are exercised by tests.", "anchors": ["vector/src/vector_types/rededicate_and_relations.rs: RededicateOps::rededicate_from"]}
{"id": "C05", "title": "zero_pad places the data and zeros where documented", "statement": "A successful `zero_pad(points, option)` gives a vector of exactly `points` points that contains the old points in order: at the start (End), after the left share of the zeros (Surround) or split around a block of zeros (Center), all other points being zero; it fails without modification when `points` is not larger than the current number of points. `zero_pad_b` does the same for End and Surround; for Center it panics if the gap is smaller than the second half of the points, and otherwise leaves in the last points of the gap (as many as the second half has) what was in the buffer instead of zeros.", "ideal": "A successful `zero_pad(points, option)` gives a vector of exactly `points` points that contains the old points in order: at the start (End), after `left` zeros (Surround) or split around a block of zeros (Center), all other points being zero; it fails without modification when `points` is not larger than the current number of points.", "quantifier": "all vectors (real and complex), all target sizes, all three padding options", "why_tests_cant": "Boundary arithmetic depends on the parity of the difference, on the parity of the old length and on the number space.", "anchors": ["vector/src/vector_types/general/data_reorganization.rs: InsertZerosOps::zero_pad"]}
{"id": "C06", "title": "Buffered and in-place variants agree", "statement": "`zero_pad_b` gives the same vector as `zero_pad` for End; for Surround with an odd number of added points; and for Center if the buffer holds zeros where the gap ends and the gap is large enough. `zero_interleave_b` gives the same as `zero_interleave` for vectors which are not empty (for an empty vector the buffered variant panics). For Surround with an even number and for Center with a smaller gap they can differ.", "ideal": "`zero_pad_b` and `zero_interleave_b` give the same vector as `zero_pad` and `zero_interleave`.", "quantifier": "all vectors, all arguments, all buffers", "why_tests_cant": "Two independent implementations must agree on every input.", "anchors": ["vector/src/vector_types/general/data_reorganization.rs: InsertZerosOpsBuffered, zero_interleave_b"]}
{"id": "C07", "title": "Buffers never leak stale data", "statement": "For every method of a vector which takes a buffer (zero padding, zero interleaving, resizing, conversions between real and complex, all transforms, correlation preparation and correlation, mirroring, resampling, convolutions), for sessions in which several vectors share one buffer in any sequence of calls, for the matrix methods and for the foreign functions: two buffers of the same kind lead to a panic in both cases or to the same vectors and the same answers, whatever earlier operations left in them. A growing buffer holds the old storage of the vector after an exchange. The exceptions: `zero_pad_b` with Center, magnitudes of complex data which isn't aligned to points, and `convolve_signal` of a matrix with fewer impulse responses than rows show old content of the buffer in the result.", "ideal": "The result of a buffered operation does not depend on what an earlier operation left in the buffer.", "quantifier": "all vectors, all numbers of vectors and sequences of calls, all buffer contents (all histories of earlier uses of the same buffer), all arguments, schedules and addresses", "why_tests_cant": "Tests normally start with a fresh, all-zero buffer.", "anchors": ["vector/src/vector_types/buffer.rs: SingleBuffer, Buffer::borrow, trade", "vector/src/vector_types/general/data_reorganization.rs: zero_pad_b, zero_interleave_b", "vector/src/vector_types/time_freq/freq.rs: mirror", "vector/src/support_std.rs, support_core.rs: borrow, trade", "matrix/src/time_freq.rs: convolve_signal", "interop/src/facade64.rs"]}
{"id": "C08", "title": "zero_interleave spreads the points", "statement": "`zero_interleave(f)` multiplies the number of points by `f`; point `i*f` of the result is old point `i` and every other point is zero. A complex vector over a storage with an odd number of elements makes the call panic, always.", "ideal": "`zero_interleave(f)` multiplies the number of points by `f`; point `i*f` of the result is old point `i` and every other point is zero.", "quantifier": "all vectors, all factors >= 1", "why_tests_cant": "The in-place algorithm overwrites its own input; correctness for every length and factor is an induction.", "anchors": ["vector/src/vector_types/general/data_reorganization.rs: zero_interleave"]}
{"id": "C09", "title": "reverse reverses points", "statement": "`reverse()` puts point `i` at position `points()-1-i` (both components of a complex point staying together) and is its own inverse.", "quantifier": "all vectors", "why_tests_cant": "Ranges over all lengths and both parities.", "anchors": ["vector/src/vector_types/general/data_reorganization.rs: reverse, reverse_array"]}
{"id": "C10", "title": "swap_halves / fft_shift / ifft_shift are the documented rotations", "statement": "`swap_halves()` and `fft_shift()` rotate the points so that point 0 lands at position points()/2; `ifft_shift()` is the inverse rotation; `fft_shift` followed by `ifft_shift` restores the vector for every number of points but one. `ifft_shift` of a single point always panics.", "ideal": "`swap_halves()` and `fft_shift()` rotate the points so that point 0 lands at position points()/2; `ifft_shift()` is the inverse rotation; `fft_shift` followed by `ifft_shift` restores the vector for every length.", "quantifier": "all vectors, even and odd numbers of points", "why_tests_cant": "The odd-length algorithm walks one cycle of the permutation; that it visits every element once is number theory, not a test.", "anchors": ["vector/src/vector_types/mod.rs: swap_array_halves", "vector/src/vector_types/time_freq/freq.rs: fft_shift, ifft_shift", "vector/src/vector_types/general/data_reorganization.rs: swap_halves"]}
{"id": "C11", "title": "split_into and merge are inverse", "statement": "`split_into` deals point `i` to target `i mod k`; `merge` of these targets restores the original vector; both reject targets/sources of unequal length or a length not divisible by `k`. For real vectors both also run over the elements behind the valid ones: if these have a place in the targets the result is the same, otherwise the call panics.", "ideal": "`split_into` deals point `i` to target `i mod k`; `merge` of these targets restores the original vector; both reject targets/sources of unequal length or a length not divisible by `k`.", "quantifier": "all vectors, all numbers of parts", "why_tests_cant": "Quantifies over all lengths and numbers of parts and over storages with spare room.", "anchors": ["vector/src/vector_types/general/data_reorganization.rs: SplitOps, MergeOps"]}
{"id": "C12", "title": "cum_sum undoes diff_with_start", "statement": "`diff_with_start` then `cum_sum` gives back the original data, `cum_sum` computes all prefix sums, and `diff` yields the n-1 successive differences of a vector with n >= 1 points (exact arithmetic). `diff` of an empty vector panics, and so do `diff` and `diff_with_start` of every complex vector over a storage with an odd number of elements.", "ideal": "`diff_with_start` then `cum_sum` gives back the original data, `cum_sum` computes all prefix sums, and `diff` yields the n-1 successive differences (exact arithmetic).", "quantifier": "all vectors over any ring, real and complex", "why_tests_cant": "Algebraic identity over all lengths.", "anchors": ["vector/src/vector_types/general/diff_sum.rs"]}
{"id": "C13", "title": "Element-wise operations are point-wise and fail atomically", "statement": "`add/sub/mul/div` replace point `i` by `self[i] op other[i]` for every `i`; on a size or metadata mismatch they return the documented error and leave `self` unchanged; the argument is never modified. This holds for every storage whose address suits the SIMD registers (C18), and for `mul`/`div` of complex vectors if the storage has an even number of elements; with an odd number `mul` always panics.", "ideal": "`add/sub/mul/div` replace point `i` by `self[i] op other[i]` for every `i`; on a size or metadata mismatch they return the documented error and leave `self` unchanged; the argument is never modified.", "quantifier": "all pairs of vectors, all metadata, real and complex, SIMD or scalar path, any multicore setting", "why_tests_cant": "The value is computed by SIMD edges, SIMD centre and several threads: which code handles an element depends on length, alignment and thread settings.", "anchors": ["vector/src/vector_types/general/elementary.rs: ElementaryOps", "vector/src/simd_extensions/simd_partition.rs", "vector/src/multicore_support/threading.rs"]}
{"id": "C14", "title": "Wrap-around operations repeat the smaller operand", "statement": "`add_smaller` (and sub/mul/div) combine point `i` with `other[i mod other.len()]`, rejecting lengths that do not divide.", "quantifier": "all pairs of lengths", "why_tests_cant": "Quantifies over all pairs of lengths, including the empty operand.", "anchors": ["vector/src/vector_types/general/elementary.rs: ElementaryWrapAroundOps"]}
{"id": "C15", "title": "Multicore settings never change a result", "statement": "For every multicore setting (core limit and thresholds) and every scheduling of the worker threads, an in-place or source-to-destination operation on data which is not empty produces the same vector as the single-threaded execution. Empty data panics with several threads and thresholds of 0; operations which work on symmetric pairs are not independent of the number of threads (C26, C46).", "ideal": "For every multicore setting (core limit and thresholds) and every scheduling of the worker threads, an in-place or source-to-destination operation produces the same vector as the single-threaded execution.", "quantifier": "all array lengths, all settings, all interleavings of the worker threads", "why_tests_cant": "Schedules and thread counts cannot be enumerated by tests.", "anchors": ["vector/src/multicore_support/mod.rs", "vector/src/multicore_support/threading.rs: execute_partial, execute_with_range, from_src_to_dest"]}
{"id": "C16", "title": "Work partitioning covers every element exactly once", "statement": "The chunks handed to the worker threads are consecutive, disjoint, cover the whole array, start at multiples of the point size, and the index ranges handed along with them are the positions of the chunk's elements.", "quantifier": "all lengths, step sizes and numbers of threads", "why_tests_cant": "Boundary arithmetic over all (len, step, threads).", "anchors": ["vector/src/multicore_support/threading.rs: calc_chunk_size, partition, partition_mut, partition_in_ranges"]}
{"id": "C17", "title": "Chunk size computed in floating point is exact", "statement": "The chunk size, computed with an f64 division and ceil, equals the integer ceiling of len/threads for every length the type can represent exactly.", "quantifier": "all lengths below 2^53 and all thread counts", "why_tests_cant": "Rounding errors only show up at particular large values.", "anchors": ["vector/src/multicore_support/threading.rs: calc_chunk_size"]}
{"id": "C18", "title": "SIMD partitioning is lossless", "statement": "Splitting an array in a scalar left edge, SIMD registers and a scalar right edge covers each element exactly once, so a SIMD map equals the scalar map, if the array is too short for registers or starts at a multiple of half a register and, for complex operations, of a complex number. An array of reals at any other address makes the call panic; a complex array which starts in the middle of a complex number has its pairs mixed up.", "ideal": "Splitting an array in a scalar left edge, SIMD registers and a scalar right edge covers each element exactly once, so a SIMD map equals the scalar map; complex operations always see whole (re, im) pairs.", "quantifier": "all lengths, all start addresses, all register widths", "why_tests_cant": "The path depends on the memory address of the data, which a test does not control.", "anchors": ["vector/src/simd_extensions/mod.rs: calc_data_alignment_reqs", "vector/src/simd_extensions/simd_partition.rs: SimdPartition, EdgeIterator", "vector/src/vector_types/general/elementary.rs"]}
{"id": "C19", "title": "Statistics are the statistics of the data", "statement": "`statistics()` reports sum, count, average, root mean square, minimum, maximum and the index of the first minimum/maximum of exactly the `len()` valid elements.", "quantifier": "all vectors, any chunking", "why_tests_cant": "Ranges over all contents including ties, and all ways of splitting the data in chunks that are merged afterwards.", "anchors": ["vector/src/vector_types/general/statistics.rs", "vector/src/vector_types/general/mod.rs"]}
{"id": "C20", "title": "Merging statistics equals the statistics of the concatenation", "statement": "Merging statistics of parts gives sum, count, average, root mean square and maximum of the whole data, whatever the order in which the parts arrive. The minimum is the one of the parts which count, and these are the first one and every part whose maximum does not exceed the maximum of an earlier part; it is the minimum of all data if no later part has a greater maximum than the first. Positions of equal extremes depend on the order of arrival, and statistics which are already finished cannot be merged.", "ideal": "Merging statistics of parts gives the statistics of the whole data, whatever the order in which the parts arrive.", "quantifier": "all partitions of the data and all arrival orders", "why_tests_cant": "Thread completion order is not reproducible by tests.", "anchors": ["vector/src/vector_types/general/statistics.rs: Stats::merge, merge_cols"]}
{"id": "C21", "title": "statistics_split buckets by index", "statement": "`statistics_split(k)` of a vector which is not empty reports for bucket b the statistics of the elements with index = b mod k, and refuses k above the fixed limit. For an empty vector it returns no statistics at all.", "ideal": "`statistics_split(k)` reports for bucket b the statistics of the elements with index = b mod k, and refuses k above the fixed limit.", "quantifier": "all vectors and all k", "why_tests_cant": "All lengths and bucket counts.", "anchors": ["vector/src/vector_types/general/statistics.rs: statistics_split"]}
{"id": "C22", "title": "map_aggregate / map_inplace visit each valid element once", "statement": "`map_inplace` replaces element i by f(x_i, i). `map_aggregate` folds f(x_i, i) from the left to the right over all elements of the storage, which are the valid ones if the vector fills its storage, and more otherwise. Neither depends on the threads. For a complex vector over a storage with an odd number of elements both always panic.", "ideal": "`map_inplace` replaces element i by f(x_i, i) and `map_aggregate` folds f(x_i, i) over exactly the valid elements; for an associative and commutative aggregation the result is independent of threads.", "quantifier": "all vectors, all functions, all settings and schedules", "why_tests_cant": "Schedules and spare storage beyond len().", "anchors": ["vector/src/vector_types/general/mapping.rs", "vector/src/multicore_support/threading.rs: map_on_array_chunks"]}
{"id": "C23", "title": "Getting and setting real/imaginary parts round-trips", "statement": "`get_real_imag` then `set_real_imag` is the identity (likewise magnitude and phase), `get_real`/`get_imag`/`get_phase` agree with `to_real`/`to_imag`/`phase`, and setting parts of different lengths is rejected without touching the vector. The getters need a target with room for as many elements as the source has (twice the points), and `get_magnitude(_squared)` a source without spare elements; otherwise they can panic.", "ideal": "`get_real_imag` then `set_real_imag` is the identity, `get_real`/`get_imag` agree with `to_real`/`to_imag`, and setting parts of different lengths is rejected without touching the vector.", "quantifier": "all complex vectors", "why_tests_cant": "All lengths and contents, destinations with any previous length.", "anchors": ["vector/src/vector_types/complex/complex_to_real.rs"]}
{"id": "C24", "title": "to_complex and to_real are inverse", "statement": "`to_complex()` makes every value a point with imaginary part zero, doubles `len()`, and `to_real()` gets the original data back; complex-to-real transforms compute one value per point.", "quantifier": "all real vectors", "why_tests_cant": "All lengths, all storages.", "anchors": ["vector/src/vector_types/real/real_to_complex.rs", "vector/src/vector_types/complex/complex_to_real.rs"]}
{"id": "C25", "title": "unwrap undoes wrap", "statement": "For data whose successive differences are below half the divisor, `wrap(d)` then `unwrap(d)` restores the data up to a constant multiple of d if and only if every step outside of the first turn leads away from it. So it does for monotone data and for data inside of (-d, d), which is restored exactly, but not for data which turns back outside of that range.", "ideal": "For data whose successive differences are below half the divisor, `wrap(d)` then `unwrap(d)` restores the data up to a constant multiple of d (exactly if the first element is inside the range).", "quantifier": "all such sequences", "why_tests_cant": "Needs an induction over the sequence with the accumulated wrap count.", "anchors": ["vector/src/vector_types/real/real_ops.rs: wrap, unwrap"]}
{"id": "C26", "title": "Windows multiply every point by its own weight", "statement": "`apply_window(w)` multiplies point i by w(i, points()) for every i and `unapply_window` undoes it for windows without zeros: for windows which are not declared symmetric with every multicore setting, for symmetric windows with at least two points and one thread, or with a number of points divisible by twice the number of threads. With several threads and other numbers of points a symmetric window uses the factors of other points, or leaves points untouched; with fewer than two points it always panics.", "ideal": "`apply_window(w)` multiplies point i by w(i, points()) for every i, whether or not the window declares itself symmetric and for every multicore setting; `unapply_window` undoes it for windows without zeros.", "quantifier": "all vectors, all window functions, all settings", "why_tests_cant": "The symmetric path pairs chunks from both ends; correctness depends on length and thread count.", "anchors": ["vector/src/vector_types/time_freq/time.rs", "vector/src/vector_types/mod.rs: multiply_window_priv", "vector/src/multicore_support/threading.rs: execute_sym_pairs_with_range"]}
{"id": "C27", "title": "convolve_signal is the circular convolution", "statement": "`convolve_signal(h)` computes for every point i the sum over k of h[k] * x[(i + ceil(m/2) - 1 - k) mod n], where m and n are the number of points of h and x: for all real vectors, and for all complex ones except in the gap 512 < m, 10 m < n < 15 m, in which points are left unfiltered if a single step of the overlap-discard algorithm fits (C28).", "ideal": "`convolve_signal(h)` computes for every point i the sum over k of h[k] * x[(i + ceil(m/2) - 1 - k) mod n], where m and n are the number of points of h and x.", "quantifier": "all signals and impulse responses with m <= n", "why_tests_cant": "Wrap-around at both ends for every length combination.", "anchors": ["vector/src/vector_types/time_freq/mod.rs: convolve_signal_scalar, convolve_iteration, ReverseWrappingIterator"]}
{"id": "C28", "title": "Algorithm selection does not change a convolution", "statement": "`convolve_signal` gives the same points whichever of its algorithms (scalar, SIMD, overlap-discard) is selected for the sizes at hand, with one exception: overlap-discard leaves unfiltered input in the result if a single step covers nearly the whole signal. `convolve` with a function computes the documented weighted sum over the neighbourhood on its scalar path (vectors of at most 2000 elements, more than 202 points of response, or a ratio whose inverse isn't whole), and on its sampled path for complex vectors with a ratio of one. Otherwise the sampled path uses the inverse of the ratio; it drops every second sample for real vectors, it uses too many samples or panics for ratios above a million, and it panics or misplaces the samples for complex functions.", "quantifier": "all sizes, alignments and register widths", "why_tests_cant": "The thresholds select different code for different sizes; agreement is a statement about all of them.", "anchors": ["vector/src/vector_types/time_freq/mod.rs: convolve_signal_simd_impl, create_shifted_copies", "vector/src/vector_types/time_freq/convolution.rs: overlap_discard, convolve"], "ideal": "The SIMD, scalar and overlap-discard implementations that `convolve`/`convolve_signal` select by size compute the same values (exact arithmetic), writing every output point."}
{"id": "C29", "title": "Wrapping iterators visit the circular neighbourhood", "statement": "The forward/backward wrapping iteration from position p yields the elements at p+1, p+2, ... (or p-1, p-2, ...) modulo the length, never reading outside the slice.", "quantifier": "all non-empty slices, all positions (also negative), all iteration lengths", "why_tests_cant": "Unsafe pointer arithmetic: a test cannot show that no position reads outside.", "anchors": ["vector/src/vector_types/time_freq/mod.rs: WrappingIterator, ReverseWrappingIterator"]}
{"id": "C30", "title": "Matrix convolution sums the row convolutions", "statement": "Convolving a real matrix with a matrix of impulse responses gives in row r the sum over c of row c convolved with impulse response (r, c), with the same convolution as for vectors, for up to 64 rows. For a complex matrix the rows are cut to the length of the impulse responses before; more than 64 rows panic, always.", "ideal": "Convolving a matrix with a matrix of impulse responses gives in row r the sum over c of row c convolved with impulse response (r, c), with the same convolution as for vectors.", "quantifier": "all matrices and responses", "why_tests_cant": "All sizes, real and complex.", "anchors": ["vector/src/vector_types/time_freq/mod.rs: convolve_mat", "matrix/src/time_freq.rs: convolve_signal!"]}
{"id": "C31", "title": "ifft(fft(x)) = x", "statement": "In exact arithmetic `ifft(fft(x))` restores the points for every length (even and odd) but one, as do plain_fft/plain_ifft up to the factor points() and the windowed transforms for windows without zeros. `ifft` of a single point always panics.", "ideal": "In exact arithmetic `ifft(fft(x))` restores the points for every length (even and odd), as do plain_fft/plain_ifft up to the factor points().", "quantifier": "all complex signals of every length", "why_tests_cant": "An identity over all lengths combining shift, scaling and transform.", "anchors": ["vector/src/vector_types/time_freq/time_to_freq.rs", "vector/src/vector_types/time_freq/freq_to_time.rs", "vector/src/vector_types/time_freq/mod.rs: fft"]}
{"id": "C32", "title": "Transforms report the right domain and number space", "statement": "After fft/plain_fft a vector is complex and in the frequency domain, also for vectors that track this only at runtime; after ifft/plain_ifft/sifft it is in the time domain (real for sifft) if its type fixes the domain at compile time. A vector which tracks it at runtime always stays in the frequency domain after plain_ifft, and complex and in the frequency domain with an odd length after plain_sifft. Using a transform in the wrong domain yields an empty vector.", "ideal": "After fft/plain_fft a vector is complex and in the frequency domain; after ifft/plain_ifft/sifft it is in the time domain (real for sifft), also for vectors that track this only at runtime; using a transform in the wrong domain yields an empty vector.", "quantifier": "all vectors of all static and runtime types", "why_tests_cant": "Static and runtime-tracked types take different paths.", "anchors": ["vector/src/vector_types/time_freq/time_to_freq.rs", "vector/src/vector_types/time_freq/freq_to_time.rs", "vector/src/vector_types/rededicate_and_relations.rs", "vector/src/meta.rs"]}
{"id": "C33", "title": "Symmetric FFT keeps the non-redundant half", "statement": "For an odd number n of real points `plain_sfft` and `sfft` return the (n+1)/2 points of the non-redundant half spectrum, and `mirror` restores the full spectrum; even lengths are rejected. This is for vectors which fix the number space at compile time; if it is tracked at runtime `plain_sfft` panics for n mod 4 = 1 and returns only (n+1)/4 points for n mod 4 = 3.", "ideal": "For an odd number n of real points `plain_sfft` returns the (n+1)/2 points of the non-redundant half spectrum, and `mirror` restores the full spectrum; even lengths are rejected.", "quantifier": "all odd lengths, all vector types", "why_tests_cant": "Length arithmetic over all odd lengths, and static vs runtime-tracked number space.", "anchors": ["vector/src/vector_types/time_freq/time_to_freq.rs: plain_sfft, unmirror!", "vector/src/vector_types/time_freq/freq.rs: mirror"]}
{"id": "C34", "title": "mirror builds the conjugate-symmetric spectrum", "statement": "`mirror` turns points X0..X(n-1), n >= 1, into 2n-1 points where point 2n-1-k is the conjugate of point k for 1 <= k < n. An empty vector always panics.", "ideal": "`mirror` turns points X0..X(n-1) into 2n-1 points where point 2n-1-k is the conjugate of point k for 1 <= k < n.", "quantifier": "all non-empty complex vectors", "why_tests_cant": "All lengths.", "anchors": ["vector/src/vector_types/time_freq/freq.rs: mirror"]}
{"id": "C35", "title": "Correlation and frequency multiplication agree with the definition", "statement": "Multiplying spectra corresponds to circular convolution in time: ifft(fft(x)*fft(y)) is the circular convolution, and `correlate` with an argument from `prepare_argument_padded` the cross correlation over all lags (exact arithmetic, at least two points). `correlate` with an argument of the same length (from `prepare_argument`) always fails with InvalidArgumentLength, and `prepare_argument_padded` of fewer than two points always panics.", "ideal": "Multiplying spectra corresponds to circular convolution in time: ifft(fft(x)*fft(y)) is the circular convolution, and with the conjugated spectrum the circular cross correlation (exact arithmetic).", "quantifier": "all signals of equal length", "why_tests_cant": "Identity over all lengths and contents.", "anchors": ["vector/src/vector_types/time_freq/correlation.rs", "vector/src/vector_types/time_freq/convolution.rs"]}
{"id": "C36", "title": "decimatei keeps every k-th point", "statement": "`decimatei(k, d)` keeps exactly the points d, d+k, d+2k, ... in order, for all k >= 1; decimating a zero-interleaved vector by the same factor gives the vector back. The factor 0 is not rejected: it panics.", "ideal": "`decimatei(k, d)` keeps exactly the points d, d+k, d+2k, ... in order; decimating a zero-interleaved vector by the same factor gives the vector back.", "quantifier": "all vectors, factors and delays", "why_tests_cant": "In-place compaction over all lengths, factors and delays (also beyond the end).", "anchors": ["vector/src/vector_types/time_freq/interpolation.rs: decimatei"]}
{"id": "C37", "title": "Interpolation reproduces the samples", "statement": "`interpolate_lin` with an integer factor k and zero delay gives (n-1)k+1 points and reproduces sample i at position i*k, and linear data is reproduced exactly everywhere; with other factors and delays every point whose position lies inside of the data is the linear interpolation, and a position outside of it panics. `interpolate_hermite` with an integer factor gives the Catmull-Rom spline through at least three samples with the same two properties; it panics for fewer samples and for factors whose last points begin before the last interval.", "ideal": "`interpolate_lin` with an integer factor k and zero delay gives (n-1)k+1 points and reproduces sample i at position i*k (so does `interpolate_hermite`), and linear data is reproduced exactly everywhere.", "quantifier": "all data, all integer factors", "why_tests_cant": "Index arithmetic at both ends for all lengths.", "anchors": ["vector/src/vector_types/time_freq/real_interpolation.rs"]}
{"id": "C38", "title": "Lookup tables reproduce the tabulated function", "statement": "A lookup table made from a function returns the function's value at the table points, values between neighbouring table values in between, and inside of the table it is symmetric when the function is. Right of the table it gives the last value for half a step and then zero; left of the table it always gives the first value.", "ideal": "A lookup table made from a function returns the function's value at the table points, values between neighbouring table values in between, zero outside the table, and is symmetric when the function is.", "quantifier": "all functions, resolutions and arguments", "why_tests_cant": "All arguments, in particular those outside the table.", "anchors": ["vector/src/conv_types.rs: from_conv_function, calc, linear_interpolation_between_bins"]}
{"id": "C39", "title": "Matrix operations are row-wise vector operations", "statement": "Each operation of a matrix has exactly the effect of the like-named vector operation on every row, except that `cum_sum` and `diff_with_start` are `diff`, that `get_magnitude`, `get_magnitude_squared` and `get_phase` are `get_imag`, and that `sum`/`sum_sq` of 3 and 4 rows always panic. A failing operation leaves the matrix unchanged if its rows are alike; otherwise the rows before the failing one keep their changes. Rows without a counterpart in a matrix argument are silently left as they are.", "ideal": "Each operation of a matrix has exactly the effect of the like-named vector operation on every row, and a failing operation leaves the matrix unchanged.", "quantifier": "all matrices and all operations of the matrix traits", "why_tests_cant": "Hundreds of forwarding methods; a test checks a few.", "anchors": ["matrix/src/general/elementary.rs", "matrix/src/complex.rs", "matrix/src/lib.rs", "matrix/src/mat_impl.rs"]}
{"id": "C40", "title": "Foreign-function results are unambiguous", "statement": "A call through the C interface hands back what the library computes and code 0 exactly on success, and every error reason has its own non-zero code. Deviations: atan64 computes the tangent; functions without a result return 9 on success, which is also the code of InputMustHaveAnOddLength; codes 13 and 14 are not documented; new64 with complex data of odd length gives an empty vector which is not erroneous; overwrite_data64 always refuses data of exactly the length of the vector.", "ideal": "A call through the C interface returns code 0 exactly on success, every error reason has its own non-zero code, and the vector handed back is the one the operation produced.", "quantifier": "all operations and all outcomes", "why_tests_cant": "All outcomes of all operations.", "anchors": ["interop/src/lib.rs: translate_error, convert_vec, trans_vec, convert_void"]}
{"id": "C41", "title": "Precise sums equal plain sums in exact arithmetic", "statement": "Compensated (`_prec`) sums, sums of squares and dot products equal the mathematical sum in exact arithmetic.", "quantifier": "all vectors over any ring", "why_tests_cant": "Algebraic identity over all lengths.", "anchors": ["vector/src/vector_types/general/mod.rs: kahan_sum", "vector/src/vector_types/general/precise_stats.rs", "vector/src/vector_types/general/dot_products.rs"]}
{"id": "C42", "title": "Declared-symmetric functions are symmetric", "statement": "The built-in windows satisfy w(n, L) = w(L-1-n, L), and the built-in convolution functions f(x) = f(-x), which the optimised paths rely on.", "quantifier": "all indices, lengths and arguments", "why_tests_cant": "Trigonometric identity over all reals.", "anchors": ["vector/src/window_functions.rs", "vector/src/conv_types.rs: RaisedCosineFunction, SincFunction"]}
{"id": "C43", "title": "Invalid operations poison the vector", "statement": "An operation that needs another number space or domain sets `len()` to 0 and makes `is_erroneous()` true instead of computing on misinterpreted data, with these exceptions: applying and removing windows, fft_shift, ifft_shift and the setters do not check, mirror only refuses if both number space and domain are wrong, the inverse transforms of real vectors convert, and to_complex, convolve_signal and the getters return an error or an empty target instead.", "ideal": "An operation that needs another number space or domain sets `len()` to 0 and makes `is_erroneous()` true instead of computing on misinterpreted data.", "quantifier": "all runtime-typed vectors", "why_tests_cant": "All operations and metadata combinations.", "anchors": ["vector/src/vector_types/vec_impl_and_indexers.rs: mark_vector_as_invalid", "vector/src/vector_types/general/elementary.rs: scale, offset", "vector/src/vector_types/checks_and_results.rs"]}
{"id": "C44", "title": "Storage conversion round-trips", "statement": "Turning a Vec into a dsp vector and back returns the same elements. For a Vec of complex numbers the elements are followed by one zero for every unused element of its capacity, and one without capacity always panics.", "ideal": "Turning a Vec into a dsp vector and back returns the same elements.", "quantifier": "all Vecs, of every length and capacity", "why_tests_cant": "Depends on spare capacity, which tests do not vary.", "anchors": ["vector/src/vector_types/support_std.rs: From<DspVec> for Vec"]}
{"id": "C45", "title": "Dot products", "statement": "`dot_product` is the sum of products of corresponding points, independent of threads, and rejects a receiver of the wrong number space, and for complex receivers factors of another number space or domain. The size is not checked: of a longer factor the additional elements are ignored, a shorter one always panics; and a complex factor of a real vector is taken for the array of its real and imaginary parts.", "ideal": "`dot_product` is the sum of products of corresponding points, independent of threads, and rejects operands of a different size or number space.", "quantifier": "all pairs of vectors", "why_tests_cant": "All lengths and schedules.", "anchors": ["vector/src/vector_types/general/dot_products.rs"]}
{"id": "C46", "title": "Window and frequency responses are independent of the declared symmetry", "statement": "`multiply_frequency_response` multiplies each point by ratio * H(f) where f is the point's position on the frequency axis: for responses which are not declared symmetric with any multicore setting, for symmetric ones whenever the data can be cut into twice as many pieces as there are threads. Otherwise points of the middle can be left out, and a single point panics.", "ideal": "`multiply_frequency_response` multiplies each point by ratio * H(f) where f is the point's position on the frequency axis, whether the response is declared symmetric or not and for any multicore setting.", "quantifier": "all vectors, responses and settings", "why_tests_cant": "The symmetric path re-synchronises two iterators from both ends.", "anchors": ["vector/src/vector_types/time_freq/mod.rs: multiply_function_priv", "vector/src/multicore_support/threading.rs: execute_sym_pairs_with_range"]}
{"id": "C47", "title": "Mathematical functions act on each point", "statement": "The mathematical functions (trigonometric, hyperbolic, powers, roots, logarithms, `sqrt`, `square`, `abs`) replace each real value or complex point by the value of the function at this point, keep length, domain, number space and delta, and do not touch anything behind the valid data, whatever the multicore settings and the schedule.", "quantifier": "all vectors, functions, register types, start addresses (aligned), settings and schedules", "why_tests_cant": "The split into threads, registers and edges depends on length, address and settings.", "anchors": ["vector/src/vector_types/general/trigonometry_and_powers.rs", "vector/src/vector_types/real/real_ops.rs: abs"]}
{"id": "C48", "title": "Conjugation and complex exponential", "statement": "`conj()` conjugates each point; `multiply_complex_exponential(a, b)` multiplies point i by e^(j(a*i+b)*delta); on a vector which is not complex both mark it as invalid.", "quantifier": "all vectors, all a and b, all settings and schedules", "why_tests_cant": "The exponential is accumulated over the points; needs an induction.", "anchors": ["vector/src/vector_types/complex/complex_ops.rs"]}
{"id": "C49", "title": "sifft undoes sfft", "statement": "For an odd number of real points `plain_sifft(plain_sfft(x))` restores x up to the factor points() (exact arithmetic). `sifft` doesn't undo `sfft`: it divides by the number of points of the half spectrum and rotates the half spectrum with ifft_shift before the plain inverse transform, so it fails with InputMustBeConjSymmetric if the point which the rotation moves to the front isn't real, and otherwise gives the real inverse transform of the mirrored, rotated and scaled half spectrum; for a single point it always panics.", "ideal": "For an odd number of real points `sifft(sfft(x))` restores x, and `plain_sifft(plain_sfft(x))` restores x up to the factor points() (exact arithmetic).", "quantifier": "all odd lengths, all real data, all buffers large enough", "why_tests_cant": "Conjugate symmetry of the spectrum and the inversion hold for every length only by an algebraic argument.", "anchors": ["vector/src/vector_types/time_freq/time_to_freq.rs: plain_sfft, sfft", "vector/src/vector_types/time_freq/freq_to_time.rs: plain_sifft, sifft"]}
{"id": "C50", "title": "Lookup tables can be converted between number spaces and domains", "statement": "`to_complex()` followed by `to_real()` of a lookup table gives the table back (values, resolution, symmetry); `fft()` of a table gives the centred spectrum and `ifft()` restores the values, but the resolution comes back multiplied with the square of the number of points. A transform which needs more scratch space than the table has points always panics.", "ideal": "`to_complex()` followed by `to_real()` of a lookup table gives the table back (values, resolution, symmetry); `fft()` of a table gives the centred spectrum and `ifft()` restores the table.", "quantifier": "all tables, resolutions and lengths", "why_tests_cant": "All lengths and values; the resolution and the buffer sizes depend on the length.", "anchors": ["vector/src/conv_types.rs: to_complex, to_real, fft, ifft"]}
{"id": "C51", "title": "interpft to the same number of points is the identity", "statement": "`interpft(buffer, points())` leaves the elements, the length and the metadata of a real or complex vector unchanged (exact arithmetic).", "quantifier": "all real and complex vectors of all lengths, all content, all buffers which can provide the memory, all settings and schedules", "why_tests_cant": "Equality for every length and content needs the inversion theorem of the DFT.", "anchors": ["vector/src/vector_types/general/interpolation.rs: interpft, interpolate"]}
{"id": "C52", "title": "interpft gives points of the trigonometric polynomial through the data", "statement": "`interpft(buffer, m)` gives m equidistant points of the trigonometric polynomial through the n points (without the frequencies m points cannot represent) and multiplies delta with n/m. It is exact for band limited signals, and if m is a multiple of n then the original points are among the result (exact arithmetic).", "quantifier": "all n > 0, m > 0, all content, all sufficiently large buffers, settings, schedules", "why_tests_cant": "The claim is an identity between sums for every n and m and every parity.", "anchors": ["vector/src/vector_types/general/interpolation.rs: interpft, interpolate, interpolate_upsample, interpolate_downsample"]}
{"id": "C53", "title": "interpolate delays the signal and applies the frequency response", "statement": "`interpolate(buffer, Some(f), m, delay)` gives m points of the polynomial through the data, moved by delay and with the gain of the frequency response f, without a delay or for an even number of points; the gain is the one of f at the frequency of each bin if f is symmetric and m even or f asymmetric and m odd, and that of a neighbouring bin for negative frequencies otherwise. A response which is not symmetric is refused for real vectors with ArgumentFunctionMustBeSymmetric and changes nothing. With an odd number of points a delay is applied to bin (n-1)/2 with the wrong sign of the frequency.", "ideal": "`interpolate(buffer, Some(f), m, delay)` gives m points of the polynomial through the data, moved by delay and with the gain of the frequency response f; a response which is not symmetric is refused for real vectors with ArgumentFunctionMustBeSymmetric and changes nothing.", "quantifier": "all n, m > 0, all responses and delays, all content, buffers, settings, schedules", "why_tests_cant": "Every delay, response, n and m; the wrong bins only occur for some parities.", "anchors": ["vector/src/vector_types/general/interpolation.rs: interpolate, apply_linear_phase", "vector/src/vector_types/time_freq/mod.rs: fft_swap_x"]}
{"id": "C54", "title": "Interpolating to more points and back restores the data", "statement": "`interpft(m)` followed by `interpft(n)` restores the n points and the metadata for every m >= n (exact arithmetic), for complex vectors and for real vectors with an odd number of points. For a real vector with an even number of points and m > n everything is restored but the component at half of the sampling rate, which always loses half of its amplitude.", "ideal": "`interpft(m)` followed by `interpft(n)` restores the n points and the metadata for every m >= n (exact arithmetic).", "quantifier": "all vectors, all m >= n, all sufficiently large buffers, settings, schedules", "why_tests_cant": "Needs the algebra of the spectrum for all n and m; only real vectors with an even number of points violate it.", "anchors": ["vector/src/vector_types/general/interpolation.rs: interpft"]}
{"id": "C55", "title": "interpolatei filters the zero-stuffed signal", "statement": "`interpolatei(buffer, f, k)` inserts k-1 zeros between the points and multiplies the spectrum with the gain k and with the frequency response f at the frequency of each bin if f is symmetric and the new number of points even or f asymmetric and that number odd, and at a neighbouring bin for negative frequencies otherwise; with a filter which removes the images the result is the polynomial through the points. k <= 1 changes nothing; a response which is not symmetric is refused for real vectors.", "ideal": "`interpolatei(buffer, f, k)` inserts k-1 zeros between the points and multiplies the spectrum with the frequency response f (and the gain k); with a filter which removes the images the result is the polynomial through the points. k <= 1 changes nothing; a response which is not symmetric is refused for real vectors.", "quantifier": "all vectors, factors, responses, buffers, settings, schedules", "why_tests_cant": "Every response, factor, parity and length.", "anchors": ["vector/src/vector_types/general/interpolation.rs: interpolatei", "vector/src/vector_types/time_freq/mod.rs: fft_swap_x, multiply_function_priv"]}
{"id": "C56", "title": "interpolatef is a weighted sum of neighbouring points", "statement": "Point i of the result of `interpolatef(buffer, h, factor, delay, conv_len)` is the sum over the 2*conv_len+1 nearest points p (the vector continued periodically) of x_p * h(p - i/factor + delay/delta); with a function which is 1 at 0 and 0 at the other integers and without a delay the original points are kept.", "quantifier": "all vectors, factors, delays, lengths, functions, buffers, settings, schedules", "why_tests_cant": "Every position wraps around differently; needs modular arithmetic over all positions.", "anchors": ["vector/src/vector_types/general/interpolation.rs: interpolatef, interpolate_priv_scalar"]}
{"id": "C57", "title": "interpolatef computes the same with and without SIMD", "statement": "For integer factors and long vectors `interpolatef` switches to an algorithm with SIMD registers; its exact result is a weighted sum which equals the one of the scalar algorithm without a delay for an even function which ends before conv_len. With a delay the middle of the vector is delayed in the opposite direction, and a vector which is too short for both ends panics.", "ideal": "For integer factors and long vectors `interpolatef` switches to an algorithm with SIMD registers; the result is the one of the scalar algorithm.", "quantifier": "all vectors, integer factors, delays, functions, lengths, register sizes, settings, schedules", "why_tests_cant": "The two algorithms differ only in the middle part of long vectors, for all alignments and register sizes.", "anchors": ["vector/src/vector_types/general/interpolation.rs: interpolatef, interpolate_priv_simd, function_to_vectors"]}
{"id": "C58", "title": "Values of the built-in windows", "statement": "The triangular, Hamming (alpha 0.54), Blackman-Harris and rectangular windows have the values of the literature: between 0 (exclusive) and 1, 1 in the centre of an odd number of points, and 1/n, 0.08, 0.00006 and 1 at the two ends; therefore `unapply_window` after `apply_window` restores a vector (exact arithmetic).", "quantifier": "all positions and all lengths of at least two points, all vectors", "why_tests_cant": "All lengths and positions; the bounds need trigonometric identities.", "anchors": ["vector/src/window_functions.rs", "vector/src/vector_types/time_freq/time.rs: apply_window, unapply_window"]}
{"id": "C59", "title": "Built-in convolution functions are interpolation functions", "statement": "The sinc and raised cosine impulse responses are 1 at 0, 0 at all other integers and continuous (the special cases of the code are the limits), so `interpolatef` with them keeps the original points; the frequency responses are 1 in the pass band and 0 in the stop band, and the raised cosine satisfies the Nyquist criterion H(1-x) + H(1+x) = 1.", "quantifier": "all real arguments, all positive rolloff factors (up to 1 for the frequency responses)", "why_tests_cant": "The special cases are hit at isolated points only; the identities hold for all arguments.", "anchors": ["vector/src/conv_types.rs: SincFunction, RaisedCosineFunction", "vector/src/vector_types/general/interpolation.rs: interpolatef"]}
{"id": "C60", "title": "The build without std computes the same", "statement": "Without the std feature (no threads) every chunk-wise operation has the same outcome as in the threaded build, for every setting and every interleaving of the threads; it is exactly what the threaded build does when the number of cores is limited to one, also for empty arrays and pairwise execution.", "quantifier": "all arrays, element work which is local, multicore settings, complexities and schedules", "why_tests_cant": "Two builds are never in one test, and the schedules of the threaded build are not under the control of a test.", "anchors": ["vector/src/multicore_support/no_threading.rs: Chunk, MultiCoreSettings", "vector/src/multicore_support/threading.rs: Chunk"]}
{"id": "C61", "title": "Approximated functions are the functions they are named after", "statement": "In the default build `ln_approx`, `exp_approx`, `sin_approx` and `cos_approx` give exactly the values of the exact methods, and `log_approx`, `expf_approx`, `powf_approx` give ln x / ln b, exp(x ln b), exp(y ln x), at every position of a real vector however it lies with respect to the SIMD registers; in exact arithmetic these are the logarithm and the powers. A complex vector becomes invalid.", "quantifier": "all real vectors, arguments, register types, addresses, settings and schedules", "why_tests_cant": "The result must not depend on address, register boundary or thread; the identities hold for all real numbers.", "anchors": ["vector/src/vector_types/real/real_ops.rs: ApproximatedOps", "vector/src/simd_extensions/approx_fallback.rs"]}
{"id": "C62", "title": "SIMD registers do not change results", "statement": "Whatever features the library is built with (fallback, SSE2, AVX2), whatever processor it runs on and wherever the data lies in memory, scaling, offsets, square roots, products and quotients of vectors, and magnitudes of f32 vectors, are the pointwise results: every register type computes the arithmetic of the numbers in the register. For f64 vectors in a build for AVX2 on a processor with AVX2 `magnitude_b`, `magnitude_squared_b`, `get_magnitude` and `get_magnitude_squared` instead repeat the first of every two magnitudes within the registers.", "ideal": "The magnitudes of f64 vectors are right on every machine as well.", "quantifier": "all builds and processors, register contents, vectors, arguments, addresses, settings and schedules; all number types whose addition and multiplication commute", "why_tests_cant": "A test runs with one build on one processor and for a few addresses.", "anchors": ["vector/src/simd_extensions/fallback.rs: f32x4, f64x2", "vector/src/simd_extensions/sse.rs: f32x4, f64x2", "vector/src/simd_extensions/avx.rs: f32x8, f64x4", "vector/src/simd_extensions/x86.rs: sel_reg", "vector/src/lib.rs: ToSimd"]}
{"id": "C63", "title": "Indexing reads and writes exactly the addressed valid elements", "statement": "data(i), data(..), data(a..), data(..b), data(a..b) give exactly the addressed elements of the valid data, whatever the storage has behind it, and panic exactly when the index or range leaves the valid data; datac does the same in points for complex vectors; writing through data_mut/datac_mut changes the addressed elements and nothing else (other elements, spare elements, metadata); the index operator counts numbers for real and points for complex types. For a vector which is real at run time, datac(..) gives all numbers as pairs if the length is even and panics otherwise (the documentation promises an empty slice).", "quantifier": "all vectors, storages with spare elements, indices, ranges and length preserving updates", "why_tests_cant": "tests index a few in-range positions; that no index reaches spare storage and no write touches neighbours is a claim about all positions, lengths and storages", "anchors": ["vector/src/vector_types/vec_impl_and_indexers.rs: FloatIndex, FloatIndexMut, ComplexIndex, ComplexIndexMut, Index, IndexMut"], "ideal": "the same, and datac of a vector which is not complex gives an empty slice, as documented"}
{"id": "C64", "title": "The polynomial approximations keep the documented errors, in exact arithmetic", "statement": "With SSE2 or AVX registers and arithmetic without rounding: sin_approx and cos_approx are off by at most 1E-8 for |x| <= 10^9 (documented: 1E-6); exp_approx and expf_approx have a relative error of at most 2E-8 as long as the exponent is between -87 and 87; ln_approx is off by at most 0.0139 for every positive normalised number, by at most 5E-7 if the mantissa is at most 1.4142, and by at most 1% for numbers from 1 on unless they are between 15/8 and 2, log_approx likewise; powf_approx multiplies the error of the logarithm with the exponent; the logarithm of a number which is not positive is NaN. This holds wherever the elements lie with respect to the registers, and metadata and spare storage stay. Numbers from 1.95 to 2 in a register have an error above 1%, other than documented, and the same number has a different result in a register and outside of one; exp_approx of an f64 number from 90 on is less than half of the exponential.", "quantifier": "all real vectors, elements in the stated ranges, register types, addresses, thread settings, schedules; exponent ranges of f32 and f64", "why_tests_cant": "the documented error bounds are claims about every number; the interval in which ln_approx breaks its bound is missed by the numbers of the tests", "anchors": ["vector/src/simd_extensions/approximations.rs: ln_approx, exp_approx, sin_cos_approx", "vector/src/vector_types/real/real_ops.rs: ApproximatedOps"], "ideal": "the documented errors: ln_approx and log_approx below 1% for all numbers larger than 1; exp_approx below 1% for all numbers whose exponential the type can represent"}
{"id": "C65", "title": "What a method computes follows from its name, for vectors, matrices and the foreign interface", "statement": "Without rounding, every method which is offered for matrices and through the foreign interface computes the numbers its name says: scaling, offset, reversing, shifts, differences, sums, elementary functions, powers, logarithms, wrapping, windows, frequency responses, decimation and the meta data setter on real and on complex numbers; the sum, difference, product and quotient of two operands point by point, a smaller second operand being repeated; magnitude, squared magnitude, real and imaginary part and phase; the transforms with their shifts, scalings, windows and paddings; sums, dot products and statistics. A matrix method computes this for every row, a foreign function for its vector, with the exceptions that cum_sum and diff_with_start of a matrix compute the differences, that get_magnitude, get_magnitude_squared and get_phase of a matrix give the imaginary parts, and that the foreign atan is the tangent.", "quantifier": "all methods of the tables, vectors and matrices with any number of non empty rows, numbers, arguments, register types, addresses, thread settings and schedules", "why_tests_cant": "a method which calls the wrong method of its rows is only noticed with data on which the two differ, and there are more than a hundred such forwarding methods in three crates", "anchors": ["matrix/src/general/elementary.rs", "matrix/src/complex.rs", "matrix/src/real.rs", "matrix/src/time_freq.rs", "interop/src/facade64.rs", "vector/src/vector_types/general/elementary.rs"], "ideal": "without the exceptions"}
{"id": "C66", "title": "The thread settings the library makes for itself are sound", "statement": "Whatever times are measured, a calibration gives thresholds in their order: the two core thresholds are between 5000 and 100000, the multi core thresholds above them and at most 200000, and large operations never start threads later than medium ones. It panics only if the mean of the measured times is not a finite number. MultiCoreSettings::new, parallel, default and single_threaded keep the core limit (at least 1), no operation uses more threads than the limit or none at all, more data never means fewer threads, an empty vector is never divided, and default settings use one thread for every length. parallel() is half of the cores, but both of two. Explicit thresholds above zero give the same guarantees. A vector of a constructor with _par is the vector of the constructor without, and pointwise operations have the same results on both, the empty vector included. parallel() on three cores gives one core, and with a limit of zero cores operations use two threads from the first threshold on and panic above the second. If the times of the benchmark are proportional to the size with one thread and lines with more threads, then the thresholds are the sizes where both take the same time, rounded and limited, and twice that for medium operations.", "quantifier": "all measured times, outcomes of the line fit, core counts, lengths, complexities, constructors, storages, schedules", "why_tests_cant": "the calibration depends on the clock and on the machine: a test sees one outcome per machine", "anchors": ["vector/src/multicore_support/threading.rs: limit, measure, proportional_regression, intersection, attempt_calibrate, calibrate, MultiCoreSettings", "vector/src/vector_types/support_std_par.rs"], "ideal": "parallel() on three cores uses more than one; a limit of zero cores is taken as one"}
{"id": "C67", "title": "Precise sums are precise: with rounding, their error does not grow with the number of elements", "statement": "In every arithmetic whose sums and differences have a relative error of at most u (f64, denormal numbers included and without overflow: u = 2^-53), sum_prec, sum_sq_prec and the sum (and sum of squares behind rms) of statistics_prec are off by at most 6 u times the sum of the magnitudes, as long as there are at most 1/(64 u) elements (2^47 for f64); likewise for the real and imaginary parts of complex vectors. dot_product_prec with registers of w lanes (w at most 16) is off by at most (7 + 9/4 w) u times the sum of the magnitudes of the products, again independently of the length, and so are the real and imaginary parts for complex vectors. Plain statistics of f64 numbers can be off by half of the number of elements. The precise statistics, split statistics and sums of f32 vectors are the plain ones of the same numbers converted to f64, and these sums are off by at most 2 (n + 1) u of f64. statistics_split_prec of f64 vectors is not precise: a number which is absorbed in one bucket is added to the next bucket, so that the sum of a bucket of zeros can be any absorbed number.", "quantifier": "all vectors with at most 1/(64 u) elements, number formats, rounding functions with the stated error, thread settings, schedules", "why_tests_cant": "rounding errors depend on the data and on the length; tests compare a few vectors with a tolerance, and in exact arithmetic the compensation has no effect at all", "anchors": ["vector/src/vector_types/general/precise_stats.rs", "vector/src/vector_types/general/mod.rs: kahan_sum, kahan_sumb"], "ideal": "statistics_split_prec has the same error bound for every bucket"}
{"id": "C68", "title": "The internal list type is a list with a limit", "statement": "Whatever sequence of push, pop, remove, append, insert and element assignments is made on an internal vector which was created for n elements, it holds the elements and gives the answers of a plain list, as long as the list has at most 64 elements, or any number of them if n is above 64 and the library is built with std. Everything else panics: positions which do not exist and one element too many. Scratch space of a requested size has that size for every n with std, and for n up to 64 without. After any sequence of calls, resizing included, the capacity is enough for the elements (and with std for the number asked for at creation), and try_resize reports an error exactly for sizes above the capacity. Deviations: collecting more than 64 elements panics even with std, and try_resize of a vector of at most 64 elements reports success but does not change the length.", "quantifier": "all builds, capacities, sequences of calls, element types", "why_tests_cant": "the two representations switch at 64 elements and every operation has a case for each of them", "anchors": ["vector/src/inline_vector/dynamic.rs", "vector/src/inline_vector/fixed_size.rs"], "ideal": "collect and try_resize behave the same for both representations"}
{"id": "C69", "title": "A client of the C interface reads what the vector holds", "statement": "For every vector behind the C interface: length, points, domain, number space, delta and the elements which are read are those of the vector; a written element is read back and nothing else changes; set_len keeps the first elements and fills with zeros, and what new_with_performance_options makes has the elements and the core limit which were asked for. The sum and statistics functions give the sums and statistics of the elements, also split into parts and written into the array of the client (error 7 above 16 parts), and the aggregate functions fold the results of the client's function from the left to the right, or give 0 and the error code. Deviations: set_len with an odd length of a complex vector is silently ignored, and the real sums and statistics of a complex vector are computed from all parts instead of an error.", "quantifier": "all vectors, lengths, positions, values, settings, schedules, functions of the client", "why_tests_cant": "there are many functions, and each must agree with the vector for every content, number space and storage size", "anchors": ["interop/src/facade64.rs", "interop/src/facade32.rs", "interop/src/lib.rs"], "ideal": "functions of the wrong number space report an error"}
{"id": "C70", "title": "The vectors of a C client live exactly as long as it holds them", "statement": "For every sequence of calls of the C interface in which the client uses only vectors it holds, none twice in a call if it is handed over or changed, and treats every vector passed by value as gone: no freed vector is ever used, nothing leaks (what lives is exactly what the client holds), a returned vector lies at an address where no other vector lives, no call changes a vector which isn't an argument for that, and a call stores what the function computes from the stored operands. A use of a vector which was handed over before is undefined behaviour. Deviations: clone frees the vector it clones, and the getters (get_real, get_imag, get_magnitude, get_phase, ...) free the vector they read, since they take it by value.", "quantifier": "all histories of calls, all contents, all choices of addresses by the allocator", "why_tests_cant": "use after free and leaks depend on the history of calls and on the allocator", "anchors": ["interop/src/facade64.rs", "interop/src/lib.rs (convert_vec, trans_vec)"], "ideal": "clone and the getters leave their argument alive"}
{"id": "C71", "title": "Length and meta data after a call don't depend on the content, and the rows of a matrix stay alike", "statement": "What a method makes of the number of elements, the number space, the domain and the delta of a vector is a function of these four and of the arguments of the method: it depends neither on the numbers in the vector nor on the buffer, the settings, the scheduler or an operand (for methods which may fail: if they succeed). The function is: elementwise methods, windows, shifts and convolutions keep everything; diff takes away a point; decimatei(k, d) leaves every k-th point from d on; magnitude, phase, real and imaginary parts halve the elements and give a real vector; transforms give complex vectors of the other domain, with the delta multiplied by the number of points; mirror gives 2n - 2 elements; interpolations give the requested number of points; a method whose requirement is not met leaves an empty vector with a NaN delta. So the rows of a matrix, if they have the same length and meta data, have the same length and meta data afterwards, and what the matrix says about itself (row_len, row_points, delta, domain, is_complex, the length of get) is true of every row. Deviations: fft and ifft don't restore the delta; ifft of a generic vector leaves it in frequency domain; sfft of a statically real vector of n elements gives n + 1 elements but n / 2 + 1 for a generic one; matrices with rows of different length report the length of the first row.", "quantifier": "all vectors and matrices of all types, all methods and arguments, all buffers, settings and schedules", "why_tests_cant": "there are some eighty methods, four static types and the generic one, and the claim is about every content and schedule", "anchors": ["vector/src/vector_types/mod.rs", "vector/src/vector_types/time_freq/", "matrix/src/mat_impl.rs", "matrix/src/time_freq.rs", "matrix/src/to_from_mat_conversions.rs (get)"], "ideal": "the delta is restored by ifft(fft), generic and static vectors behave in the same way"}
{"id": "C72", "title": "Functions of a C client are used as the documentation says", "statement": "A window function of a C client is called with the number of the point and the number of points, and the numbers of the vector are multiplied with (or divided by) what it gives; a response or convolution function is called with the place on the axis; both see the client's data pointer and nothing else. map_inplace calls the client's function with each number and its index. For a window or response which is declared symmetric the same holds if the function really is symmetric; if it isn't, only the function of the first half is used. Windowed transforms, interpolations and convolutions with client functions give what the mathematical definition gives for this function. unapply_custom_window after apply_custom_window with a window without zeros restores the vector. Deviation: convolve_real64/convolve_complex64 ignore the declared symmetry (which is harmless). A new vector with detailed performance options has the thresholds it was asked for.", "quantifier": "all functions and data pointers of the client, all vectors, ratios, factors, delays, settings and schedules", "why_tests_cant": "the claim is about every function a client may pass", "anchors": ["interop/src/lib.rs (ForeignWindowFunction, ForeignRealConvolutionFunction, ForeignComplexConvolutionFunction)", "interop/src/facade64.rs (apply_custom_window64, windowed_custom_fft64, convolve_real64, multiply_frequency_response_real64, interpolatef_custom64, map_inplace_real64, new_with_detailed_performance_options64)"], "ideal": "a symmetric declaration of an unsymmetric function has no effect on the result"}
{"id": "C73", "title": "Rounding errors of sums and dot products are bounded, on every machine", "statement": "With machine numbers whose sums have a relative error of at most u (2^-53 for f64, denormal numbers included), sum, sum_sq and dot_product of n finite numbers, computed with registers of w numbers, are the sum of the numbers (products) up to 2(n/w + 2w)u times the sum of their magnitudes; the same for the real and the imaginary parts of complex vectors with registers of w/2 complex numbers. This holds whatever the address of the vector, the settings and the schedule are, so the results on two machines with different registers or alignments differ by rounding only, and larger registers give smaller errors. The plain statistics have the bound 2(n + 1)u for the sum and the sum of squares (complex vectors: for both parts of the sum). cum_sum has the bound 2iu for element i, and cum_sum after diff_with_start gives every number back up to (2i + 3)u times the way which the numbers go up and down until there.", "quantifier": "all vectors of finite numbers without overflow, all register types, addresses, settings and schedules; n/w + 2w up to 1/u", "why_tests_cant": "the result depends on the machine and on the address the allocator gives; a test sees one of them and few lengths", "anchors": ["vector/src/vector_types/general/statistics.rs (sum, sum_sq)", "vector/src/vector_types/general/dot_products.rs", "vector/src/simd_extensions/", "vector/src/vector_types/general/diff_sum.rs"], "ideal": "the bound doesn't depend on the length (that is what the _prec methods are for, C67)"}
{"id": "C74", "title": "Rounding errors of convolutions are bounded", "statement": "With machine numbers whose sums have a relative error of at most u (2^-53 for f64), every point of convolve_signal with an impulse response of m numbers is the sum of the m products (as the machine rounds them) up to 2mu times the sum of their magnitudes, and every point of a convolution with a function of the time up to 2(2k+1)u, where k is the number of points to each side; the same for the real and the imaginary parts of complex vectors. If the code takes the way through the SIMD registers of w numbers then the factor is 2(m+2w) instead of 2m (2(m+w) for complex vectors), for every alignment of the vector, so that the two ways differ by at most 4(m+w)u times the sum of the magnitudes. Which products these are is the definition of the centred circular convolution. This holds for every schedule and number of threads.", "quantifier": "all vectors of finite numbers without overflow, all impulse responses and functions, buffers, settings and schedules; convolve_signal: all real vectors, and all complex vectors for which the code doesn't take overlap_discard (more than 5000 points, more than 101 of the impulse response, and ten times as many points as those)", "why_tests_cant": "a test sees few lengths and numbers; the bound must hold for all", "anchors": ["vector/src/vector_types/time_freq/convolution.rs", "vector/src/vector_types/time_freq/mod.rs (convolve_signal_scalar, convolve_function_priv)"]}
{"id": "C75", "title": "The windowed transform of a real signal uses the window of the signal", "statement": "`windowed_sfft` of an odd number n of real points returns the (n+1)/2 points of the non-redundant half of the spectrum of a windowed signal. For vectors which fix the number space at compile time, sample i is multiplied with point 2i of the window with 2n points instead of point i of the window with n points (the window is applied after the zeros are interleaved, to a vector which is still real), so the result is the promised one for windows for which this is the same, e.g. the rectangular window, but not for the triangular window. If the number space is tracked at runtime the window is right, but the call panics for n mod 4 = 1 and returns (n+1)/4 points of the rotated spectrum for n mod 4 = 3. `windowed_sifft` divides the real points which `sifft` gives by the window of this number of points.", "ideal": "`windowed_sfft` of an odd number n of real points returns the (n+1)/2 points of the non-redundant half of the spectrum of the signal times the window with n points; `windowed_sifft` divides the real points of `sifft` by the window.", "quantifier": "all odd lengths, all real data, all windows and buffers large enough, both kinds of meta data, all settings and schedules", "why_tests_cant": "the upstream code has no test of it: the wrong points of the window differ with every window and length, and an example with the rectangular window succeeds", "anchors": ["vector/src/vector_types/time_freq/time_to_freq.rs (windowed_sfft)", "vector/src/vector_types/time_freq/freq_to_time.rs (windowed_sifft)", "vector/src/vector_types/time_freq/time.rs (apply_window)"]}
