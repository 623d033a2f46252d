{
 "claims": [
  {
   "property": "C01",
   "status": "proved",
   "theorems": [
    "C01_failed_to_complex",
    "C01_to_complex_odd_refuted",
    "C01_history",
    "C01_call",
    "C01_fixed_buffer_refuted",
    "C01_to_complex_refuted",
    "C01_generic_sifft_refuted",
    "C01_rededicate_refuted"
   ],
   "note": "Invariant proved by induction over arbitrary histories of about 90 methods, now with the interpolations and approximations, (Spec_History.call) from every checking constructor. Four kinds of calls violate it and are refuted with witnesses: growing with a fixed length buffer, failed to_complex, sifft of generic vectors, declaring an odd real vector complex. The statement is exact: where the code deviates from the ideal (field `ideal` of properties.jsonl) the _refuted theorems say what it does instead."
  },
  {
   "property": "C02",
   "status": "proved",
   "theorems": [
    "C02_resize",
    "C02_resize_prefix",
    "C02_resize_vec",
    "C02_resize_b_vec",
    "C02_regrow_shows_old_data"
   ],
   "note": "All storage kinds, all lengths."
  },
  {
   "property": "C03",
   "status": "proved",
   "theorems": [
    "C03_complex_ctor",
    "C03_gen_slice_refuted",
    "C03_from_refuted",
    "C03_interleave",
    "C03_ctor_meta"
   ],
   "note": "Holds for every constructor except to_gen_dsp_vec on &[T] and the complex From impls, where the code violates it (refuted). The statement is exact: where the code deviates from the ideal (field `ideal` of properties.jsonl) the _refuted theorems say what it does instead."
  },
  {
   "property": "C04",
   "status": "proved",
   "theorems": [
    "C04_rededicate",
    "C04_rededicate_refuted"
   ],
   "note": "The code violates it: the vector is only emptied when number space AND domain change (refuted); the exact behaviour is proved. The statement is exact: where the code deviates from the ideal (field `ideal` of properties.jsonl) the _refuted theorems say what it does instead."
  },
  {
   "property": "C05",
   "status": "proved",
   "theorems": [
    "C05_zero_pad_real",
    "C05_zero_pad_complex",
    "C05_zero_pad_too_small",
    "C05_surround_unbalanced",
    "C05_zero_pad_b_real",
    "C05_zero_pad_b_complex",
    "C05_zero_pad_b_too_small",
    "C05_zero_pad_b_center_real",
    "C05_zero_pad_b_center_complex"
   ],
   "note": "In place variant proved for all three options (the Surround padding is unbalanced, C05_surround_unbalanced); buffered variant proved for End and Surround, and for Center with the exact content of the gap, including what the buffer held before, and the panic for a gap which is too small. The statement is exact: where the code deviates from the ideal (field `ideal` of properties.jsonl) the _refuted theorems say what it does instead."
  },
  {
   "property": "C06",
   "status": "proved",
   "theorems": [
    "C06_zero_pad_agree",
    "C06_center_agree",
    "C06_zero_interleave_agree",
    "C06_surround_refuted",
    "C06_center_refuted",
    "C06_interleave_empty_refuted"
   ],
   "note": "Agreement proved for End, Surround with an odd number of added points, Center with a buffer of zeros and a gap which is large enough, and zero_interleave of vectors which are not empty; the remaining cases are refuted, the empty vector for all inputs, the other two by a witness. The statement is exact: where the code deviates from the ideal (field `ideal` of properties.jsonl) the _refuted theorems say what it does instead."
  },
  {
   "property": "C07",
   "status": "proved",
   "theorems": [
    "C07_call",
    "C07_session",
    "C07_matrix",
    "C07_matrix_correlate",
    "C07_matrix_convolve",
    "C07_foreign",
    "C07_swapped",
    "C07_matrix_convolve_refuted",
    "C07_misaligned_refuted",
    "C07_zero_pad_no_leak",
    "C07_zero_interleave_no_leak",
    "C07_center_refuted"
   ],
   "note": "Proved for every method with a buffer, sessions with a shared buffer, matrices and foreign functions under the condition `clean` of Spec_BufferUse (misaligned complex data for the magnitudes, zero_pad_b Center and incomplete matrices of impulse responses violate it: refuted). The statement is exact: where the code deviates from the ideal (field `ideal` of properties.jsonl) the _refuted theorems say what it does instead."
  },
  {
   "property": "C08",
   "status": "proved",
   "theorems": [
    "C08_zero_interleave_real",
    "C08_zero_interleave_complex",
    "C08_zero_interleave_b_real",
    "C08_zero_interleave_b_complex",
    "C08_interleaved_meaning",
    "C08_interleaved_length",
    "C08_odd_storage_refuted"
   ],
   "note": "Proved for real and complex vectors, in place and buffered; the panic for an odd storage is proved for all complex vectors. The statement is exact: where the code deviates from the ideal (field `ideal` of properties.jsonl) the _refuted theorems say what it does instead."
  },
  {
   "property": "C09",
   "status": "proved",
   "theorems": [
    "C09_reverse_real",
    "C09_reverse_complex",
    "C09_reverse_involutive"
   ],
   "note": ""
  },
  {
   "property": "C10",
   "status": "proved",
   "theorems": [
    "C10_swap_halves_real",
    "C10_swap_halves_complex",
    "C10_ifft_shift_real",
    "C10_ifft_shift_complex",
    "C10_shift_roundtrip",
    "C10_single_point_refuted"
   ],
   "note": "Rotations and round trip proved for all numbers of points but one; for a single point ifft_shift panics (proved for all vectors). The statement is exact: where the code deviates from the ideal (field `ideal` of properties.jsonl) the _refuted theorems say what it does instead."
  },
  {
   "property": "C11",
   "status": "proved",
   "theorems": [
    "C11_split_real",
    "C11_split_complex",
    "C11_split_rejects",
    "C11_merge_real",
    "C11_spare",
    "C11_merge_complex",
    "C11_merge_rejects",
    "C11_merge_split",
    "C11_split_spare_refuted",
    "C11_merge_spare_refuted"
   ],
   "note": "Complex: proved. Real: proved for every storage, with or without spare elements: C11_spare says that spare elements either have a place in the targets (same result) or not (panic). The statement is exact: where the code deviates from the ideal (field `ideal` of properties.jsonl) the _refuted theorems say what it does instead."
  },
  {
   "property": "C12",
   "status": "proved",
   "theorems": [
    "C12_cum_sum",
    "C12_cum_sum_undoes_diff_with_start",
    "C12_diff",
    "C12_diff_with_start",
    "C12_diff_empty_refuted",
    "C12_odd_storage_refuted"
   ],
   "note": "Prefix sums, differences and the round trip proved for real and complex vectors; the panics of an empty vector and of an odd storage are proved for all such vectors. The statement is exact: where the code deviates from the ideal (field `ideal` of properties.jsonl) the _refuted theorems say what it does instead."
  },
  {
   "property": "C13",
   "status": "proved",
   "theorems": [
    "C13_add",
    "C13_sub",
    "C13_mul",
    "C13_div",
    "C13_scale_real",
    "C13_offset_real",
    "C13_offset_complex",
    "C13_scale_complex",
    "C13_mul_odd_storage_refuted"
   ],
   "note": "All four operations, all register types, settings and schedules. Restrictions under which the code panics or mixes up points: start address not aligned (C18), and mul/div of complex vectors with an odd number of stored elements (refuted). The statement is exact: where the code deviates from the ideal (field `ideal` of properties.jsonl) the _refuted theorems say what it does instead."
  },
  {
   "property": "C14",
   "status": "proved",
   "theorems": [
    "C14_add_smaller",
    "C14_sub_smaller",
    "C14_mul_smaller",
    "C14_div_smaller"
   ],
   "note": "All four operations, all lengths; an empty operand panics (part of the proved specification)."
  },
  {
   "property": "C15",
   "status": "proved",
   "theorems": [
    "C15_any_interleaving",
    "C15_in_place",
    "C15_in_place_with_range",
    "C15_source_to_destination",
    "C15_pointwise_real",
    "C15_pointwise_complex",
    "C15_reports",
    "C15_reports_zipped",
    "C15_empty_refuted",
    "C15_sym_pairs_refuted"
   ],
   "note": "Proved for execute_partial, execute_with_range, from_src_to_dest and map-style reports, all settings and interleavings; violated for empty arrays with zero thresholds and by the pairwise execution for symmetric functions (refuted). The statement is exact: where the code deviates from the ideal (field `ideal` of properties.jsonl) the _refuted theorems say what it does instead."
  },
  {
   "property": "C16",
   "status": "proved",
   "theorems": [
    "C16_partition",
    "C16_chunk_size"
   ],
   "note": ""
  },
  {
   "property": "C17",
   "status": "proved",
   "theorems": [
    "C17_exact",
    "C17_ceiling",
    "C17_bound_sharp"
   ],
   "note": "Flocq's FLT format for f64; uses the axioms of Coq's reals."
  },
  {
   "property": "C18",
   "status": "proved",
   "theorems": [
    "C18_real",
    "C18_complex",
    "C18_misaligned_refuted",
    "C18_mispaired_refuted"
   ],
   "note": "Real: exact behaviour for every address and length. Complex: proved for point aligned addresses. The code panics on, or mispairs, other addresses (refuted). The statement is exact: where the code deviates from the ideal (field `ideal` of properties.jsonl) the _refuted theorems say what it does instead."
  },
  {
   "property": "C19",
   "status": "proved",
   "theorems": [
    "C19_statistics_real",
    "C19_statistics_complex",
    "C19_empty",
    "C19_sum",
    "C19_sum_complex"
   ],
   "note": "Proved for all vectors and settings (sums added left to right, no ring laws needed for statistics(); exact arithmetic for the SIMD sums). NaN data is excluded by the hypothesis 'comparable'."
  },
  {
   "property": "C20",
   "status": "proved",
   "theorems": [
    "C20_merge",
    "C20_minimum",
    "C20_lost_minimum_refuted",
    "C20_first_position_refuted",
    "C20_merge_finished_refuted"
   ],
   "note": "Sum, count, average, rms and maximum proved for all orders of arrival; C20_minimum says which parts take part in the minimum. Witnesses show that the minimum can be lost, that positions depend on the order and that finished statistics can't be merged. The statement is exact: where the code deviates from the ideal (field `ideal` of properties.jsonl) the _refuted theorems say what it does instead."
  },
  {
   "property": "C21",
   "status": "proved",
   "theorems": [
    "C21_split_real",
    "C21_split_complex",
    "C21_split_empty_refuted"
   ],
   "note": "Proved for real and complex vectors; an empty vector gives no statistics at all (refuted). The statement is exact: where the code deviates from the ideal (field `ideal` of properties.jsonl) the _refuted theorems say what it does instead."
  },
  {
   "property": "C22",
   "status": "proved",
   "theorems": [
    "C22_map_inplace",
    "C22_map_inplace_complex",
    "C22_map_aggregate",
    "C22_map_aggregate_complex",
    "C22_map_aggregate_spare_refuted",
    "C22_odd_storage_refuted"
   ],
   "note": "map_inplace proved; map_aggregate proved over all elements of the storage (C22_map_aggregate_spare_refuted: spare elements count as well); the panic for an odd storage is proved for all complex vectors. The statement is exact: where the code deviates from the ideal (field `ideal` of properties.jsonl) the _refuted theorems say what it does instead."
  },
  {
   "property": "C23",
   "status": "proved",
   "theorems": [
    "C23_get_real_imag",
    "C23_get_mag_phase",
    "C23_get_then_set",
    "C23_get_then_set_mag_phase",
    "C23_get_then_set_mag_phase_exact",
    "C23_set_then_get",
    "C23_set_mag_phase",
    "C23_set_rejects",
    "C23_getters",
    "C23_get_magnitude",
    "C23_getters_mismatch",
    "C23_get_real_room_refuted",
    "C23_get_magnitude_spare_refuted"
   ],
   "note": "Round trips proved; get_real/imag/phase need a target with room for the elements of the source (else they panic, refuted), get_magnitude(_squared) additionally no spare storage in the source (refuted). The statement is exact: where the code deviates from the ideal (field `ideal` of properties.jsonl) the _refuted theorems say what it does instead."
  },
  {
   "property": "C24",
   "status": "proved",
   "theorems": [
    "C24_to_complex",
    "C24_to_complex_to_real",
    "C24_to_complex_to_imag",
    "C24_to_complex_b",
    "C24_transforms",
    "C24_magnitude",
    "C24_wrong_space"
   ],
   "note": "All storages that can hold the result, all typed vectors, in place and buffered; all complex-to-real transforms."
  },
  {
   "property": "C25",
   "status": "proved",
   "theorems": [
    "C25_unwrap_wrap",
    "C25_monotone",
    "C25_inside",
    "C25_refuted"
   ],
   "note": "Exact characterisation over the reals: the property holds iff every step outside of the first turn leads away from it (so for monotone data and for data inside of the range); refuted in general. The statement is exact: where the code deviates from the ideal (field `ideal` of properties.jsonl) the _refuted theorems say what it does instead."
  },
  {
   "property": "C26",
   "status": "proved",
   "theorems": [
    "C26_apply",
    "C26_apply_first_half",
    "C26_unapply",
    "C26_short_refuted",
    "C26_uneven_refuted",
    "C26_untouched_refuted"
   ],
   "note": "Proved for windows which are not declared symmetric with all settings, and for symmetric windows with one thread and at least two points or a number of points divisible by twice the threads. The code panics for symmetric windows on fewer than two points and uses wrong factors, or none, for other lengths with several threads (refuted). The statement is exact: where the code deviates from the ideal (field `ideal` of properties.jsonl) the _refuted theorems say what it does instead."
  },
  {
   "property": "C27",
   "status": "proved",
   "theorems": [
    "C27_reals",
    "C27_complex",
    "C27_reading",
    "C27_errors"
   ],
   "note": "Real vectors: all sizes, registers, schedules and buffers, in exact arithmetic. Complex vectors: all sizes except 512 < m and 10 m < n < 15 m, where the overlap-discard algorithm is wrong (C28_gap_refuted). rustfft is assumed to compute the discrete Fourier transform. The statement is exact: where the code deviates from the ideal (field `ideal` of properties.jsonl) the _refuted theorems say what it does instead."
  },
  {
   "property": "C28",
   "status": "proved",
   "theorems": [
    "C28_simd_reals",
    "C28_simd_complex",
    "C28_selection_reals",
    "C28_selection_complex",
    "C28_gap_refuted",
    "C28_function_scalar",
    "C28_function_scalar_complex",
    "C28_ratios",
    "C28_function_sampled",
    "C28_function_one",
    "C28_function_greater_refuted",
    "C28_function_real_refuted",
    "C28_function_complex_refuted"
   ],
   "note": "SIMD, scalar and overlap-discard agree wherever they are selected except for the gap (C28_gap_refuted). convolve with a function: both paths are characterised for all ratios and functions, in R with rounding as a parameter; C28_ratios says which ratios take the sampled path. The statement is exact: where the code deviates from the ideal (field `ideal` of properties.jsonl) the _refuted theorems say what it does instead."
  },
  {
   "property": "C29",
   "status": "proved",
   "theorems": [
    "C29_forward",
    "C29_backward",
    "C29_empty"
   ],
   "note": "All positions, also negative ones; no access outside of the slice."
  },
  {
   "property": "C30",
   "status": "proved",
   "theorems": [
    "C30_reals",
    "C30_complex_refuted",
    "C30_many_rows_refuted",
    "C30_errors"
   ],
   "note": "Real matrices of all sizes, exact arithmetic. Complex matrices are cut to the length of the impulse responses: refuted with the exact value which is computed. More than 64 rows panic (refuted). The statement is exact: where the code deviates from the ideal (field `ideal` of properties.jsonl) the _refuted theorems say what it does instead."
  },
  {
   "property": "C31",
   "status": "proved",
   "theorems": [
    "C31_complex",
    "C31_real",
    "C31_single_refuted",
    "C31_plain",
    "C31_windowed"
   ],
   "note": "Exact real arithmetic, with rustfft assumed to compute the DFT. Every number of points but one; ifft of a single point panics (refuted). Also for windows without zeros. The statement is exact: where the code deviates from the ideal (field `ideal` of properties.jsonl) the _refuted theorems say what it does instead."
  },
  {
   "property": "C32",
   "status": "proved",
   "theorems": [
    "C32_fft_complex",
    "C32_fft_real",
    "C32_ifft",
    "C32_ifft_runtime_refuted",
    "C32_ifft_shifted",
    "C32_ifft_real",
    "C32_sifft",
    "C32_sifft_runtime_refuted",
    "C32_wrong_fft",
    "C32_wrong_ifft",
    "C32_wrong_sfft",
    "C32_wrong_sifft"
   ],
   "note": "Forward transforms proved for all vectors. Inverse ones only for types which fix the domain at compile time: vectors which keep it at run time stay in the frequency domain after ifft, and stay complex after sifft (refuted). The statement is exact: where the code deviates from the ideal (field `ideal` of properties.jsonl) the _refuted theorems say what it does instead."
  },
  {
   "property": "C33",
   "status": "proved",
   "theorems": [
    "C33_half_spectrum",
    "C33_mirror",
    "C33_even_rejected",
    "C33_runtime_refuted"
   ],
   "note": "Exact real arithmetic. Types which fix the number space at compile time; for runtime vectors half of the lengths panic and the others lose half of the half spectrum (refuted). The statement is exact: where the code deviates from the ideal (field `ideal` of properties.jsonl) the _refuted theorems say what it does instead."
  },
  {
   "property": "C34",
   "status": "proved",
   "theorems": [
    "C34_mirror",
    "C34_unique",
    "C34_empty_refuted"
   ],
   "note": "All non-empty vectors and buffers; the empty vector panics (refuted). The spec determines the result (C34_unique). The statement is exact: where the code deviates from the ideal (field `ideal` of properties.jsonl) the _refuted theorems say what it does instead."
  },
  {
   "property": "C35",
   "status": "proved",
   "theorems": [
    "C35_spectra_product",
    "C35_correlate_padded",
    "C35_same_length_refuted",
    "C35_single_refuted",
    "C35_wrong_space"
   ],
   "note": "Exact real arithmetic. Product of spectra = circular convolution; correlate after prepare_argument_padded = cross correlation over all lags, at least two points. correlate after prepare_argument (same length) always fails (refuted). The statement is exact: where the code deviates from the ideal (field `ideal` of properties.jsonl) the _refuted theorems say what it does instead."
  },
  {
   "property": "C36",
   "status": "proved",
   "theorems": [
    "C36_decimatei_real",
    "C36_decimatei_complex",
    "C36_length",
    "C36_inverse_real",
    "C36_inverse_complex",
    "C36_compose",
    "C36_factor_zero_refuted"
   ],
   "note": "All vectors, positive factors and delays, also delays behind the end; inverse of zero_interleave for both number spaces. The factor 0 panics (refuted: no error is returned). The statement is exact: where the code deviates from the ideal (field `ideal` of properties.jsonl) the _refuted theorems say what it does instead."
  },
  {
   "property": "C37",
   "status": "proved",
   "theorems": [
    "C37_linear",
    "C37_linear_any",
    "C37_linear_delay_refuted",
    "C37_hermite",
    "C37_hermite_points",
    "C37_hermite_short_refuted",
    "C37_hermite_assertion_refuted",
    "C37_complex"
   ],
   "note": "interpolate_lin: every length, integer factor and buffer, and every other factor and delay whose points lie between samples. Delays which leave the vector panic (refuted). interpolate_hermite: integer factors and at least three samples; shorter vectors panic, and some other factors fail an assertion (refuted with witnesses). Real arithmetic. The statement is exact: where the code deviates from the ideal (field `ideal` of properties.jsonl) the _refuted theorems say what it does instead."
  },
  {
   "property": "C38",
   "status": "proved",
   "theorems": [
    "C38_points",
    "C38_points_complex",
    "C38_between",
    "C38_between_complex",
    "C38_symmetric",
    "C38_symmetric_complex",
    "C38_right",
    "C38_left_refuted"
   ],
   "note": "All tables, functions and arguments, real and complex, over the reals. The code takes arguments within 1e-6 of a point for the point. Zero outside holds on the right side only (from half a step behind the last point on); left of the table the first value is returned (refuted), so that tables are not symmetric outside. The statement is exact: where the code deviates from the ideal (field `ideal` of properties.jsonl) the _refuted theorems say what it does instead."
  },
  {
   "property": "C39",
   "status": "proved",
   "theorems": [
    "C39_in_place",
    "C39_sums_are_diff",
    "C39_cum_sum_refuted",
    "C39_diff_with_start_refuted",
    "C39_matrix_argument",
    "C39_vector_argument",
    "C39_resize",
    "C39_unchanged_vector",
    "C39_unchanged_matrix",
    "C39_unchanged_refuted",
    "C39_missing_rows_refuted",
    "C39_conversions",
    "C39_construction",
    "C39_buffered",
    "C39_fallible",
    "C39_buffered_in_place",
    "C39_resampling",
    "C39_convolve_vector",
    "C39_correlate",
    "C39_fft_ifft",
    "C39_getters",
    "C39_getters_are_imag",
    "C39_getters_refuted",
    "C39_getters2",
    "C39_setters2",
    "C39_sums",
    "C39_statistics",
    "C39_statistics_split",
    "C39_dot_matrix",
    "C39_dot_vector",
    "C39_map_aggregate",
    "C39_sum_refuted",
    "C39_sum_missing"
   ],
   "note": "All matrix methods which are modelled (Model_MatOps.v lists them), all kinds of matrices, row counts, settings and schedules. The code violates the property for cum_sum and diff_with_start (both compute diff), get_magnitude, get_magnitude_squared and get_phase (all give the imaginary parts), and sum/sum_sq of 3 and 4 rows (attached to Matrix2xN, always panic): refuted. A failing operation leaves the matrix unchanged if the rows are alike; otherwise the rows in front of the failing one stay changed (refuted). Rows without a counterpart are silently skipped (refuted). The statement is exact: where the code deviates from the ideal (field `ideal` of properties.jsonl) the _refuted theorems say what it does instead."
  },
  {
   "property": "C40",
   "status": "proved",
   "theorems": [
    "C40_vector",
    "C40_zero_is_success",
    "C40_codes_distinct",
    "C40_codes_unique",
    "C40_documented_refuted",
    "C40_atan",
    "C40_atan_refuted",
    "C40_dot_products",
    "C40_complex_dot_products",
    "C40_void",
    "C40_void_refuted",
    "C40_new",
    "C40_new_refuted",
    "C40_overwrite",
    "C40_overwrite_refuted"
   ],
   "note": "Proved for every enumerated operation and for the scalar results: what the library computes is what arrives, and the error code tells which error it was. The code violates the rest (refuted): atan64 computes the tangent; the functions without a result return 9 on success, which is also the code of InputMustHaveAnOddLength; codes 13/14 are undocumented; new64 with complex data of odd length gives an empty vector that is not marked erroneous; overwrite_data64 refuses data of exactly the length of the vector. The statement is exact: where the code deviates from the ideal (field `ideal` of properties.jsonl) the _refuted theorems say what it does instead."
  },
  {
   "property": "C41",
   "status": "proved",
   "theorems": [
    "C41_statistics_prec",
    "C41_sum_prec",
    "C41_sum_prec_complex",
    "C41_dot_prec"
   ],
   "note": "Proved for sums, statistics, split statistics and dot products over any commutative ring."
  },
  {
   "property": "C42",
   "status": "proved",
   "theorems": [
    "C42_windows",
    "C42_functions",
    "C42_apply_builtin"
   ],
   "note": "Exact real arithmetic; for floating point numbers the two halves may differ in the last bits, see C26_apply_first_half."
  },
  {
   "property": "C43",
   "status": "proved",
   "theorems": [
    "C43_call",
    "C43_erroneous",
    "C43_fallible",
    "C43_inplace",
    "C43_conversion",
    "C43_buffered",
    "C43_window_refuted",
    "C43_shift_refuted",
    "C43_mirror_refuted",
    "C43_set_refuted",
    "C43_ifft_refuted",
    "C43_to_complex",
    "C43_convolve_signal",
    "C43_getter"
   ],
   "note": "Proved for every method of the model: a vector without the required number space or domain ends without elements and with a NaN delta. The methods which don't check (fft_shift, ifft_shift, windows, setters, mirror with one of both wrong) or convert instead (ifft family of real vectors) are refuted with witnesses; to_complex, convolve_signal and the getters only return an error or an empty target. The statement is exact: where the code deviates from the ideal (field `ideal` of properties.jsonl) the _refuted theorems say what it does instead."
  },
  {
   "property": "C44",
   "status": "proved",
   "theorems": [
    "C44_real_roundtrip",
    "C44_complex_roundtrip",
    "C44_complex_spare_capacity_refuted",
    "C44_complex_empty_refuted",
    "C44_slice_roundtrip"
   ],
   "note": "Real and slice round trips proved; complex Vec with spare capacity gets additional points, an empty one panics (refuted). The statement is exact: where the code deviates from the ideal (field `ideal` of properties.jsonl) the _refuted theorems say what it does instead."
  },
  {
   "property": "C45",
   "status": "proved",
   "theorems": [
    "C45_dot_product",
    "C45_rejects",
    "C45_longer_refuted",
    "C45_shorter_refuted",
    "C45_complex_factor_refuted"
   ],
   "note": "Value and metadata checks proved; what happens with a longer, a shorter or a complex factor is proved for all such factors. The statement is exact: where the code deviates from the ideal (field `ideal` of properties.jsonl) the _refuted theorems say what it does instead."
  },
  {
   "property": "C46",
   "status": "proved",
   "theorems": [
    "C46_real_response",
    "C46_complex_response",
    "C46_wrong_domain",
    "C46_enough_pieces",
    "C46_untouched_refuted",
    "C46_short_refuted"
   ],
   "note": "Exact real arithmetic. Proved for every setting for responses which are not symmetric, and for symmetric ones whenever the slice can be cut into twice as many pieces as threads; otherwise points are left out, and one point panics (refuted). The statement is exact: where the code deviates from the ideal (field `ideal` of properties.jsonl) the _refuted theorems say what it does instead."
  },
  {
   "property": "C47",
   "status": "proved",
   "theorems": [
    "C47_unary",
    "C47_sqrt",
    "C47_square",
    "C47_abs",
    "C47_named",
    "C47_powf",
    "C47_root",
    "C47_log",
    "C47_expf"
   ],
   "note": "All functions of trigonometry_and_powers.rs and the abs of real vectors; for the approximated functions see C61."
  },
  {
   "property": "C48",
   "status": "proved",
   "theorems": [
    "C48_conj",
    "C48_exponential",
    "C48_exponential_exact"
   ],
   "note": "Exact arithmetic for the exponential (instance: the real numbers)."
  },
  {
   "property": "C49",
   "status": "proved",
   "theorems": [
    "C49_plain",
    "C49_sifft",
    "C49_sifft_single_refuted",
    "C49_sifft_refuted"
   ],
   "note": "The round trip of the plain transforms is proved; what sifft computes instead is proved for all inputs (C49_sifft, C49_sifft_single_refuted) and an impulse shows that it isn't the input. The statement is exact: where the code deviates from the ideal (field `ideal` of properties.jsonl) the _refuted theorems say what it does instead."
  },
  {
   "property": "C50",
   "status": "proved",
   "theorems": [
    "C50_to_complex",
    "C50_to_real",
    "C50_number_spaces",
    "C50_fft",
    "C50_magnitude_spectrum",
    "C50_fft_ifft_refuted",
    "C50_scratch_refuted"
   ],
   "note": "Number spaces: complete. Domains: the values are restored, but the resolution is multiplied with the square of the number of points (refuted), and a transform which needs more scratch space than the table is long panics (refuted). The statement is exact: where the code deviates from the ideal (field `ideal` of properties.jsonl) the _refuted theorems say what it does instead."
  },
  {
   "property": "C51",
   "status": "proved",
   "theorems": [
    "C51_complex",
    "C51_reals"
   ],
   "note": ""
  },
  {
   "property": "C52",
   "status": "proved",
   "theorems": [
    "C52_complex",
    "C52_reals",
    "C52_band_limited",
    "C52_kept_complex",
    "C52_kept_reals"
   ],
   "note": ""
  },
  {
   "property": "C53",
   "status": "proved",
   "theorems": [
    "C53_complex",
    "C53_reals",
    "C53_gain",
    "C53_centered_complex",
    "C53_centered_reals",
    "C53_asymmetric",
    "C53_odd_refuted"
   ],
   "note": "Proved in full for an even number of points or without a delay, and for responses which end up at the right bins (symmetric with an even m, or asymmetric with an odd m); for the others the theorem says which gain is used instead. Refuted: with an odd number of points a delay is applied with the wrong sign of the frequency to bin (n-1)/2, so a constant single point is negated. The statement is exact: where the code deviates from the ideal (field `ideal` of properties.jsonl) the _refuted theorems say what it does instead."
  },
  {
   "property": "C54",
   "status": "proved",
   "theorems": [
    "C54_complex",
    "C54_reals",
    "C54_reals_refuted"
   ],
   "note": "Proved for complex vectors and for real vectors with an odd number of points; C54_reals_refuted says for all real vectors with an even number of points what is lost. The statement is exact: where the code deviates from the ideal (field `ideal` of properties.jsonl) the _refuted theorems say what it does instead."
  },
  {
   "property": "C55",
   "status": "proved",
   "theorems": [
    "C55_complex",
    "C55_reals",
    "C55_gain",
    "C55_no_images",
    "C55_ideal",
    "C55_asymmetric",
    "C55_no_factor",
    "C55_odd_refuted",
    "C55_even_refuted"
   ],
   "note": "Proved for every response with the gain that the code in fact applies (placed_gain), and with the right gain for the parities where both agree. Refuted: a symmetric response is applied one bin too early to the negative frequencies if the number of points afterwards is odd, an asymmetric one a bin too late if it is even. The statement is exact: where the code deviates from the ideal (field `ideal` of properties.jsonl) the _refuted theorems say what it does instead."
  },
  {
   "property": "C56",
   "status": "proved",
   "theorems": [
    "C56_reals",
    "C56_complex",
    "C56_kept_reals",
    "C56_kept_complex"
   ],
   "note": ""
  },
  {
   "property": "C57",
   "status": "proved",
   "theorems": [
    "C57_simd_reals",
    "C57_simd_complex",
    "C57_same",
    "C57_same_reals",
    "C57_same_complex",
    "C57_delay_refuted",
    "C57_short_refuted"
   ],
   "note": "The exact result of the SIMD algorithm is proved; it equals the scalar one without a delay for an even function which ends before conv_len. Refuted: with a delay the middle part is delayed in the opposite direction; if the vector is too short for the two ends the code panics. The statement is exact: where the code deviates from the ideal (field `ideal` of properties.jsonl) the _refuted theorems say what it does instead."
  },
  {
   "property": "C58",
   "status": "proved",
   "theorems": [
    "C58_values",
    "C58_range",
    "C58_ends",
    "C58_center",
    "C58_hamming",
    "C58_unapply"
   ],
   "note": ""
  },
  {
   "property": "C59",
   "status": "proved",
   "theorems": [
    "C59_values",
    "C59_continuous",
    "C59_cardinal",
    "C59_interpolatef",
    "C59_spectra"
   ],
   "note": ""
  },
  {
   "property": "C60",
   "status": "proved",
   "theorems": [
    "C60_in_place",
    "C60_in_place_with_range",
    "C60_source_to_destination",
    "C60_one_core"
   ],
   "note": "Work which is local (splittable): all settings and schedules. Arbitrary work: equal to one core."
  },
  {
   "property": "C61",
   "status": "proved",
   "theorems": [
    "C61_values",
    "C61_as_exact",
    "C61_powf",
    "C61_log_of_expf"
   ],
   "note": "Registers of the default build (simd_extensions/fallback.rs). The polynomial approximations of the SSE2/AVX builds are not modelled."
  },
  {
   "property": "C62",
   "status": "proved",
   "theorems": [
    "C62_arithmetic",
    "C62_sums",
    "C62_norms",
    "C62_norms_refuted",
    "C62_selection",
    "C62_vectors",
    "C62_magnitude",
    "C62_magnitude_refuted"
   ],
   "note": "Six register types lane by lane; the intrinsics are modelled after Intel's description (trusted). Refuted: f64x4 of avx.rs stores the norm of the first number twice (hadd_pd adds within blocks of two lanes, store_half stores lanes 0 and 1); the exact content of the result is proved for every vector and address. avx512.rs does not compile and is not modelled."
  },
  {
   "property": "C63",
   "status": "proved",
   "theorems": [
    "C63_data_at",
    "C63_data_range",
    "C63_data_mut_at",
    "C63_data_mut_range",
    "C63_changed_unique",
    "C63_datac_at",
    "C63_datac_range",
    "C63_datac_mut_at",
    "C63_datac_mut_range",
    "C63_operator",
    "C63_datac_of_real_refuted"
   ],
   "note": "All indexers. C63_datac_of_real_refuted says for all real vectors what datac(..) gives instead of the documented empty slice. The statement is exact: where the code deviates from the ideal (field `ideal` of properties.jsonl) the _refuted theorems say what it does instead."
  },
  {
   "property": "C64",
   "status": "proved",
   "theorems": [
    "C64_ln",
    "C64_ln_fine",
    "C64_log",
    "C64_ln_refuted",
    "C64_position_refuted",
    "C64_ln_of_negative",
    "C64_exp",
    "C64_expf",
    "C64_exp_refuted",
    "C64_powf",
    "C64_sin",
    "C64_cos",
    "C64_complex"
   ],
   "note": "Over the real numbers with the literals of the program; the rounding of f32 and f64 and casts beyond 32 (64) bits are not modelled. The bounds of the polynomials are proved by interval arithmetic with rational numbers, evaluated in the kernel, and the mean value theorem. The statement is exact: where the code deviates from the ideal (field `ideal` of properties.jsonl) the _refuted theorems say what it does instead."
  },
  {
   "property": "C65",
   "status": "proved",
   "theorems": [
    "C65_reals",
    "C65_complex",
    "C65_binary",
    "C65_conversions",
    "C65_conversions_b",
    "C65_transforms",
    "C65_getters",
    "C65_getters2",
    "C65_setters2",
    "C65_sums",
    "C65_dot_products",
    "C65_statistics",
    "C65_matrix_reals",
    "C65_matrix_complex",
    "C65_matrix_binary_reals",
    "C65_matrix_binary_complex",
    "C65_matrix_conversions",
    "C65_matrix_getters",
    "C65_matrix_sums",
    "C65_matrix_dot_products",
    "C65_foreign_reals",
    "C65_foreign_complex",
    "C65_foreign_binary",
    "C65_matrix_transforms",
    "C65_foreign_transforms",
    "C65_matrix_conversions_b",
    "C65_foreign_conversions_b"
   ],
   "note": "The table is Spec_Named.v. Over the real numbers; the functions of the standard library are arbitrary (class Math). The conditions (row_ready, callable, transformable) are those of the vector properties. The exceptions are part of the table (used_by_matrix, getter_of_matrix, used_by_foreign) and are refuted as defects in C39 and C40. Not in the table: the methods which resample or convolve with a buffer, sfft and sifft (their values: C33, C37, C49, C51-C57, C75; that matrices call them: C39)."
  },
  {
   "property": "C66",
   "status": "proved",
   "theorems": [
    "C66_break_even",
    "C66_calibration",
    "C66_large_first",
    "C66_no_panic",
    "C66_new",
    "C66_default",
    "C66_parallel",
    "C66_explicit",
    "C66_par_real",
    "C66_par_complex",
    "C66_three_cores_refuted",
    "C66_no_cores_refuted"
   ],
   "note": "The clock is an arbitrary function of the number of threads and the length; the external linear regression is an arbitrary partial function; doubling a threshold is an arbitrary function because it may overflow. lazy_static is taken as a value computed once. The texts of print_calibration are not modelled. Where the code deviates from the ideal (field `ideal`) the _refuted theorems say what it does instead."
  },
  {
   "property": "C67",
   "status": "proved",
   "theorems": [
    "C67_sum",
    "C67_sum_complex",
    "C67_statistics",
    "C67_statistics_complex",
    "C67_dot",
    "C67_dot_complex",
    "C67_f64",
    "C67_plain",
    "C67_f32",
    "C67_f32_complex",
    "C67_split_refuted"
   ],
   "note": "Kahan's bound with explicit constants, for an abstract arithmetic (Spec_Prec.rounds) and for f64 as Flocq's FLT format rounded to nearest even (theorem C67_f64). Overflow, infinities and NaN are excluded by the hypothesis that all sums are finite. The squares of sum_sq_prec are taken as the rounded squares. The dot products are relative to the rounded products of the points. C67_split_refuted states what the code does for split statistics instead of the ideal."
  },
  {
   "property": "C68",
   "status": "proved",
   "theorems": [
    "C68_like_a_list",
    "C68_panics",
    "C68_of_size",
    "C68_small",
    "C68_collect_refuted",
    "C68_resize_refuted",
    "C68_capacity"
   ],
   "note": "ArrayVec and Vec are modelled by their documented behaviour (trusted). Spec_Inline.list_call is the plain list. The deviations are the _refuted theorems; the first one makes the matrix convolution of C30 panic."
  },
  {
   "property": "C69",
   "status": "proved",
   "theorems": [
    "C69_new_detailed",
    "C69_reads_reals",
    "C69_reads_complex",
    "C69_domain",
    "C69_set_value",
    "C69_set_len",
    "C69_set_len_refuted",
    "C69_new_settings",
    "C69_sums",
    "C69_complex_sums",
    "C69_statistics",
    "C69_split",
    "C69_complex_split",
    "C69_aggregate",
    "C69_aggregate_errors",
    "C69_wrong_space_refuted"
   ],
   "note": "The settings are given back beside the vector, as they are an argument of the operations in the model. The sums are over an exact ring (with rounding: C67). The two deviations are _refuted theorems."
  },
  {
   "property": "C70",
   "status": "proved",
   "theorems": [
    "C70_no_dangling",
    "C70_no_leaks",
    "C70_returned",
    "C70_others",
    "C70_call",
    "C70_dangling",
    "C70_clone_refuted",
    "C70_getter_refuted"
   ],
   "note": "Addresses are natural numbers, chosen arbitrarily where nothing lives; Box, & and &mut are modelled by what Rust guarantees (trusted). The functions with a vector argument by value are collected by signature in Model_Foreign.uses, and independently in Spec_Foreign. Not modelled: sub64 declares its operand as &VecBox (a pointer to a pointer) while add64, mul64 and div64 take &VecBuf, so sub64 needs the address of a variable which holds the handle. A panic ends the life."
  },
  {
   "property": "C71",
   "status": "proved",
   "theorems": [
    "C71_inplace",
    "C71_conversion",
    "C71_buffered",
    "C71_fallible",
    "C71_inplace_b",
    "C71_resampling",
    "C71_binary",
    "C71_convolve_signal",
    "C71_fft_ifft",
    "C71_delta_refuted",
    "C71_sfft_refuted",
    "C71_rows_inplace",
    "C71_rows_diff",
    "C71_rows_conversion",
    "C71_rows_buffered",
    "C71_rows_fallible",
    "C71_rows_inplace_b",
    "C71_rows_resampling",
    "C71_rows_binary",
    "C71_rows_binary_vec",
    "C71_rows_convolve",
    "C71_rows_set_delta",
    "C71_rows_resize",
    "C71_metadata",
    "C71_metadata_empty",
    "C71_get",
    "C71_get_refuted",
    "C71_uniform"
   ],
   "note": "The table of Spec_Shape.v follows the documented behaviour; where static and generic vectors differ in the code (sfft, ifft) the table says so and the deviation is a _refuted theorem. Reorganising methods (zero padding, splitting, ...) have their own statements about lengths in C05-C11."
  },
  {
   "property": "C72",
   "status": "proved",
   "theorems": [
    "C72_apply_window",
    "C72_symmetric_refuted",
    "C72_unapply_window",
    "C72_map",
    "C72_map_wrong_space",
    "C72_multiply_real",
    "C72_multiply_complex",
    "C72_convolve",
    "C72_convolve_symmetry",
    "C72_interpolatef",
    "C72_interpolate",
    "C72_transforms"
   ],
   "note": "A client function which changes what its data pointer leads to is not modelled. C72_symmetric_refuted: a window declared symmetric without being so is only asked for the first half."
  },
  {
   "property": "C73",
   "status": "proved",
   "theorems": [
    "C73_sum",
    "C73_sum_complex",
    "C73_dot",
    "C73_dot_complex",
    "C73_statistics",
    "C73_anywhere",
    "C73_f64",
    "C73_cum_sum",
    "C73_cum_sum_complex",
    "C73_diff_cum_sum",
    "C73_alignment_matters",
    "C73_statistics_complex",
    "C73_statistics_f64"
   ],
   "note": "Overflow is not modelled; the error is relative to the products as they are rounded."
  },
  {
   "property": "C74",
   "status": "proved",
   "theorems": [
    "C74_convolve_signal",
    "C74_convolve_function",
    "C74_convolve_function_complex",
    "C74_convolve_signal_complex",
    "C74_f64",
    "C74_registers",
    "C74_convolve_signal_any",
    "C74_registers_scalar",
    "C74_f64_any",
    "C74_registers_complex",
    "C74_convolve_signal_complex_any",
    "C74_f64_complex_any"
   ],
   "note": "overlap_discard (Fourier transforms) has no rounding bound here; the branch with registers needs that a product with zero is zero, which f64 has for finite numbers; overflow is not modelled; the error is relative to the products as they are rounded."
  },
  {
   "property": "C75",
   "status": "proved",
   "theorems": [
    "C75_windowed_sfft",
    "C75_windowed_sfft_agrees",
    "C75_windowed_sfft_refuted",
    "C75_windowed_sfft_runtime_refuted",
    "C75_windowed_sifft"
   ],
   "note": "Exact real arithmetic. C75_windowed_sfft says what is computed for types which fix the number space at compile time, C75_windowed_sfft_agrees when this is the promise, C75_windowed_sfft_refuted and C75_windowed_sfft_runtime_refuted what is wrong. The statement is exact: where the code deviates from the ideal (field `ideal` of properties.jsonl) the _refuted theorems say what it does instead."
  }
 ]
}