{
 "C01": {
  "note": "Invariant proved by induction over arbitrary histories of about 90 methods, now with the interpolations and approximations, (Spec_History.call) from every checking constructor. Four kinds of calls violate it and are refuted with witnesses: growing with a fixed length buffer, failed to_complex, sifft of generic vectors, declaring an odd real vector complex. The statement is exact: where the code deviates from the ideal (field `ideal` of properties.jsonl) the _refuted theorems say what it does instead.",
  "status": "proved"
 },
 "C02": {
  "note": "All storage kinds, all lengths."
 },
 "C03": {
  "note": "Holds for every constructor except to_gen_dsp_vec on &[T] and the complex From impls, where the code violates it (refuted). The statement is exact: where the code deviates from the ideal (field `ideal` of properties.jsonl) the _refuted theorems say what it does instead.",
  "status": "proved"
 },
 "C04": {
  "note": "The code violates it: the vector is only emptied when number space AND domain change (refuted); the exact behaviour is proved. The statement is exact: where the code deviates from the ideal (field `ideal` of properties.jsonl) the _refuted theorems say what it does instead.",
  "status": "proved"
 },
 "C05": {
  "note": "In place variant proved for all three options (the Surround padding is unbalanced, C05_surround_unbalanced); buffered variant proved for End and Surround, and for Center with the exact content of the gap, including what the buffer held before, and the panic for a gap which is too small. The statement is exact: where the code deviates from the ideal (field `ideal` of properties.jsonl) the _refuted theorems say what it does instead.",
  "status": "proved"
 },
 "C06": {
  "note": "Agreement proved for End, Surround with an odd number of added points, Center with a buffer of zeros and a gap which is large enough, and zero_interleave of vectors which are not empty; the remaining cases are refuted, the empty vector for all inputs, the other two by a witness. The statement is exact: where the code deviates from the ideal (field `ideal` of properties.jsonl) the _refuted theorems say what it does instead.",
  "status": "proved"
 },
 "C07": {
  "note": "Proved for every method with a buffer, sessions with a shared buffer, matrices and foreign functions under the condition `clean` of Spec_BufferUse (misaligned complex data for the magnitudes, zero_pad_b Center and incomplete matrices of impulse responses violate it: refuted). The statement is exact: where the code deviates from the ideal (field `ideal` of properties.jsonl) the _refuted theorems say what it does instead.",
  "status": "proved"
 },
 "C08": {
  "note": "Proved for real and complex vectors, in place and buffered; the panic for an odd storage is proved for all complex vectors. The statement is exact: where the code deviates from the ideal (field `ideal` of properties.jsonl) the _refuted theorems say what it does instead.",
  "status": "proved"
 },
 "C10": {
  "note": "Rotations and round trip proved for all numbers of points but one; for a single point ifft_shift panics (proved for all vectors). The statement is exact: where the code deviates from the ideal (field `ideal` of properties.jsonl) the _refuted theorems say what it does instead.",
  "status": "proved"
 },
 "C11": {
  "note": "Complex: proved. Real: proved for every storage, with or without spare elements: C11_spare says that spare elements either have a place in the targets (same result) or not (panic). The statement is exact: where the code deviates from the ideal (field `ideal` of properties.jsonl) the _refuted theorems say what it does instead.",
  "status": "proved"
 },
 "C12": {
  "note": "Prefix sums, differences and the round trip proved for real and complex vectors; the panics of an empty vector and of an odd storage are proved for all such vectors. The statement is exact: where the code deviates from the ideal (field `ideal` of properties.jsonl) the _refuted theorems say what it does instead.",
  "status": "proved"
 },
 "C13": {
  "note": "All four operations, all register types, settings and schedules. Restrictions under which the code panics or mixes up points: start address not aligned (C18), and mul/div of complex vectors with an odd number of stored elements (refuted). The statement is exact: where the code deviates from the ideal (field `ideal` of properties.jsonl) the _refuted theorems say what it does instead.",
  "status": "proved"
 },
 "C14": {
  "note": "All four operations, all lengths; an empty operand panics (part of the proved specification)."
 },
 "C15": {
  "note": "Proved for execute_partial, execute_with_range, from_src_to_dest and map-style reports, all settings and interleavings; violated for empty arrays with zero thresholds and by the pairwise execution for symmetric functions (refuted). The statement is exact: where the code deviates from the ideal (field `ideal` of properties.jsonl) the _refuted theorems say what it does instead.",
  "status": "proved"
 },
 "C17": {
  "note": "Flocq's FLT format for f64; uses the axioms of Coq's reals."
 },
 "C18": {
  "note": "Real: exact behaviour for every address and length. Complex: proved for point aligned addresses. The code panics on, or mispairs, other addresses (refuted). The statement is exact: where the code deviates from the ideal (field `ideal` of properties.jsonl) the _refuted theorems say what it does instead.",
  "status": "proved"
 },
 "C19": {
  "note": "Proved for all vectors and settings (sums added left to right, no ring laws needed for statistics(); exact arithmetic for the SIMD sums). NaN data is excluded by the hypothesis 'comparable'."
 },
 "C20": {
  "note": "Sum, count, average, rms and maximum proved for all orders of arrival; C20_minimum says which parts take part in the minimum. Witnesses show that the minimum can be lost, that positions depend on the order and that finished statistics can't be merged. The statement is exact: where the code deviates from the ideal (field `ideal` of properties.jsonl) the _refuted theorems say what it does instead.",
  "status": "proved"
 },
 "C21": {
  "note": "Proved for real and complex vectors; an empty vector gives no statistics at all (refuted). The statement is exact: where the code deviates from the ideal (field `ideal` of properties.jsonl) the _refuted theorems say what it does instead.",
  "status": "proved"
 },
 "C22": {
  "note": "map_inplace proved; map_aggregate proved over all elements of the storage (C22_map_aggregate_spare_refuted: spare elements count as well); the panic for an odd storage is proved for all complex vectors. The statement is exact: where the code deviates from the ideal (field `ideal` of properties.jsonl) the _refuted theorems say what it does instead.",
  "status": "proved"
 },
 "C23": {
  "note": "Round trips proved; get_real/imag/phase need a target with room for the elements of the source (else they panic, refuted), get_magnitude(_squared) additionally no spare storage in the source (refuted). The statement is exact: where the code deviates from the ideal (field `ideal` of properties.jsonl) the _refuted theorems say what it does instead.",
  "status": "proved"
 },
 "C24": {
  "note": "All storages that can hold the result, all typed vectors, in place and buffered; all complex-to-real transforms."
 },
 "C25": {
  "note": "Exact characterisation over the reals: the property holds iff every step outside of the first turn leads away from it (so for monotone data and for data inside of the range); refuted in general. The statement is exact: where the code deviates from the ideal (field `ideal` of properties.jsonl) the _refuted theorems say what it does instead.",
  "status": "proved"
 },
 "C26": {
  "note": "Proved for windows which are not declared symmetric with all settings, and for symmetric windows with one thread and at least two points or a number of points divisible by twice the threads. The code panics for symmetric windows on fewer than two points and uses wrong factors, or none, for other lengths with several threads (refuted). The statement is exact: where the code deviates from the ideal (field `ideal` of properties.jsonl) the _refuted theorems say what it does instead.",
  "status": "proved"
 },
 "C27": {
  "note": "Real vectors: all sizes, registers, schedules and buffers, in exact arithmetic. Complex vectors: all sizes except 512 < m and 10 m < n < 15 m, where the overlap-discard algorithm is wrong (C28_gap_refuted). rustfft is assumed to compute the discrete Fourier transform. The statement is exact: where the code deviates from the ideal (field `ideal` of properties.jsonl) the _refuted theorems say what it does instead.",
  "status": "proved"
 },
 "C28": {
  "note": "SIMD, scalar and overlap-discard agree wherever they are selected except for the gap (C28_gap_refuted). convolve with a function: both paths are characterised for all ratios and functions, in R with rounding as a parameter; C28_ratios says which ratios take the sampled path. The statement is exact: where the code deviates from the ideal (field `ideal` of properties.jsonl) the _refuted theorems say what it does instead.",
  "status": "proved"
 },
 "C29": {
  "note": "All positions, also negative ones; no access outside of the slice."
 },
 "C30": {
  "note": "Real matrices of all sizes, exact arithmetic. Complex matrices are cut to the length of the impulse responses: refuted with the exact value which is computed. More than 64 rows panic (refuted). The statement is exact: where the code deviates from the ideal (field `ideal` of properties.jsonl) the _refuted theorems say what it does instead.",
  "status": "proved"
 },
 "C31": {
  "note": "Exact real arithmetic, with rustfft assumed to compute the DFT. Every number of points but one; ifft of a single point panics (refuted). Also for windows without zeros. The statement is exact: where the code deviates from the ideal (field `ideal` of properties.jsonl) the _refuted theorems say what it does instead.",
  "status": "proved"
 },
 "C32": {
  "note": "Forward transforms proved for all vectors. Inverse ones only for types which fix the domain at compile time: vectors which keep it at run time stay in the frequency domain after ifft, and stay complex after sifft (refuted). The statement is exact: where the code deviates from the ideal (field `ideal` of properties.jsonl) the _refuted theorems say what it does instead.",
  "status": "proved"
 },
 "C33": {
  "note": "Exact real arithmetic. Types which fix the number space at compile time; for runtime vectors half of the lengths panic and the others lose half of the half spectrum (refuted). The statement is exact: where the code deviates from the ideal (field `ideal` of properties.jsonl) the _refuted theorems say what it does instead.",
  "status": "proved"
 },
 "C34": {
  "note": "All non-empty vectors and buffers; the empty vector panics (refuted). The spec determines the result (C34_unique). The statement is exact: where the code deviates from the ideal (field `ideal` of properties.jsonl) the _refuted theorems say what it does instead.",
  "status": "proved"
 },
 "C35": {
  "note": "Exact real arithmetic. Product of spectra = circular convolution; correlate after prepare_argument_padded = cross correlation over all lags, at least two points. correlate after prepare_argument (same length) always fails (refuted). The statement is exact: where the code deviates from the ideal (field `ideal` of properties.jsonl) the _refuted theorems say what it does instead.",
  "status": "proved"
 },
 "C36": {
  "note": "All vectors, positive factors and delays, also delays behind the end; inverse of zero_interleave for both number spaces. The factor 0 panics (refuted: no error is returned). The statement is exact: where the code deviates from the ideal (field `ideal` of properties.jsonl) the _refuted theorems say what it does instead.",
  "status": "proved"
 },
 "C37": {
  "note": "interpolate_lin: every length, integer factor and buffer, and every other factor and delay whose points lie between samples. Delays which leave the vector panic (refuted). interpolate_hermite: integer factors and at least three samples; shorter vectors panic, and some other factors fail an assertion (refuted with witnesses). Real arithmetic. The statement is exact: where the code deviates from the ideal (field `ideal` of properties.jsonl) the _refuted theorems say what it does instead.",
  "status": "proved"
 },
 "C38": {
  "note": "All tables, functions and arguments, real and complex, over the reals. The code takes arguments within 1e-6 of a point for the point. Zero outside holds on the right side only (from half a step behind the last point on); left of the table the first value is returned (refuted), so that tables are not symmetric outside. The statement is exact: where the code deviates from the ideal (field `ideal` of properties.jsonl) the _refuted theorems say what it does instead.",
  "status": "proved"
 },
 "C39": {
  "note": "All matrix methods which are modelled (Model_MatOps.v lists them), all kinds of matrices, row counts, settings and schedules. The code violates the property for cum_sum and diff_with_start (both compute diff), get_magnitude, get_magnitude_squared and get_phase (all give the imaginary parts), and sum/sum_sq of 3 and 4 rows (attached to Matrix2xN, always panic): refuted. A failing operation leaves the matrix unchanged if the rows are alike; otherwise the rows in front of the failing one stay changed (refuted). Rows without a counterpart are silently skipped (refuted). The statement is exact: where the code deviates from the ideal (field `ideal` of properties.jsonl) the _refuted theorems say what it does instead.",
  "status": "proved"
 },
 "C40": {
  "note": "Proved for every enumerated operation and for the scalar results: what the library computes is what arrives, and the error code tells which error it was. The code violates the rest (refuted): atan64 computes the tangent; the functions without a result return 9 on success, which is also the code of InputMustHaveAnOddLength; codes 13/14 are undocumented; new64 with complex data of odd length gives an empty vector that is not marked erroneous; overwrite_data64 refuses data of exactly the length of the vector. The statement is exact: where the code deviates from the ideal (field `ideal` of properties.jsonl) the _refuted theorems say what it does instead.",
  "status": "proved"
 },
 "C41": {
  "note": "Proved for sums, statistics, split statistics and dot products over any commutative ring."
 },
 "C42": {
  "note": "Exact real arithmetic; for floating point numbers the two halves may differ in the last bits, see C26_apply_first_half."
 },
 "C43": {
  "note": "Proved for every method of the model: a vector without the required number space or domain ends without elements and with a NaN delta. The methods which don't check (fft_shift, ifft_shift, windows, setters, mirror with one of both wrong) or convert instead (ifft family of real vectors) are refuted with witnesses; to_complex, convolve_signal and the getters only return an error or an empty target. The statement is exact: where the code deviates from the ideal (field `ideal` of properties.jsonl) the _refuted theorems say what it does instead.",
  "status": "proved"
 },
 "C44": {
  "note": "Real and slice round trips proved; complex Vec with spare capacity gets additional points, an empty one panics (refuted). The statement is exact: where the code deviates from the ideal (field `ideal` of properties.jsonl) the _refuted theorems say what it does instead.",
  "status": "proved"
 },
 "C45": {
  "note": "Value and metadata checks proved; what happens with a longer, a shorter or a complex factor is proved for all such factors. The statement is exact: where the code deviates from the ideal (field `ideal` of properties.jsonl) the _refuted theorems say what it does instead.",
  "status": "proved"
 },
 "C46": {
  "note": "Exact real arithmetic. Proved for every setting for responses which are not symmetric, and for symmetric ones whenever the slice can be cut into twice as many pieces as threads; otherwise points are left out, and one point panics (refuted). The statement is exact: where the code deviates from the ideal (field `ideal` of properties.jsonl) the _refuted theorems say what it does instead.",
  "status": "proved"
 },
 "C47": {
  "note": "All functions of trigonometry_and_powers.rs and the abs of real vectors; for the approximated functions see C61."
 },
 "C48": {
  "note": "Exact arithmetic for the exponential (instance: the real numbers)."
 },
 "C49": {
  "note": "The round trip of the plain transforms is proved; what sifft computes instead is proved for all inputs (C49_sifft, C49_sifft_single_refuted) and an impulse shows that it isn't the input. The statement is exact: where the code deviates from the ideal (field `ideal` of properties.jsonl) the _refuted theorems say what it does instead.",
  "status": "proved"
 },
 "C50": {
  "note": "Number spaces: complete. Domains: the values are restored, but the resolution is multiplied with the square of the number of points (refuted), and a transform which needs more scratch space than the table is long panics (refuted). The statement is exact: where the code deviates from the ideal (field `ideal` of properties.jsonl) the _refuted theorems say what it does instead.",
  "status": "proved"
 },
 "C53": {
  "note": "Proved in full for an even number of points or without a delay, and for responses which end up at the right bins (symmetric with an even m, or asymmetric with an odd m); for the others the theorem says which gain is used instead. Refuted: with an odd number of points a delay is applied with the wrong sign of the frequency to bin (n-1)/2, so a constant single point is negated. The statement is exact: where the code deviates from the ideal (field `ideal` of properties.jsonl) the _refuted theorems say what it does instead.",
  "status": "proved"
 },
 "C54": {
  "note": "Proved for complex vectors and for real vectors with an odd number of points; C54_reals_refuted says for all real vectors with an even number of points what is lost. The statement is exact: where the code deviates from the ideal (field `ideal` of properties.jsonl) the _refuted theorems say what it does instead.",
  "status": "proved"
 },
 "C55": {
  "note": "Proved for every response with the gain that the code in fact applies (placed_gain), and with the right gain for the parities where both agree. Refuted: a symmetric response is applied one bin too early to the negative frequencies if the number of points afterwards is odd, an asymmetric one a bin too late if it is even. The statement is exact: where the code deviates from the ideal (field `ideal` of properties.jsonl) the _refuted theorems say what it does instead.",
  "status": "proved"
 },
 "C57": {
  "note": "The exact result of the SIMD algorithm is proved; it equals the scalar one without a delay for an even function which ends before conv_len. Refuted: with a delay the middle part is delayed in the opposite direction; if the vector is too short for the two ends the code panics. The statement is exact: where the code deviates from the ideal (field `ideal` of properties.jsonl) the _refuted theorems say what it does instead.",
  "status": "proved"
 },
 "C60": {
  "note": "Work which is local (splittable): all settings and schedules. Arbitrary work: equal to one core."
 },
 "C61": {
  "note": "Registers of the default build (simd_extensions/fallback.rs). The polynomial approximations of the SSE2/AVX builds are not modelled."
 },
 "C62": {
  "note": "Six register types lane by lane; the intrinsics are modelled after Intel's description (trusted). Refuted: f64x4 of avx.rs stores the norm of the first number twice (hadd_pd adds within blocks of two lanes, store_half stores lanes 0 and 1); the exact content of the result is proved for every vector and address. avx512.rs does not compile and is not modelled.",
  "status": "proved"
 },
 "C63": {
  "note": "All indexers. C63_datac_of_real_refuted says for all real vectors what datac(..) gives instead of the documented empty slice. The statement is exact: where the code deviates from the ideal (field `ideal` of properties.jsonl) the _refuted theorems say what it does instead.",
  "status": "proved"
 },
 "C64": {
  "note": "Over the real numbers with the literals of the program; the rounding of f32 and f64 and casts beyond 32 (64) bits are not modelled. The bounds of the polynomials are proved by interval arithmetic with rational numbers, evaluated in the kernel, and the mean value theorem. The statement is exact: where the code deviates from the ideal (field `ideal` of properties.jsonl) the _refuted theorems say what it does instead.",
  "status": "proved"
 },
 "C65": {
  "note": "The table is Spec_Named.v. Over the real numbers; the functions of the standard library are arbitrary (class Math). The conditions (row_ready, callable, transformable) are those of the vector properties. The exceptions are part of the table (used_by_matrix, getter_of_matrix, used_by_foreign) and are refuted as defects in C39 and C40. Not in the table: the methods which resample or convolve with a buffer, sfft and sifft (their values: C33, C37, C49, C51-C57, C75; that matrices call them: C39).",
  "status": "proved"
 },
 "C66": {
  "note": "The clock is an arbitrary function of the number of threads and the length; the external linear regression is an arbitrary partial function; doubling a threshold is an arbitrary function because it may overflow. lazy_static is taken as a value computed once. The texts of print_calibration are not modelled. Where the code deviates from the ideal (field `ideal`) the _refuted theorems say what it does instead.",
  "status": "proved"
 },
 "C67": {
  "note": "Kahan's bound with explicit constants, for an abstract arithmetic (Spec_Prec.rounds) and for f64 as Flocq's FLT format rounded to nearest even (theorem C67_f64). Overflow, infinities and NaN are excluded by the hypothesis that all sums are finite. The squares of sum_sq_prec are taken as the rounded squares. The dot products are relative to the rounded products of the points. C67_split_refuted states what the code does for split statistics instead of the ideal.",
  "status": "proved"
 },
 "C68": {
  "note": "ArrayVec and Vec are modelled by their documented behaviour (trusted). Spec_Inline.list_call is the plain list. The deviations are the _refuted theorems; the first one makes the matrix convolution of C30 panic.",
  "status": "proved"
 },
 "C69": {
  "note": "The settings are given back beside the vector, as they are an argument of the operations in the model. The sums are over an exact ring (with rounding: C67). The two deviations are _refuted theorems.",
  "status": "proved"
 },
 "C70": {
  "note": "Addresses are natural numbers, chosen arbitrarily where nothing lives; Box, & and &mut are modelled by what Rust guarantees (trusted). The functions with a vector argument by value are collected by signature in Model_Foreign.uses, and independently in Spec_Foreign. Not modelled: sub64 declares its operand as &VecBox (a pointer to a pointer) while add64, mul64 and div64 take &VecBuf, so sub64 needs the address of a variable which holds the handle. A panic ends the life.",
  "status": "proved"
 },
 "C71": {
  "note": "The table of Spec_Shape.v follows the documented behaviour; where static and generic vectors differ in the code (sfft, ifft) the table says so and the deviation is a _refuted theorem. Reorganising methods (zero padding, splitting, ...) have their own statements about lengths in C05-C11.",
  "status": "proved"
 },
 "C72": {
  "note": "A client function which changes what its data pointer leads to is not modelled. C72_symmetric_refuted: a window declared symmetric without being so is only asked for the first half.",
  "status": "proved"
 },
 "C73": {
  "note": "Overflow is not modelled; the error is relative to the products as they are rounded.",
  "status": "proved"
 },
 "C74": {
  "note": "overlap_discard (Fourier transforms) has no rounding bound here; the branch with registers needs that a product with zero is zero, which f64 has for finite numbers; overflow is not modelled; the error is relative to the products as they are rounded.",
  "status": "proved"
 },
 "C75": {
  "note": "Exact real arithmetic. C75_windowed_sfft says what is computed for types which fix the number space at compile time, C75_windowed_sfft_agrees when this is the promise, C75_windowed_sfft_refuted and C75_windowed_sfft_runtime_refuted what is wrong. The statement is exact: where the code deviates from the ideal (field `ideal` of properties.jsonl) the _refuted theorems say what it does instead.",
  "status": "proved"
 }
}