# A Rocq model of liebharc/basic_dsp

Everything lives in `rocq/theories` (logical name `Verif`), one layer per kind of file:

| kind | content |
|---|---|
| `Model_*.v` | the code, function by function: total, computable Gallina; no proofs. Each definition cites file and lines in /repo. |
| `Spec.v`, `Spec_*.v` | a small vocabulary that does not mention the model: circular index, rotations, interleaving, prefix sums, DFT, ... |
| `Proof_*.v` | the proofs |
| `Props_*.v` | the property theorems, named `Cxx_...`: statement, `exact lemma.`, `Print Assumptions`, and an `Example` beside each theorem that runs the model on a concrete non-trivial case meeting its hypotheses |

## Modelling conventions

* **Memory**: a storage (`Vec`, boxed slice, `&mut [T]`, `ArrayVec`, `InlineVector`) is the list of its initialised
  elements together with its kind and capacity. `data(..)` is the first `valid_len` elements.
* **Panics** are a value (`Panicked` of the type `run`). Every slice index, slice range, `unwrap`, assertion, and every
  subtraction on `usize` that could go below zero is a checked operation in the model; a theorem saying `= Done ...` therefore also
  says "does not panic". Overflow *above* `usize::MAX` is not modelled (lengths are `nat`).
* **Errors** are values too: an operation on `&mut self` returns the new vector *and* the result, so that
  "fails without modification" can be said.
* **Numbers**: operations which only move elements are polymorphic. Arithmetic ones take a record `Num` of operations without
  any laws, so the theorems hold for f32/f64 bit by bit (the operations are whatever the record says); a theorem which needs
  algebra (sum identities, inverse transforms) takes the ring laws as a hypothesis on the record and then says
  "in exact arithmetic". Concrete instances: `Z`, `Q`, Coq's reals; binary64 rounding (C17) through Flocq's generic formats.
* **Threads** are modelled as a nondeterministic pool of tasks over disjoint parts of the array, one element write per step;
  theorems quantify over all schedules.
* **Addresses**: the SIMD partition takes the start address of the slice as an argument.
* **rustfft** (external crate) is not modelled: a plain FFT is *assumed to be* the discrete Fourier transform, that is the model
  of `fft` calls the mathematical DFT; everything around it (interleaving, shifts, scaling, mirror, metadata) is the code.
* **SIMD backends**: the generic SIMD code (partition, edges, chunked registers) is modelled with a register as the list of its lanes.
  `Model_Registers.v` models the lanes of the fallback, SSE and AVX registers intrinsic by intrinsic (trusted: Intel's description of each
  intrinsic, written down as a function on lists).
* **Two vectors, buffers, matrices**: each is its own value; Rust's ownership rules exclude aliasing between `&mut` arguments.

## Statements where the code deviates

Where the code violates the property one would like to have (field `ideal` of properties.jsonl), the property states exactly what holds, and the
theorem named `Cxx_..._refuted` says what the code does instead: mostly for *all* inputs of the deviating kind, sometimes (said so in the note of the
claim) by a witness. No theorem carries the suffix `_partial` at the moment.

## Trusted base

* Coq 8.16.1's kernel (and `coqchk`, which vcheck runs over all files).
* The axioms which `Print Assumptions` prints under each theorem; ASSUMPTIONS.md (generated by tools/assumptions.py) lists them theorem by
  theorem: none for most theorems; theorems over Coq's reals use `ClassicalDedekindReals.sig_forall_dec`, `sig_not_dec`,
  `FunctionalExtensionality.functional_extensionality_dep` and some of them `Classical_Prop.classic`. No axioms of our own.
* The faithfulness of the model to the code. Each definition's comment says which lines it models and what it simplifies.
* The modelling hypotheses which appear in the statements themselves: `computes_dft` (rustfft computes the discrete Fourier transform), ring or
  field laws of a number type where the statement says "in exact arithmetic", aligned addresses for SIMD.
* Intel's description of the SSE/AVX intrinsics (C62).

## Which code is modelled

`vector/src`:

| file | modelled in | not modelled |
|---|---|---|
| lib.rs | Base (slices as complex slices, memcpy/memzero), Model_Float (number traits), Model_Registers (choice of registers) | `Zero` impls, feature plumbing |
| meta.rs | Model_Vec (number space and domain markers, compile time or run time) | |
| multicore_support/threading.rs, mod.rs | Model_Chunk (chunks, ranges, thread pool with any scheduler), Model_F64 (`calc_chunk_size` in binary64) | `num_cpus`, spawn failures; the `calibrate` constructors are the record constructor |
| multicore_support/no_threading.rs | Model_NoThread | |
| simd_extensions/mod.rs, simd_partition.rs | Model_Simd | |
| simd_extensions/fallback.rs, sse.rs, avx.rs, x86.rs | Model_Registers | |
| simd_extensions/approx_fallback.rs | Model_Approx | |
| simd_extensions/approximations.rs | Model_Poly (one lane of a register; C64 over the reals) | rounding, NaN arguments, casts of numbers beyond 32 (64) bits |
| simd_extensions/avx512.rs, gpu_support/ | - | avx512.rs does not compile; the GPU code needs OpenCL (the fallback of gpu_support, which always declines, is what the model assumes) |
| inline_vector/ | as a list (`Vec` behaviour), with the panic of `collect()` above 64 elements in `convolve_mat` | the memory layout |
| vector_types/mod.rs | Model_Vec, Model_Simd, Model_Window (window multiplication, `swap_array_halves` in Model_Reorg) | |
| vector_types/vec_impl_and_indexers.rs | Model_Vec (resize, resize_b, getters), Model_Index (all indexers) | |
| vector_types/buffer.rs, support_core.rs, support_std.rs, support_std_par.rs | Model_Vec (storages, buffers, constructors) | `InlineVector` storages are private; the `_par` constructors differ only in the multicore settings, which are an argument of every operation of the model |
| vector_types/to_from_vec_conversions.rs, rededicate_and_relations.rs, requirements.rs, checks_and_results.rs | Model_Vec, Model_Complex | `Debug` impls |
| vector_types/general/*.rs | Model_Elem, Model_Sum, Model_Math, Model_Stats, Model_Reorg | |
| vector_types/real/*.rs, complex/*.rs | Model_Real, Model_Complex, Model_Approx | |
| vector_types/time_freq/mod.rs, convolution.rs | Model_Convolve, Model_Overlap | |
| vector_types/time_freq/{time_to_freq,freq_to_time,freq,time,correlation}.rs | Model_Fft, Model_Window | rustfft itself |
| vector_types/time_freq/{interpolation,real_interpolation}.rs | Model_Interpolate, Model_Interp | |
| conv_types.rs, window_functions.rs | Model_Window, Model_Interp (lookup tables) | |

`matrix/src`: Model_Matrix (loops over rows, convolution), Model_MatOps (which vector method each matrix method calls). Conversions and
`rededicate` of matrices are in both files too.

`interop/src`: Model_Interop (lib.rs and facade64.rs; facade32.rs is the same text with 32 for 64, checked with diff). Model_Foreign has the functions which
answer with numbers and the life of the vectors behind the pointers (C69, C70). Not modelled: `no_mangle`, the layout of the structs, `sub64` with `&VecBox`.

## Findings in the code

Deviations found while modelling, each with its theorem in MANIFEST.json (`_refuted`) or seen while reading (marked r):

* length invariant: failed `to_complex`, growing with a fixed length buffer, generic `sifft`, declaring an odd real vector complex (C01); odd complex
  data through `&[T]` and `From` (C03); `rededicate_from` empties only if number space *and* domain change (C04);
* `zero_pad_b` with Center leaves old buffer content in the gap, Surround is unbalanced (C05-C07); `ifft_shift` of one point panics (C10);
  `split_into`/`merge` of real vectors run over spare elements (C11); `diff` of an empty vector panics (C12);
* symmetric windows and responses with several threads: wrong or no factors, panics for fewer than two points (C15, C26, C46);
* SIMD on misaligned storage panics or mispairs (C18); merged statistics can lose the minimum (C20);
* `convolve_signal` of complex vectors with 512 < m, 10 m < n < 15 m is wrong (C28); `convolve` with a function uses the inverse ratio on the sampled
  path (C28); complex matrix convolution is cut, and more than 64 rows panic (C30);
* vectors with a run time domain stay in frequency domain after `ifft`; `sifft` does not undo `sfft` (C32, C33, C49); `correlate` after
  `prepare_argument` always fails (C35);
* lookup tables return the first value left of the table (C38), their resolution changes by n² through `fft`/`ifft` (C50);
* matrix: `cum_sum`/`diff_with_start` call `diff`, `get_magnitude(_squared)`/`get_phase` call `get_imag`, `sum` of 3 or 4 rows panics, `transform_res`
  order, errors midway (C39); interop: `atan64` computes tan, 9 means success and an error (C40); r: `fft_shift64`/`ifft_shift64` lack `no_mangle`,
  `sub64` takes `&VecBox`; `set_len64` drops the result, real sums of complex vectors are not refused (C69), getters and `clone64` free their source (C70);
* `ifft(fft(v))` multiplies the delta with n² and leaves a generic vector in the frequency domain; `sfft` of a statically real vector interleaves its zeros twice (C71);
* settings and lists: `parallel()` with 3 cores uses one (C66), the precise split statistics share one compensation (C67), `collect` above 64 elements panics (C68);
* `interpolate` with odd n and a delay, `fft_swap_x` misplaces negative bins, SIMD `interpolatef` delays in the opposite direction (C53, C55, C57);
* SSE2/AVX `ln_approx` has an error of up to 2% for mantissas close to 2 (threshold sqrt(2) instead of sqrt(1/2)), `exp_approx` of f64 stops at 88.376 (C64);
* AVX f64x4 magnitudes store the first norm twice (C62); r: sse.rs uses `_mm_permute_ps`, an AVX instruction.

## Testing the theorems

tools/mutate.py edits the model in a scratch copy, rebuilds, and reports which theorems fail. seeded/LOG.jsonl has one line per attempt.

## Plan per property

| id | modelled | proof |
|---|---|---|
| C01 | vectors, storages, all mutating operations as a transition system | invariant by induction over histories; refutations for the operations that break it |
| C02 | `resize`, `try_resize` per storage kind | case analysis |
| C03 | constructors per storage kind | case analysis, refutation for `&[T]` |
| C04 | `rededicate_from` | refutation + exact characterisation |
| C05 | `zero_pad` incl. `memcpy`/`memzero` | list reasoning per option |
| C06 | `zero_pad_b`, `zero_interleave_b` | equality of both; refutation for Surround |
| C07 | all buffer kinds with arbitrary stale content, every method which takes a buffer, sessions of several vectors with one buffer, matrices, foreign functions | a relational proof (both runs, two buffers) through every model function; refutations for Center, misaligned complex data, too few impulse responses |
| C08 | in-place descending loop | loop invariant |
| C09 | swap loop | loop invariant |
| C10 | half swap and cycle walk of `swap_array_halves` | loop invariant, modular arithmetic |
| C11 | `split_into`, `merge` | index arithmetic |
| C12 | loops of diff_sum.rs | induction, ring laws |
| C13, C14 | elementary.rs incl. checks, SIMD partition, chunks | SIMD map = map, chunk map = map |
| C15, C16 | threading.rs chunks, ranges, task pool | schedules: induction over interleavings |
| C17 | `calc_chunk_size` with binary64 rounding (Flocq) | rounding error analysis |
| C18 | `calc_data_alignment_reqs`, partition, edge iterators | list reasoning; refutations for misaligned addresses |
| C19-C21 | statistics.rs | fold invariants, permutation |
| C22 | mapping.rs | fold invariants, permutation |
| C23, C24 | complex_to_real.rs, real_to_complex.rs | loop invariants |
| C25 | `wrap`/`unwrap` with truncated remainder over Z and R | induction |
| C26, C46 | `execute_sym_pairs_with_range` and its clients | pairing arithmetic; refutation for several threads |
| C27-C30 | wrapping iterators, scalar/SIMD convolution, overlap-discard index structure, convolve_mat | modular arithmetic, sums |
| C31, C35 | shifts, scaling around a DFT over a field with a primitive root; instance: complex numbers over Coq's reals | orthogonality of characters |
| C32, C33 | metadata markers (static, runtime) | case analysis, refutations |
| C34, C36 | mirror, decimatei loops | loop invariants |
| C37 | interpolate_lin / hermite over Q/R with integer factor | floor arithmetic |
| C38 | table lookup | real arithmetic, refutation left of the table |
| C39 | forwarding layer of the matrix crate | row-wise equality, refutations for mis-forwarded methods |
| C40 | interop error translation | finite case analysis |
| C41 | Kahan summation | induction, ring laws |
| C42 | windows and conv functions over Coq's reals | trigonometric identities |
| C47, C48 | trigonometry_and_powers.rs, complex_ops.rs | SIMD/chunk map = map; induction over the accumulated exponential |
| C49 | plain_sfft/sfft and back | conjugate symmetry of the spectrum of real data, orthogonality of characters |
| C50 | conversions of lookup tables (with the vectors and buffers they make) | composition of the theorems about vectors; refutation for the resolution |
| C51, C52, C54 | interpft: resampling in frequency domain around the DFT | identities between sums of characters (Proof_Trig, Proof_Exact); refutation for real even n |
| C53, C55 | interpolate, interpolatei, fft_swap_x | gain per bin; refutations for the misplaced bins |
| C56, C57 | interpolatef, scalar and SIMD algorithm | index arithmetic over a periodic continuation; refutation for the delay and for short vectors |
| C58, C59 | window_functions.rs, conv_types.rs over Coq's reals | trigonometric identities, polynomial bounds, continuity |
| C60 | no_threading.rs beside threading.rs | equality with the any-schedule theorems of C15; unconditional equality with one core |
| C61 | real_ops.rs: approximated functions with the fallback registers | SIMD map = map; identities of ln and exp over the reals |
| C62 | Model_Registers: lanes of six register types, and vector operations with them | lane by lane equality with the operation on the numbers; exact wrong result for f64x4 magnitudes |
| C63 | Model_Index: the indexers of vec_impl_and_indexers.rs | list reasoning |
| C64 | Model_Poly: the lanes of ln, exp, sin, cos of approximations.rs and the methods which use them | numerical bounds: interval arithmetic on rational polynomials (vm_compute), mean value theorem, Taylor bounds of the standard library for sin, cos and pi |
| C65 | Model_MatOps (the tables vec_* and the matrix methods), Model_Interop | Spec_Named.v says in numbers what each named method computes; assembled from C09-C14, C19-C24, C26, C36, C41, C45-C48, C61 and the transforms, then lifted to rows (C39) and foreign calls (C40), the transforms with the room of the shared buffer as invariant (Props_NamedFft.v; Spec_NamedFft.v: which transform a foreign function carries out) |
| C66 | Model_Settings (calibration, MultiCoreSettings, the _par constructors) | case analysis of the calibration with arbitrary clock and regression; thresholds in order imply the bounds of the number of chunks; the operations of C13 do not depend on the settings |
| C67 | Model_Prec (f32 versions), Model_Double (f64 arithmetic with rounding), Model_Stats (compensated sums) | invariant of the compensated sum: corrected sum within (2u + 9ku^2), compensation within 9/4 u of the sum of the magnitudes; dot products: one compensated sum per lane, then a permutation of the products; f64 satisfies the standard model of rounding (Flocq); universal counterexample for the split statistics |
| C68 | Model_Inline (both builds) | simulation of a relational list machine, call by call, for all histories; completeness: no list step means panic |
| C69 | Model_Foreign (functions which answer with numbers) | through the theorems of C02, C19, C21, C22, C41, C45, C63 and C66; the number space is ignored where the code ignores it |
| C70 | Model_Foreign.serve: memory as a finite map from addresses to vectors, arguments by value, by reference and by mutable reference | invariant: the addresses in use are those the client holds, by induction on the history; frame property |
| C71 | Spec_Shape: a table of length, number space, domain and delta after every method; Model_MatOps | case analysis over the methods with the frame lemmas; for matrices through the row-wise theorems of C39 |
| C72 | Model_Custom.custom_call: the functions with a function pointer, as calls of the methods with the wrapped function; client functions are taken as mathematical functions of the data behind the data pointer | reduction to C26, C28, C31, C33, C46, C52, C53 through C40, for every client function |
| C73 | Model_Stats.simd_sum, simd_sum_complex, dot_real, dot_complex, with the machine numbers of C67 (Spec_Prec.rounds) | every number goes through at most n/w + 2w additions: induction over registers, lanes and edges with the error bound (1+u)^k - 1; f64 through Flocq; cum_sum and diff_with_start: the same bound along the recurrences of Model_Sum; statistics: the plain sum of the worker |
| C74 | Model_Overlap.convolve_signal, Model_Convolve.convolve_signal_scalar, convolve_function_real, convolve_function_complex, with the machine numbers of C67 | the points are sums from left to right (C27's lemmas hold without ring laws on this path), so C73's error bound applies; with registers the products of a shifted copy are a permutation of the products with the taps and of zeros, and every product goes through m + 2w additions at most; f64 through Flocq |
| C75 | Model_Fft.windowed_sfft, windowed_sifft, Model_Window.apply_window | the window of the interleaved signal is the interleaved signal with every other point of the window (Proof_WindowedSfft.v), the rest as for C33; the refutation is the impulse 1, 0, 0 with the triangular window |
| C43-C45 | marking, conversion, dot products | case analysis, induction |
