(** Model of interop/src/lib.rs and interop/src/facade64.rs (facade32.rs is the same code for [f32]). No proofs here.

    The pointers of the C interface are not modelled: a [Box<VecBuf>] is the value it points to, a call takes it and gives a new one back. Function pointers are
    functions. The numbers which stand for windows, padding options and functions are integers. *)
From Verif Require Export Model_MatOps.

(** [is_nan()] of the number type *)
(** Called in vector/src/vector_types/mod.rs:213-215. *)
Class IsNan (A : Type) := nisnan : A -> bool.

(** interop/src/lib.rs:16-22; the buffer is always a [SingleBuffer] *)
Record ivec (A : Type) := IVec { i_vec : dvec A; i_buf : buffer A }.
Arguments IVec {A}. Arguments i_vec {A}. Arguments i_buf {A}.

(** interop/src/lib.rs:125-142 *)
Definition translate_error (e : error_reason) : Z :=
  match e with
  | InputMustHaveTheSameSize => 1
  | InputMetaDataMustAgree => 2
  | InputMustBeComplex => 3
  | InputMustBeReal => 4
  | InputMustBeInTimeDomain => 5
  | InputMustBeInFrequencyDomain => 6
  | InvalidArgumentLength => 7
  | InputMustBeConjSymmetric => 8
  | InputMustHaveAnOddLength => 9
  | ArgumentFunctionMustBeSymmetric => 10
  | InvalidNumberOfArgumentsForCombinedOp => 11
  | InputMustNotBeEmpty => 12
  | InputMustHaveAnEvenLength => 13
  | TypeCanNotResize => 14
  end%Z.
(** interop/src/lib.rs:100-105 *)
Definition convert_void (res : result unit) : Z := match res with Ok _ => 9%Z | Err e => translate_error e end.
(** interop/src/lib.rs:194-200 *)
Definition translate_to_padding_option (value : Z) : padding := if (value =? 0)%Z then End else if (value =? 1)%Z then Surround else Center.
(** An [i32] as [u32] *)
(** The casts in interop/src/facade64.rs:341-346, 1148-1154. *)
Definition as_u32 (x : Z) : nat := Z.to_nat (x mod 2 ^ 32).

Section interop.
Context {A : Type} `{Num A} `{Flt A} `{Rem A} `{Trig A} `{Math A} `{F : Fft A} `{RA : Rounding A} `{IsNan A}.

(** vector/src/vector_types/mod.rs:213-215 *)
Definition is_erroneous (v : dvec A) : bool := (valid_len v =? 0) && nisnan (delta v).
(** interop/src/lib.rs:145-151 *)
Definition get_error_marker (v : dvec A) : Z := if is_erroneous v then (-1)%Z else 0%Z.

(** interop/src/lib.rs:28-47: [convert_vec]; the operation works on the vector and the buffer in place, also if it fails *)
Definition convert_vec (op : buffer A -> dvec A -> run (dvec A * buffer A * result unit)) (x : ivec A) : run (ivec A * Z) :=
  '(v, b, res) ← op (i_buf x) (i_vec x);
  Done (IVec v b, match res with Ok _ => get_error_marker v | Err e => translate_error e end).
(** interop/src/lib.rs:49-75: [trans_vec]; a failing operation gives its vector back together with the error *)
Definition trans_vec (op : buffer A -> dvec A -> run (dvec A * buffer A * result unit)) (x : ivec A) : run (ivec A * Z) :=
  '(v, b, res) ← op (i_buf x) (i_vec x);
  Done (IVec v b, match res with Ok _ => get_error_marker v | Err e => translate_error e end).
(** interop/src/lib.rs:78-93 *)
Definition convert_scalar {R} (op : dvec A -> run (result R)) (default : R) (x : ivec A) : run (R * Z) :=
  res ← op (i_vec x);
  Done (match res with Ok y => (y, get_error_marker (i_vec x)) | Err e => (default, translate_error e) end).

(** interop/src/lib.rs:153-164 *)
Definition translate_to_window_function (value : Z) : window A :=
  if (value =? 0)%Z then triangular_window else if (value =? 1)%Z then hamming_default else if (value =? 2)%Z then blackman_harris_window
  else rectangular_window.
(** interop/src/lib.rs:166-178 *)
Definition translate_to_real_convolution_function (value : Z) (rolloff : A) : response A A := if (value =? 0)%Z then sinc_time else raised_cosine_time rolloff.
(** interop/src/lib.rs:180-192 *)
Definition translate_to_real_frequency_response (value : Z) (rolloff : A) : response A A := if (value =? 0)%Z then sinc_freq else raised_cosine_freq rolloff.

(** facade64.rs:23-42 [new64]. [vec![init_value; length]] has no spare capacity. *)
Definition new_vector (is_complex domain : Z) (init : A) (length : nat) (delta : A) : run (ivec A) :=
  v ← construct (ToGen (negb (is_complex =? 0)%Z) (if (domain =? 0)%Z then Time else Frequency)) (Storage KVec length (replicate length init));
  Done (IVec (set_delta v delta) (SingleBuffer [])).
(** facade64.rs:106-113 [get_value64], [set_value64] *)
Definition get_value (x : ivec A) (index : nat) : run A := l ← vdata (i_vec x); rd l index.
(** facade64.rs:111-113 *)
Definition set_value (x : ivec A) (index : nat) (value : A) : run (ivec A) :=
  l ← vdata (i_vec x); l ← wr l index value; l ← splice (elems (i_vec x)) 0 l; Done (IVec (set_elems (i_vec x) l) (i_buf x)).
(** facade64.rs:144-147 [set_len64]: the result is dropped *)
Definition set_len (x : ivec A) (n : nat) : ivec A := IVec (fst (Model_Vec.resize n0 (i_vec x) n)) (i_buf x).
(** facade64.rs:688-693 [clone64] *)
Definition clone_vector (x : ivec A) : ivec A := IVec (i_vec x) (SingleBuffer []).
(** facade64.rs:828-846 [overwrite_data64] *)
Definition overwrite_data (x : ivec A) (data : list A) : run (ivec A * Z) :=
  if length data <? len (i_vec x) then
    l ← vdata (i_vec x); l ← splice l 0 data; l ← splice (elems (i_vec x)) 0 l; Done (IVec (set_elems (i_vec x) l) (i_buf x), 0%Z)
  else Done (x, translate_error InvalidArgumentLength).

(** The functions which give a vector back *)
(** The exported functions of interop/src/facade64.rs which return [VectorInteropResult]; the lines are at [foreign_call]. *)
Inductive foreign :=
| F_inplace (op : inplace A)                       (* all but Set_delta *)
| F_complex_divide (z : A * A)
| F_binary (op : binary) (o : ivec A)
| F_zero_pad (points : nat) (option : Z) | F_zero_interleave (factor : Z)
| F_apply_window (w : Z) | F_unapply_window (w : Z) | F_windowed_fft (w : Z) | F_windowed_sfft (w : Z) | F_windowed_ifft (w : Z) | F_windowed_sifft (w : Z)
| F_multiply_frequency_response (h : Z) (rolloff ratio : A)
| F_buffered (op : buffered A) | F_fallible (op : fallible A) | F_inplace_b (op : inplace_b A)
| F_set (op : setter2) (x y : ivec A) | F_merge (sources : list (ivec A)) | F_correlate (o : ivec A) | F_convolve_signal (o : ivec A)
| F_convolve (h : Z) (rolloff ratio : A) (n : nat)
| F_interpolatef (h : Z) (rolloff factor delay : A) (n : nat) | F_interpolate_custom (h : response A A) (points : nat) (delay : A)
| F_interpolate (h : Z) (rolloff : A) (points : nat) (delay : A) | F_interpolatei_custom (h : response A A) (factor : Z)
| F_interpolatei (h : Z) (rolloff : A) (factor : Z).

Context (e : env) (fits : nat -> bool).
(** [convert_vec(|v, _| Ok(v.op()))]: facade64.rs:349-416 and others *)
Definition inf (op : dvec A -> run (dvec A)) (b : buffer A) (v : dvec A) : run (dvec A * buffer A * result unit) := w ← op v; Done (w, b, Ok tt).
(** [convert_vec(|v, b| Ok(v.op(b)))]: facade64.rs:1172-1177 and others *)
Definition inf_b (op : buffer A -> dvec A -> run (dvec A * buffer A)) (b : buffer A) (v : dvec A) : run (dvec A * buffer A * result unit) :=
  '(w, b) ← op b v; Done (w, b, Ok tt).
(** [convert_vec(|v, _| v.op())]: facade64.rs:705-766 and others *)
Definition no_buf (op : dvec A -> run (dvec A * result unit)) (b : buffer A) (v : dvec A) : run (dvec A * buffer A * result unit) :=
  '(w, res) ← op v; Done (w, b, res).
(** facade64.rs:174-191 (add, sub, div, mul), 331-346 (zero_pad, zero_interleave), 349-416 (diff ... expf), 419-421 (to_complex), 424-480 (sin ... atanh),
    483-515 (ln_approx ... powf_approx), 518-530 (wrap, unwrap, swap_halves), 533-557 (complex_offset, complex_scale, complex_divide), 560-562, 575-592 (magnitude, magnitude_squared, conj, to_real,
    to_imag), 595-610 (map_inplace), 663-665 (phase), 673-685 (plain_fft, plain_sfft, plain_ifft), 696-766 (multiply_complex_exponential, binary operations),
    787-802 (set_real_imag, set_mag_phase), 815-825 (merge), 935-970 (transforms, mirror, shifts), 981-1023 (windows with a number), 1031-1140 (custom windows),
    1143-1178 (reverse, decimatei, prepare_argument, prepare_argument_padded, correlate, convolve_signal), 1184-1302 (convolve and
    multiply_frequency_response with a function or a number), 1309-1435 (interpolatef, interpolate, interpft, interpolatei), 1438-1453 (interpolate_lin,
    interpolate_hermite). [fits] is the choice between the two convolutions, see Model_Overlap.v.

    [atan64] calls [tan]: facade64.rs:449-451. [fft_shift64] and [ifft_shift64] are not exported ([no_mangle] is missing, 964-970). *)
Definition foreign_call (c : foreign) (x : ivec A) : run (ivec A * Z) :=
  match c with
  | F_inplace (Elementary Atan) => convert_vec (inf (vec_inplace e (Elementary Tan) 0)) x
  | F_inplace op => convert_vec (inf (vec_inplace e op 0)) x
  | F_complex_divide z => convert_vec (inf (vec_inplace e (Scale_complex (cdiv (n1, n0) z)) 0)) x
  | F_binary op o => convert_vec (no_buf (fun v => vec_binary e op 0 v (i_vec o))) x
  | F_zero_pad n o => convert_vec (fun b v => zero_pad_b n0 b v n (translate_to_padding_option o)) x
  | F_zero_interleave k => convert_vec (inf_b (fun b v => zero_interleave_b n0 b v (as_u32 k))) x
  | F_apply_window w => convert_vec (inf (vec_inplace e (Apply_window (translate_to_window_function w)) 0)) x
  | F_unapply_window w => convert_vec (inf (vec_inplace e (Unapply_window (translate_to_window_function w)) 0)) x
  | F_windowed_fft w => trans_vec (inf_b (vec_buffered e (Windowed_fft (translate_to_window_function w)) 0)) x
  | F_windowed_sfft w => trans_vec (vec_fallible e (Windowed_sfft (translate_to_window_function w)) 0) x
  | F_windowed_ifft w => trans_vec (inf_b (vec_buffered e (Windowed_ifft (translate_to_window_function w)) 0)) x
  | F_windowed_sifft w => trans_vec (vec_fallible e (Windowed_sifft (translate_to_window_function w)) 0) x
  | F_multiply_frequency_response h rolloff ratio =>
      convert_vec (inf (vec_inplace e (Multiply_real_response (translate_to_real_frequency_response h rolloff) ratio) 0)) x
  | F_buffered op => trans_vec (inf_b (vec_buffered e op 0)) x
  | F_fallible op => trans_vec (vec_fallible e op 0) x
  | F_inplace_b op => convert_vec (inf_b (vec_inplace_b e fits op 0)) x
  | F_set op p q => convert_vec (no_buf (fun v => vec_setter2 op v (i_vec p) (i_vec q))) x
  | F_merge l => convert_vec (no_buf (fun v => vmerge n0 v (map i_vec l))) x
  | F_correlate o => convert_vec (fun b v => correlate (e_reg e) (e_addr e 0) (e_set e) (e_sched e 0 0) (e_sched e 0 1) b v (i_vec o)) x
  | F_convolve_signal o => convert_vec (fun b v => convolve_signal (e_reg e) (e_addr e 0) (e_set e) (e_sched e 0 0) b v (i_vec o)) x
  | F_convolve h rolloff ratio n =>
      convert_vec (inf_b (vec_inplace_b e fits (Convolve_real (r_calc (translate_to_real_convolution_function h rolloff)) ratio n) 0)) x
  | F_interpolatef h rolloff factor delay n =>
      convert_vec (inf_b (vec_inplace_b e fits (Interpolatef (translate_to_real_convolution_function h rolloff) factor delay n) 0)) x
  | F_interpolate_custom h n delay => convert_vec (vec_resample e (Interpolate (Some h) n delay) 0) x
  | F_interpolate h rolloff n delay =>
      convert_vec (vec_resample e (Interpolate (Some (translate_to_real_frequency_response h rolloff)) n delay) 0) x
  | F_interpolatei_custom h k => convert_vec (vec_resample e (Interpolatei h (as_u32 k)) 0) x
  | F_interpolatei h rolloff k => convert_vec (vec_resample e (Interpolatei (translate_to_real_frequency_response h rolloff) (as_u32 k)) 0) x
  end.

(** The functions which compute a number: facade64.rs:194-221, 255-290 *)
Definition foreign_dot (op : dotting) (x o : ivec A) : run (A * Z) := convert_scalar (fun v => vec_dot_op e op 0 v (i_vec o)) n0 x.
(** facade64.rs:205-221, 274-290 (the call inside) *)
Definition vec_complex_dot (op : dotting) (v o : dvec A) : run (result (A * A)) :=
  match op with
  | Dot_product => dot_product_complex (e_reg e) (e_addr e 0) (e_set e) (e_sched e 0 0) v o
  | Dot_product_prec => dot_product_prec_complex (e_reg e) (e_addr e 0) (e_set e) (e_sched e 0 0) v o
  end.
(** facade64.rs:205-221, 274-290 *)
Definition foreign_complex_dot (op : dotting) (x o : ivec A) : run (A * A * Z) := convert_scalar (fun v => vec_complex_dot op v (i_vec o)) (n0, n0) x.
(** facade64.rs:849-867, 892-910 (real vectors): the statistics are written to [data], whose length is the number of parts *)
Definition foreign_split (op : stating) (x : ivec A) (data : list (statistics A)) : run (list (statistics A) * Z) :=
  res ← vec_split_op e op 0 (i_vec x) (length data);
  match res with
  | Ok s => l ← splice data 0 s; Done (l, 0%Z)
  | Err err => Done (data, translate_error err)
  end.

(** The functions which only give a number back: facade64.rs:565-572, 653-660, 668-670 (getters), 769-784 (pairs of getters), 805-812 (split_into) *)
Definition foreign_getter (op : getter) (x dst : ivec A) : run (ivec A * Z) :=
  w ← vec_getter e op 0 (i_vec x) (i_vec dst); Done (IVec w (i_buf dst), convert_void (Ok tt)).
(** facade64.rs:769-784 *)
Definition foreign_getter2 (op : getter2) (x d1 d2 : ivec A) : run (ivec A * ivec A * Z) :=
  '(w1, w2) ← vec_getter2 op (i_vec x) (i_vec d1) (i_vec d2); Done (IVec w1 (i_buf d1), IVec w2 (i_buf d2), convert_void (Ok tt)).
(** facade64.rs:805-812 *)
Definition foreign_split_into (x : ivec A) (targets : list (ivec A)) : run (list (ivec A) * Z) :=
  '(l, res) ← split_into n0 (i_vec x) (map i_vec targets);
  Done (zip_with IVec l (map i_buf targets), convert_void res).
End interop.
Arguments foreign A : clear implicits.
