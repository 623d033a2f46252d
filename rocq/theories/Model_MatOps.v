(** Model of the methods of the matrix crate: which method of the rows each of them calls, and how the rows are visited. No proofs here.

    Each group of methods is a type with one constructor per method (named like the method; the arguments of the method are the arguments of the constructor),
    a function [vec_...] which gives the like-named method of a vector, and a function [mat_...] which is the code of the matrix method. *)
From Verif Require Export Model_Matrix Model_Math Model_Approx Model_Sum Model_Interp Model_Interpolate.

(** What the rows don't share: [e_addr] is the address of a row and [e_sched] the schedules of its parallel sections. *)
(** matrix/src/mat_impl.rs:115-121 (the rows) *)
Record env := Env { e_reg : reg_type; e_addr : nat -> nat; e_set : settings; e_sched : nat -> nat -> list nat }.

(** Methods which change each row in place and can't fail *)
(** matrix/src/general/elementary.rs, real.rs, complex.rs, time_freq.rs; the lines are at [mat_inplace]. *)
Inductive inplace (A : Type) :=
| Scale (x : A) | Offset (x : A) | Scale_complex (x : A * A) | Offset_complex (x : A * A)
| Reverse | Swap_halves | Diff | Diff_with_start | Cum_sum
| Elementary (f : elementary) | Sqrt | Square | Root (d : A) | Powf (e : A) | Log (b : A) | Expf (b : A)
| Map_inplace (f : A -> nat -> A) | Map_inplace_complex (f : A * A -> nat -> A * A)
| Abs | Wrap (d : A) | Unwrap (d : A) | Approximated (f : approximation A)
| Multiply_complex_exponential (a b : A) | Conj
| Fft_shift | Ifft_shift | Apply_window (w : window A) | Unapply_window (w : window A)
| Multiply_real_response (h : response A A) (ratio : A) | Multiply_complex_response (h : response A (A * A)) (ratio : A)
| Decimatei (factor delay : nat) | Set_delta (d : A).
Arguments Scale {A}. Arguments Offset {A}. Arguments Scale_complex {A}. Arguments Offset_complex {A}. Arguments Reverse {A}. Arguments Swap_halves {A}.
Arguments Diff {A}. Arguments Diff_with_start {A}. Arguments Cum_sum {A}. Arguments Elementary {A}. Arguments Sqrt {A}. Arguments Square {A}.
Arguments Root {A}. Arguments Powf {A}. Arguments Log {A}. Arguments Expf {A}. Arguments Map_inplace {A}. Arguments Map_inplace_complex {A}.
Arguments Abs {A}. Arguments Wrap {A}. Arguments Unwrap {A}. Arguments Approximated {A}. Arguments Multiply_complex_exponential {A}. Arguments Conj {A}. Arguments Fft_shift {A}.
Arguments Ifft_shift {A}. Arguments Apply_window {A}. Arguments Unapply_window {A}. Arguments Multiply_real_response {A}.
Arguments Multiply_complex_response {A}. Arguments Decimatei {A}. Arguments Set_delta {A}.

(** Methods with another matrix or a vector as argument *)
(** matrix/src/general/elementary.rs:48-187 *)
Inductive binary := Add | Sub | Div | Mul | Add_smaller | Sub_smaller | Div_smaller | Mul_smaller.

(** Methods which turn each row into a vector of another type *)
(** matrix/src/complex.rs:18-61, rededicate.rs:14-35 *)
Inductive conversion := Magnitude | Magnitude_squared | To_real | To_imag | Phase | Rededicate_from_force (t : vtype)
| Rededicate_with_runtime_data (t : vtype) (complex : bool) (d : ddomain).
(** The same with a buffer *)
(** The lines are at [mat_buffered] (matrix/src/complex.rs, real.rs, time_freq.rs). *)
Inductive buffered (A : Type) := Magnitude_b | Magnitude_squared_b | To_real_b | To_imag_b | Phase_b | To_complex_b
| Plain_fft | FFT | Windowed_fft (w : window A) | Plain_ifft | IFFT | Windowed_ifft (w : window A) | Prepare_argument | Prepare_argument_padded.
Arguments Magnitude_b {A}. Arguments Magnitude_squared_b {A}. Arguments To_real_b {A}. Arguments To_imag_b {A}. Arguments Phase_b {A}.
Arguments To_complex_b {A}. Arguments Plain_fft {A}. Arguments FFT {A}. Arguments Windowed_fft {A}. Arguments Plain_ifft {A}. Arguments IFFT {A}.
Arguments Windowed_ifft {A}. Arguments Prepare_argument {A}. Arguments Prepare_argument_padded {A}.
(** The same for methods which may fail *)
(** The lines are at [mat_fallible] (matrix/src/real.rs, time_freq.rs). *)
Inductive fallible (A : Type) := To_complex | Plain_sfft | Sfft | Windowed_sfft (w : window A) | Plain_sifft | Sifft | Windowed_sifft (w : window A).
Arguments To_complex {A}. Arguments Plain_sfft {A}. Arguments Sfft {A}. Arguments Windowed_sfft {A}. Arguments Plain_sifft {A}. Arguments Sifft {A}.
Arguments Windowed_sifft {A}.

(** Methods which change each row in place and use a buffer *)
(** The lines are at [mat_inplace_b] (matrix/src/time_freq.rs). *)
Inductive inplace_b (A : Type) := Mirror | Interpolate_hermite (factor delay : A) | Interpolate_lin (factor delay : A)
| Convolve_real (f : A -> A) (ratio : A) (n : nat) | Convolve_complex (f : A -> A * A) (ratio : A) (n : nat)
| Interpolatef (h : response A A) (factor delay : A) (n : nat) | Interpft (points : nat).
Arguments Mirror {A}. Arguments Interpolate_hermite {A}. Arguments Interpolate_lin {A}. Arguments Convolve_real {A}. Arguments Convolve_complex {A}.
Arguments Interpolatef {A}. Arguments Interpft {A}.
(** ... which may fail *)
(** The lines are at [mat_resample] (matrix/src/time_freq.rs). *)
Inductive resampling (A : Type) := Interpolatei (h : response A A) (factor : nat) | Interpolate (h : option (response A A)) (points : nat) (delay : A).
Arguments Interpolatei {A}. Arguments Interpolate {A}.

(** Methods which write into other matrices *)
(** matrix/src/complex.rs:123-151 *)
Inductive getter := Get_real | Get_imag | Get_magnitude | Get_magnitude_squared | Get_phase.
(** matrix/src/complex.rs:153-171 *)
Inductive getter2 := Get_real_imag | Get_mag_phase.
(** matrix/src/complex.rs:178-200 *)
Inductive setter2 := Set_real_imag | Set_mag_phase.

(** Methods which compute one number per row *)
(** matrix/src/general/statistics.rs:140-238, 376-478 *)
Inductive summing := Sum | Sum_sq | Sum_prec | Sum_sq_prec.
(** matrix/src/general/mod.rs:9-295 *)
Inductive dotting := Dot_product | Dot_product_prec.
(** matrix/src/general/statistics.rs:4-137, 240-374 *)
Inductive stating := Statistics | Statistics_prec.

Section ops.
Context {A : Type} `{Num A} `{Flt A} `{Rem A} `{Trig A} `{Math A} `{F : Fft A} `{RA : Rounding A}.
Notation matrix := (list (dvec A)).
Context (e : env).
Let r := e_reg e.
Let s := e_set e.
Let addr := e_addr e.
Let sched := e_sched e.

(** ** In place *)
(** The method of a row which matrix/src/general/elementary.rs, real.rs, complex.rs and time_freq.rs call (lines at [mat_inplace]). *)
Definition vec_inplace (op : inplace A) (i : nat) (v : dvec A) : run (dvec A) :=
  match op with
  | Scale x => scale_real r (addr i) s (sched i 0) x v
  | Offset x => offset_real r (addr i) s (sched i 0) x v
  | Scale_complex x => scale_complex r (addr i) s (sched i 0) x v
  | Offset_complex x => offset_complex r (addr i) s (sched i 0) x v
  | Reverse => vreverse v
  | Swap_halves => swap_halves v
  | Diff => diff v
  | Diff_with_start => diff_with_start v
  | Cum_sum => cum_sum v
  | Elementary f => vmath f s (sched i 0) v
  | Sqrt => vsqrt r (addr i) s (sched i 0) v
  | Square => vsquare r (addr i) s (sched i 0) v
  | Root d => vroot d s (sched i 0) v
  | Powf x => vpowf x s (sched i 0) v
  | Log b => vlog b s (sched i 0) v
  | Expf b => vexpf b s (sched i 0) v
  | Map_inplace f => map_inplace f s (sched i 0) v
  | Map_inplace_complex f => map_inplace_complex f s (sched i 0) v
  | Abs => vabs r (addr i) s (sched i 0) v
  | Wrap d => wrap s (sched i 0) d v
  | Unwrap d => unwrap d v
  | Approximated f => vapprox f r (addr i) s (sched i 0) v
  | Multiply_complex_exponential a b => multiply_complex_exponential s (sched i 0) a b v
  | Conj => vconj r (addr i) s (sched i 0) v
  | Fft_shift => fft_shift v
  | Ifft_shift => ifft_shift v
  | Apply_window w => apply_window w s (sched i 0) v
  | Unapply_window w => unapply_window w s (sched i 0) v
  | Multiply_real_response h ratio => multiply_real_response h ratio s (sched i 0) v
  | Multiply_complex_response h ratio => multiply_complex_response h ratio s (sched i 0) v
  | Decimatei factor delay => decimatei v factor delay
  | Set_delta d => Done (set_delta v d)
  end.
(** matrix/src/general/elementary.rs: scale 8-12, offset 18-22, scale (complex) 28-32, offset (complex) 38-42, reverse 193-197, swap_halves 199-203,
    diff 208-212, diff_with_start 214-218, cum_sum 220-224, sin ... atanh 229-299, sqrt ... expf 304-350, map_inplace 355-361, 366-372;
    matrix/src/real.rs: abs 62-66, wrap 72-76, unwrap 78-82, ln_approx ... powf_approx 87-127; matrix/src/complex.rs: multiply_complex_exponential 206-210, conj 212-216;
    matrix/src/time_freq.rs: fft_shift 179-183, ifft_shift 185-189, apply_window 195-199, unapply_window 201-205, decimatei 319-326,
    multiply_frequency_response 393-400, 407-414; matrix/src/mat_impl.rs: set_delta 89-93.

    [diff_with_start] and [cum_sum] call [diff]: matrix/src/general/elementary.rs:214-224. *)
Definition mat_inplace (op : inplace A) (m : matrix) : run matrix :=
  match op with
  | Diff_with_start => rows_each (vec_inplace Diff) m
  | Cum_sum => rows_each (vec_inplace Diff) m
  | Set_delta d => mat_set_delta m d
  | op => rows_each (vec_inplace op) m
  end.

(** ** Binary operations *)
(** The method of a row which matrix/src/general/elementary.rs:48-187 calls. *)
Definition vec_binary (op : binary) (i : nat) (v o : dvec A) : run (dvec A * result unit) :=
  match op with
  | Add => vadd r (addr i) s (sched i 0) v o
  | Sub => vsub r (addr i) s (sched i 0) v o
  | Div => vdiv r (addr i) s (sched i 0) v o
  | Mul => vmul r (addr i) s (sched i 0) v o
  | Add_smaller => add_smaller r s (sched i 0) v o
  | Sub_smaller => sub_smaller r s (sched i 0) v o
  | Div_smaller => div_smaller r s (sched i 0) v o
  | Mul_smaller => mul_smaller r s (sched i 0) v o
  end.
(** With a matrix: matrix/src/general/elementary.rs:48-78, 121-151 *)
Definition mat_binary (op : binary) (m o : matrix) : run (matrix * result unit) := rows_zip_try (vec_binary op) m o.
(** With a vector: matrix/src/general/elementary.rs:84-114, 157-187 *)
Definition mat_binary_vec (op : binary) (m : matrix) (o : dvec A) : run (matrix * result unit) := rows_try (fun i v => vec_binary op i v o) m.

(** ** Conversions *)
(** The method of a row which matrix/src/complex.rs:18-61 and rededicate.rs:14-35 call. *)
Definition vec_conversion (op : conversion) (v : dvec A) : run (dvec A) :=
  match op with
  | Magnitude => magnitude v
  | Magnitude_squared => magnitude_squared v
  | To_real => to_real v
  | To_imag => to_imag v
  | Phase => phase v
  | Rededicate_from_force t => Done (rededicate_from_force t v)
  | Rededicate_with_runtime_data t c d => Done (rededicate_with_runtime_data t v c d)
  end.
(** matrix/src/complex.rs:18-61; matrix/src/rededicate.rs:14-34 *)
Definition mat_conversion (k : mkind) (op : conversion) (m : matrix) : run matrix :=
  '(m, _) ← transform k (fun _ (_ : unit) v => w ← vec_conversion op v; Done (w, tt)) tt m; Done m.

(** The method of a row which matrix/src/complex.rs, real.rs and time_freq.rs call (lines at [mat_buffered]). *)
Definition vec_buffered (op : buffered A) (i : nat) (b : buffer A) (v : dvec A) : run (dvec A * buffer A) :=
  match op with
  | Magnitude_b => magnitude_b r (addr i) s (sched i 0) b v
  | Magnitude_squared_b => magnitude_squared_b r (addr i) s (sched i 0) b v
  | To_real_b => to_real_b s (sched i 0) b v
  | To_imag_b => to_imag_b s (sched i 0) b v
  | Phase_b => phase_b s (sched i 0) b v
  | To_complex_b => to_complex_b b v
  | Plain_fft => plain_fft b v
  | FFT => vfft b v
  | Windowed_fft w => windowed_fft w s (sched i 0) b v
  | Plain_ifft => plain_ifft b v
  | IFFT => vifft r (addr i) s (sched i 0) b v
  | Windowed_ifft w => windowed_ifft w r (addr i) s (sched i 0) (sched i 1) b v
  | Prepare_argument => prepare_argument r (addr i) s (sched i 0) b v
  | Prepare_argument_padded => prepare_argument_padded r (addr i) s (sched i 0) b v
  end.
(** matrix/src/complex.rs:68-116; matrix/src/real.rs:48-56; matrix/src/time_freq.rs:52-80, 113-141, 212-230 *)
Definition mat_buffered (k : mkind) (op : buffered A) (b : buffer A) (m : matrix) : run (matrix * buffer A) := transform k (vec_buffered op) b m.

(** The method of a row which matrix/src/real.rs and time_freq.rs call (lines at [mat_fallible]). *)
Definition vec_fallible (op : fallible A) (i : nat) (b : buffer A) (v : dvec A) : run (dvec A * buffer A * result unit) :=
  match op with
  | To_complex => '(w, res) ← to_complex v; Done (w, b, res)
  | Plain_sfft => plain_sfft b v
  | Sfft => sfft b v
  | Windowed_sfft w => windowed_sfft w s (sched i 0) b v
  | Plain_sifft => plain_sifft s (sched i 0) b v
  | Sifft => sifft r (addr i) s (sched i 0) (sched i 1) b v
  | Windowed_sifft w => windowed_sifft w r (addr i) s (sched i 0) (sched i 1) (sched i 2) b v
  end.
(** matrix/src/real.rs:38-41 (without a buffer); matrix/src/time_freq.rs:87-106, 148-167 *)
Definition mat_fallible (k : mkind) (op : fallible A) (b : buffer A) (m : matrix) : run (matrix * buffer A * result unit) :=
  transform_res k (vec_fallible op) b m.

(** ** In place with a buffer. [fits] is the choice between the two convolutions, see Model_Overlap.v. *)
Context (fits : nat -> bool).
(** The settings of the vectors which borrow the data of a row ([to_complex_time_vec] and others): multicore_support/threading.rs:210-217. The thresholds are not
    looked at if there is only one core (threading.rs:316-343). *)
Definition default_settings : settings := with_thresholds 1 0 0 0 0.
(** The schedules of the parallel sections of interpolation.rs:484-605 *)
Definition schedules_of (i : nat) : schedules := Schedules (sched i 0) (sched i 1) (sched i 2) (sched i 3).
(** The method of a row which matrix/src/time_freq.rs calls (lines at [mat_inplace_b]). *)
Definition vec_inplace_b (op : inplace_b A) (i : nat) (b : buffer A) (v : dvec A) : run (dvec A * buffer A) :=
  match op with
  | Mirror => mirror b v
  | Interpolate_hermite f d => interpolate_hermite b v f d
  | Interpolate_lin f d => interpolate_lin b v f d
  | Convolve_real f ratio n => convolve_real_response fround to_usize fits f ratio n r (addr i) s (sched i 0) b v
  | Convolve_complex f ratio n => convolve_complex_response fround to_usize fits f ratio n r (addr i) s (sched i 0) b v
  | Interpolatef h f d n => interpolatef h f d n r (addr i) s (sched i 0) b v
  | Interpft n => interpft r (addr i) s default_settings (schedules_of i) b v n
  end.
(** matrix/src/time_freq.rs: mirror 173-177, interpolate_hermite 332-341, interpolate_lin 343-352, convolve 359-369, 376-386, interpolatef 269-280,
    interpft 309-317 *)
Definition mat_inplace_b (op : inplace_b A) (b : buffer A) (m : matrix) : run (matrix * buffer A) := rows_buf (vec_inplace_b op) b m.
(** The method of a row which matrix/src/time_freq.rs calls (lines at [mat_resample]). *)
Definition vec_resample (op : resampling A) (i : nat) (b : buffer A) (v : dvec A) : run (dvec A * buffer A * result unit) :=
  match op with
  | Interpolatei h k => interpolatei r (addr i) s default_settings (schedules_of i) b v h k
  | Interpolate h n d => interpolate r (addr i) s default_settings (schedules_of i) b v h n d
  end.
(** matrix/src/time_freq.rs: interpolatei 282-293, interpolate 295-307 *)
Definition mat_resample (op : resampling A) (b : buffer A) (m : matrix) : run (matrix * buffer A * result unit) := rows_buf_try (vec_resample op) b m.
(** matrix/src/time_freq.rs:421-431 *)
Definition mat_convolve_vector (b : buffer A) (m : matrix) (imp : dvec A) : run (matrix * buffer A * result unit) :=
  rows_buf_try (fun i b v => convolve_signal r (addr i) s (sched i 0) b v imp) b m.
(** matrix/src/time_freq.rs:252-263 *)
Definition mat_correlate (b : buffer A) (m o : matrix) : run (matrix * buffer A * result unit) :=
  rows_zip_buf_try (fun i b v o => correlate r (addr i) s (sched i 0) (sched i 1) b v o) b m o.

(** ** Getters and setters *)
(** The method of a row: vector complex_to_real.rs:609-672 *)
Definition vec_getter (op : getter) (i : nat) (v dst : dvec A) : run (dvec A) :=
  match op with
  | Get_real => get_real s (sched i 0) v dst
  | Get_imag => get_imag s (sched i 0) v dst
  | Get_magnitude => get_magnitude r (addr i) s (sched i 0) v dst
  | Get_magnitude_squared => get_magnitude_squared r (addr i) s (sched i 0) v dst
  | Get_phase => get_phase s (sched i 0) v dst
  end.
(** matrix/src/complex.rs:123-151. [get_magnitude], [get_magnitude_squared] and [get_phase] call [get_imag]: lines 136, 142, 148. *)
Definition mat_getter (op : getter) (m dst : matrix) : run matrix :=
  match op with
  | Get_real => rows_zip_each (vec_getter Get_real) m dst
  | Get_imag => rows_zip_each (vec_getter Get_imag) m dst
  | Get_magnitude => rows_zip_each (vec_getter Get_imag) m dst
  | Get_magnitude_squared => rows_zip_each (vec_getter Get_imag) m dst
  | Get_phase => rows_zip_each (vec_getter Get_imag) m dst
  end.
(** The method of a row: vector complex_to_real.rs:674-712 *)
Definition vec_getter2 (op : getter2) (v d1 d2 : dvec A) : run (dvec A * dvec A) :=
  match op with Get_real_imag => get_real_imag v d1 d2 | Get_mag_phase => get_mag_phase v d1 d2 end.
(** matrix/src/complex.rs:153-171 *)
Definition mat_getter2 (op : getter2) (m d1 d2 : matrix) : run (matrix * matrix) := rows_zip_two (fun _ => vec_getter2 op) m d1 d2.
(** The method of a row: vector complex_to_real.rs:726-770 *)
Definition vec_setter2 (op : setter2) (v x y : dvec A) : run (dvec A * result unit) :=
  match op with Set_real_imag => set_real_imag v x y | Set_mag_phase => set_mag_phase v x y end.
(** matrix/src/complex.rs:178-200: [self.rows_mut().iter_mut().zip(real.rows()).zip(imag.rows())] *)
Definition mat_setter2 (op : setter2) (m x y : matrix) : run (matrix * result unit) :=
  rows_zip_try (fun _ v xy => vec_setter2 op v (fst xy) (snd xy)) m (zip x y).

(** ** One value per row *)
(** The method of a row: vector statistics.rs:571-577, 665-671, precise_stats.rs:284-358, 532-614 *)
Definition vec_sum_op (op : summing) (i : nat) (v : dvec A) : run A :=
  match op with
  | Sum => vsum r (addr i) s (sched i 0) v
  | Sum_sq => vsum_sq r (addr i) s (sched i 0) v
  | Sum_prec => vsum_prec (fun x => x) s (sched i 0) v
  | Sum_sq_prec => vsum_prec (fun x => x * x)%num s (sched i 0) v
  end.
(** matrix/src/general/statistics.rs:140-238, 376-478. [SumOps<[T; 3]>] and [SumOps<[T; 4]>] are implemented for [Matrix2xN] (190, 215) instead of [Matrix3xN]
    and [Matrix4xN]; [res] tells which array is returned. *)
Definition mat_sum (res : mkind) (op : summing) (m : matrix) : run (list A) :=
  l ← rows_values (vec_sum_op op) m; values_of res l.
(** The implementations which exist: (type of the matrix, type of the result) *)
(** matrix/src/general/statistics.rs:140-238, 376-478 *)
Definition sum_impls (op : summing) : list (mkind * mkind) :=
  match op with
  | Sum | Sum_sq => [(MatrixMxN, MatrixMxN); (Matrix2xN, Matrix2xN); (Matrix2xN, Matrix3xN); (Matrix2xN, Matrix4xN)]
  | Sum_prec | Sum_sq_prec => [(MatrixMxN, MatrixMxN); (Matrix2xN, Matrix2xN); (Matrix3xN, Matrix3xN); (Matrix4xN, Matrix4xN)]
  end.
(** The method of a row: vector statistics.rs:365-386, 589-611, precise_stats.rs:208-231, 451-475 *)
Definition vec_stat_op (op : stating) (i : nat) (v : dvec A) : run (statistics A) :=
  match op with Statistics => vstatistics s (sched i 0) v | Statistics_prec => vstatistics_prec s (sched i 0) v end.
(** matrix/src/general/statistics.rs:4-137, 240-374 *)
Definition mat_stat (k : mkind) (op : stating) (m : matrix) : run (list (statistics A)) := l ← rows_values (vec_stat_op op) m; values_of k l.
(** The method of a row: vector statistics.rs:398-429, 623-655, precise_stats.rs:242-275, 486-523 *)
Definition vec_split_op (op : stating) (i : nat) (v : dvec A) (n : nat) : run (result (list (statistics A))) :=
  match op with Statistics => vstatistics_split s (sched i 0) v n | Statistics_prec => vstatistics_split_prec s (sched i 0) v n end.
(** matrix/src/general/statistics.rs:4-137, 240-374 (statistics_split, statistics_split_prec) *)
Definition mat_split (k : mkind) (op : stating) (m : matrix) (n : nat) : run (result (list (list (statistics A)))) :=
  l ← rows_collect (fun i v => vec_split_op op i v n) m; results_of k l.
(** The method of a row: vector dot_products.rs:277-330 *)
Definition vec_dot_op (op : dotting) (i : nat) (v o : dvec A) : run (result A) :=
  match op with Dot_product => dot_product r (addr i) s (sched i 0) v o | Dot_product_prec => dot_product_prec r (addr i) s (sched i 0) v o end.
(** With a matrix: matrix/src/general/mod.rs:9-79, 153-223. [Vec::into_fixed_length] of the fixed size matrices gives a [Vec] here: the type [Output] is
    [ScalarResult<Vec<T>>]. *)
Definition mat_dot (op : dotting) (m o : matrix) : run (result (list A)) := rows_zip_collect (vec_dot_op op) m o.
(** With a vector: matrix/src/general/mod.rs:81-151, 225-295 *)
Definition mat_dot_vec (k : mkind) (op : dotting) (m : matrix) (o : dvec A) : run (result (list A)) :=
  l ← rows_collect (fun i v => vec_dot_op op i v o) m; results_of k l.
(** matrix/src/general/mod.rs:297-411 *)
Definition mat_map_aggregate {R} (k : mkind) (f : A -> nat -> R) (g : R -> R -> R) (m : matrix) : run (result (list R)) :=
  l ← rows_collect (fun i v => map_aggregate f g s (sched i 0) v) m; results_of k l.

(** ** Construction: matrix/src/to_from_mat_conversions.rs:105-163 with the constructor of the rows, see [construct] in Model_Vec.v; [get] 437-483 *)
Definition mat_construct (k : mkind) (f : storage A -> dvec A) (m : list (storage A)) : run matrix :=
  '(m, _) ← transform k (fun _ (_ : unit) v => Done (f v, tt)) tt m; Done m.
(** matrix/src/to_from_mat_conversions.rs:437-482 *)
Definition mat_get (m : matrix) : matrix * nat := (m, row_len m).
End ops.
