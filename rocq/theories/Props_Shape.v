(** C71: what a call makes of length, number space, domain and delta is told by a table which doesn't look at the elements, and the rows of a matrix stay alike. *)
From Verif Require Import Proof_ShapeMat NumsR NumsTrig NumsFlt Nums.
From Verif Require Import Props_Matrix Props_Invalid Proof_Dft.
From Verif Require Import Model_MatOps.
Local Open Scope nat_scope.

(** ** Vectors *)
Theorem C71_inplace : forall {A} `{Num A} `{Flt A} `{Rem A} `{Trig A} `{Math A} e (op : inplace A) i (v w : dvec A),
  vec_inplace e op i v = Done w -> shape_of w = inplace_shape op (shape_of v).
Proof. exact @inplace_shape_right. Qed.
Print Assumptions C71_inplace.
Theorem C71_conversion : forall {A} `{Num A} `{Flt A} op (v w : dvec A),
  typed v -> vec_conversion op v = Done w -> shape_of w = conversion_shape op (shape_of v).
Proof. exact @conversion_shape_right. Qed.
Print Assumptions C71_conversion.
Theorem C71_buffered : forall {A} `{Num A} `{Flt A} `{F : Fft A} e (op : buffered A) i b (v w : dvec A) b',
  typed v -> vec_buffered e op i b v = Done (w, b') -> shape_of w = buffered_shape op (shape_of v).
Proof. exact @buffered_shape_right. Qed.
Print Assumptions C71_buffered.
(** If there is no error *)
Theorem C71_fallible : forall {A} `{Num A} `{Rem A} `{F : Fft A} e (op : fallible A) i b (v w : dvec A) b',
  typed v -> vec_fallible e op i b v = Done (w, b', Ok tt) -> shape_of w = fallible_shape op (shape_of v).
Proof. exact @fallible_shape_right. Qed.
Print Assumptions C71_fallible.
Theorem C71_inplace_b : forall {A} `{Num A} `{Flt A} `{Rem A} `{Trig A} `{F : Fft A} `{RA : Rounding A} e fits (op : inplace_b A) i b (v w : dvec A) b',
  vec_inplace_b e fits op i b v = Done (w, b') -> shape_of w = inplace_b_shape op (shape_of v).
Proof. exact @inplace_b_shape_right. Qed.
Print Assumptions C71_inplace_b.
Theorem C71_resampling : forall {A} `{Num A} `{Flt A} `{Trig A} `{F : Fft A} e (op : resampling A) i b (v w : dvec A) b',
  vec_resample e op i b v = Done (w, b', Ok tt) -> shape_of w = resampling_shape op (shape_of v).
Proof. exact @resampling_shape_right. Qed.
Print Assumptions C71_resampling.
(** The operand has no influence, whether there is an error or not. *)
Theorem C71_binary : forall {A} `{Num A} e op i (v o w : dvec A) res, vec_binary e op i v o = Done (w, res) -> shape_of w = shape_of v.
Proof. exact @binary_shape_right. Qed.
Print Assumptions C71_binary.
Theorem C71_convolve_signal : forall {A} `{Num A} `{F : Fft A} r addr s sched b (v o w : dvec A) b' res,
  convolve_signal r addr s sched b v o = Done (w, b', res) -> shape_of w = shape_of v.
Proof. exact @convolve_signal_shape. Qed.
Print Assumptions C71_convolve_signal.

Local Instance Zmath_shape : Math Z := {| rmath := fun _ x => x; cmath := fun _ x => x; rpowf := Z.pow;
  cpowf := fun x _ => x; rlog := fun x _ => x; clog := fun x _ => x; cexpf := fun x _ => x |}.
Local Instance Zfft_shape : Fft Z := {| fft_forward := fun c => c; fft_inverse := fun c => c; fft_rest := fun c => c; fft_inplace_scratch_len := fun _ => 0;
  fft_outofplace_scratch_len := fun _ => 0 |}.
Local Instance Zrounding_shape : Rounding Z := {| fround := fun x => x; ffloor := fun x => x; fceil := fun x => x; to_usize := fun x => Some (Z.to_nat x);
  to_isize := fun x => Some x; as_usize := Z.to_nat |}.
(** A complex vector with four points, and a real one *)
Example C71_example : let v := gen true Time [1; 2; 3; 4; 5; 6; 7; 8]%Z in let w := gen false Time [1; 2; 3]%Z in
  typed v /\ typed w /\
  (exists u b, vec_buffered in_peace FFT 0 (SingleBuffer []) v = Done (u, b) /\ shape_of u = Shape 8 (NDyn true) (DDyn Frequency) 4%Z) /\
  (exists u b, vec_buffered in_peace Magnitude_squared_b 0 (SingleBuffer []) v = Done (u, b) /\ shape_of u = Shape 4 (NDyn false) (DDyn Time) 1%Z) /\
  (exists u, vec_inplace in_peace (Decimatei 3 1) 0 v = Done u /\ shape_of u = Shape 2 (NDyn true) (DDyn Time) 1%Z) /\
  (exists u, vec_inplace in_peace Conj 0 w = Done u /\ shape_of u = Shape 0 (NDyn false) (DDyn Time) nnan) /\
  (exists u b, vec_fallible in_peace Sfft 0 (SingleBuffer []) w = Done (u, b, Ok tt) /\ shape_of u = Shape 2 (NDyn true) (DDyn Frequency) 3%Z) /\
  (exists u b, vec_inplace_b in_peace (fun _ => true) (Interpolate_lin 3%Z 0%Z) 0 (SingleBuffer []) w = Done (u, b) /\
    shape_of u = Shape 7 (NDyn false) (DDyn Time) 1%Z).
Proof. intros v w. split; [done|]. split; [done|]. repeat match goal with |- _ /\ _ => split end; repeat eexists; vm_compute; reflexivity. Qed.

(** The transform there and back multiplies the delta twice with the number of points. A generic vector still says that it is in the frequency domain. *)
Theorem C71_fft_ifft : forall {A} `{Num A} `{Flt A} `{F : Fft A} e e' i j b (v w u : dvec A) b1 b' b2,
  typed v -> is_complex v = true -> vdomain v = Time ->
  vec_buffered e FFT i b v = Done (w, b1) -> vec_buffered e' IFFT j b' w = Done (u, b2) ->
  len u = len v /\ is_complex u = true /\ delta u = (nofnat (points v) * (nofnat (points v) * delta v))%num /\
  vdomain u = (if at_run_time v then Frequency else Time).
Proof. exact @there_and_back_shape. Qed.
Print Assumptions C71_fft_ifft.
(** ... so the claim that the delta comes back is wrong for every vector of more than one point. *)
Theorem C71_delta_refuted : forall `{F : Fft R} e e' i j b (v w u : dvec R) b1 b' b2,
  typed v -> is_complex v = true -> vdomain v = Time -> 2 <= points v -> delta v <> 0%R ->
  vec_buffered e FFT i b v = Done (w, b1) -> vec_buffered e' IFFT j b' w = Done (u, b2) -> delta u <> delta v.
Proof. exact @delta_not_restored. Qed.
Print Assumptions C71_delta_refuted.
Example C71_delta_example : let v := mat_vec NComplex DTime [1; 2; 3; 4]%Z in
  typed v /\ is_complex v = true /\ vdomain v = Time /\ points v = 2 /\
  exists w u b1 b2, vec_buffered in_peace FFT 0 (SingleBuffer []) v = Done (w, b1) /\ vec_buffered in_peace IFFT 0 b1 w = Done (u, b2) /\
    delta v = 1%Z /\ delta w = 2%Z /\ delta u = 4%Z /\ vdomain u = Time.
Proof. intros v. do 4 (split; [done|]). do 4 eexists. repeat match goal with |- _ /\ _ => split end; vm_compute; reflexivity. Qed.
(** The number of elements after [sfft] depends on the type of the vector: n + 1 for a vector which is real by its type, n / 2 + 1 for a generic vector with the
    same content. *)
Theorem C71_sfft_refuted : forall {A} `{Num A} `{Rem A} `{F : Fft A} e e' (op : fallible A) i j b (v w v' w' : dvec A) b1 b' b2,
  op = Plain_sfft \/ op = Sfft \/ (exists wd, op = Windowed_sfft wd) ->
  number_space v = NReal -> domain v = DTime -> number_space w = NDyn false -> domain w = DDyn Time -> delta w = delta v -> len w = len v -> 2 <= len v ->
  vec_fallible e op i b v = Done (v', b1, Ok tt) -> vec_fallible e' op j b' w = Done (w', b2, Ok tt) ->
  len v' = len v + 1 /\ len w' = len v / 2 + 1 /\ len v' <> len w' /\
  delta v' = (nofnat (2 * len v) * delta v)%num /\ delta w' = (nofnat (len v) * delta v)%num.
Proof. exact @sfft_types_differ. Qed.
Print Assumptions C71_sfft_refuted.
Example C71_sfft_example : let v := mat_vec NReal DTime [1; 2; 3]%Z in let w := gen false Time [1; 2; 3]%Z in
  typed v /\ typed w /\ elems v = elems w /\
  exists v' w' b1 b2, vec_fallible in_peace Plain_sfft 0 (SingleBuffer []) v = Done (v', b1, Ok tt) /\
    vec_fallible in_peace Plain_sfft 0 (SingleBuffer []) w = Done (w', b2, Ok tt) /\ len v' = 4 /\ len w' = 2 /\ delta v' = 6%Z /\ delta w' = 3%Z.
Proof. intros v w. do 3 (split; [done|]). do 4 eexists. repeat match goal with |- _ /\ _ => split end; vm_compute; reflexivity. Qed.

(** ** Matrices: rows of the same shape have the same shape afterwards, namely the one of the table. *)
Theorem C71_rows_inplace : forall {A} `{Num A} `{Flt A} `{Rem A} `{Trig A} `{Math A} e op s (m m' : matrix A),
  op <> Diff_with_start -> op <> Cum_sum -> alike s m -> mat_inplace e op m = Done m' -> alike (inplace_shape op s) m'.
Proof. exact @mat_inplace_alike. Qed.
Print Assumptions C71_rows_inplace.
(** These two lose the first point of every row, see C39. *)
Theorem C71_rows_diff : forall {A} `{Num A} `{Flt A} `{Rem A} `{Trig A} `{Math A} e op s (m m' : matrix A),
  op = Diff_with_start \/ op = Cum_sum -> alike s m -> mat_inplace e op m = Done m' -> alike (inplace_shape Diff s) m'.
Proof. exact @mat_diff_alike. Qed.
Print Assumptions C71_rows_diff.
Theorem C71_rows_conversion : forall {A} `{Num A} `{Flt A} k op s (m m' : matrix A),
  sh_typed s -> alike s m -> mat_conversion k op m = Done m' -> alike (conversion_shape op s) m'.
Proof. exact @mat_conversion_alike. Qed.
Print Assumptions C71_rows_conversion.
Theorem C71_rows_buffered : forall {A} `{Num A} `{Flt A} `{F : Fft A} e k op s b (m m' : matrix A) b',
  sh_typed s -> alike s m -> mat_buffered e k op b m = Done (m', b') -> alike (buffered_shape op s) m'.
Proof. exact @mat_buffered_alike. Qed.
Print Assumptions C71_rows_buffered.
Theorem C71_rows_fallible : forall {A} `{Num A} `{Rem A} `{F : Fft A} e k op s b (m m' : matrix A) b',
  sh_typed s -> alike s m -> mat_fallible e k op b m = Done (m', b', Ok tt) -> alike (fallible_shape op s) m'.
Proof. exact @mat_fallible_alike. Qed.
Print Assumptions C71_rows_fallible.
Theorem C71_rows_inplace_b : forall {A} `{Num A} `{Flt A} `{Rem A} `{Trig A} `{F : Fft A} `{RA : Rounding A} e fits op s b (m m' : matrix A) b',
  alike s m -> mat_inplace_b e fits op b m = Done (m', b') -> alike (inplace_b_shape op s) m'.
Proof. exact @mat_inplace_b_alike. Qed.
Print Assumptions C71_rows_inplace_b.
Theorem C71_rows_resampling : forall {A} `{Num A} `{Flt A} `{Trig A} `{F : Fft A} e op s b (m m' : matrix A) b',
  alike s m -> mat_resample e op b m = Done (m', b', Ok tt) -> alike (resampling_shape op s) m'.
Proof. exact @mat_resample_alike. Qed.
Print Assumptions C71_rows_resampling.
Theorem C71_rows_binary : forall {A} `{Num A} e op s (m o m' : matrix A) res, alike s m -> mat_binary e op m o = Done (m', res) -> alike s m'.
Proof. exact @mat_binary_alike. Qed.
Print Assumptions C71_rows_binary.
Theorem C71_rows_binary_vec : forall {A} `{Num A} e op s (m : matrix A) o m' res, alike s m -> mat_binary_vec e op m o = Done (m', res) -> alike s m'.
Proof. exact @mat_binary_vec_alike. Qed.
Print Assumptions C71_rows_binary_vec.
Theorem C71_rows_convolve : forall {A} `{Num A} `{F : Fft A} e s b (m : matrix A) imp m' b' res,
  alike s m -> mat_convolve_vector e b m imp = Done (m', b', res) -> alike s m'.
Proof. exact @mat_convolve_vector_alike. Qed.
Print Assumptions C71_rows_convolve.
Theorem C71_rows_set_delta : forall {A} s (m : matrix A) d m', alike s m -> mat_set_delta m d = Done m' -> alike (with_delta d s) m'.
Proof. exact @mat_set_delta_alike. Qed.
Print Assumptions C71_rows_set_delta.
Theorem C71_rows_resize : forall {A} `{Num A} s (m : matrix A) n m', alike s m -> mat_resize m n = Done (m', Ok tt) -> alike (with_len n s) m'.
Proof. exact @mat_resize_alike. Qed.
Print Assumptions C71_rows_resize.

(** What a matrix says about itself is true of every row. *)
Theorem C71_metadata : forall {A} `{Num A} s (m : matrix A) v, alike s m -> v ∈ m ->
  row_len m = len v /\ row_points m = points v /\ mat_domain m = vdomain v /\ mat_is_complex m = is_complex v /\ mat_delta m = delta v.
Proof. exact @mat_metadata_rows. Qed.
Print Assumptions C71_metadata.
Theorem C71_metadata_empty : forall {A} `{Num A}, let m : matrix A := [] in
  row_len m = 0 /\ row_points m = 0 /\ mat_domain m = Time /\ mat_is_complex m = false /\ mat_delta m = n0.
Proof. done. Qed.
Print Assumptions C71_metadata_empty.
(** [get] gives the rows and the length of every row. *)
Theorem C71_get : forall {A} (m : matrix A), exists n, mat_get m = (m, n) /\ forall s v, alike s m -> v ∈ m -> n = len v.
Proof. exact @mat_get_rows. Qed.
Print Assumptions C71_get.
(** Without rows of the same shape this is the length of the first row only. *)
Theorem C71_get_refuted : exists (m : matrix Z) v, v ∈ m /\ snd (mat_get m) <> len v.
Proof. exists [gen false Time [1; 2]%Z; gen false Time [1]%Z], (gen false Time [1]%Z). split; [right; left|done]. Qed.
Print Assumptions C71_get_refuted.
(** Rows of the same shape are what [uniform] of C39 asks for. *)
Theorem C71_uniform : forall {A} s (m : matrix A), alike s m -> uniform m.
Proof. exact @uniform_alike. Qed.
Print Assumptions C71_uniform.
Example C71_rows_example : let m := [gen true Time [1; 2; 3; 4]%Z; gen true Time [5; 6; 7; 8]%Z] in let s := Shape 4 (NDyn true) (DDyn Time) 1%Z in
  sh_typed s /\ alike s m /\
  (exists m' b', mat_buffered in_peace Matrix2xN FFT (SingleBuffer []) m = Done (m', b') /\ alike (Shape 4 (NDyn true) (DDyn Frequency) 2%Z) m') /\
  (exists m' b', mat_buffered in_peace MatrixMxN Magnitude_squared_b (SingleBuffer []) m = Done (m', b') /\ alike (Shape 2 (NDyn false) (DDyn Time) 1%Z) m') /\
  (exists m', mat_binary_vec in_peace Add m (gen true Time [1; 1; 1; 1]%Z) = Done (m', Ok tt) /\ alike s m').
Proof.
  intros m s. split; [done|]. split; [by repeat constructor|]. repeat match goal with |- _ /\ _ => split end; repeat eexists; try (vm_compute; reflexivity); vm_compute; repeat constructor.
Qed.
