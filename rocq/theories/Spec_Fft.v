(** Specification vocabulary for the transforms, over the real numbers. *)
From Verif Require Export Spec_Convolve Spec_Complex Model_Fft NumsTrig.
Local Open Scope R_scope.

(** The complex number at [k] steps of [n] steps around the unit circle *)
Definition turn (n : nat) (k : Z) : R * R := (cos (2 * PI * IZR k / INR n), sin (2 * PI * IZR k / INR n)).

(** The discrete Fourier transform: [X_k = sum_j c_j * e^(sign * 2 pi i j k / n)], with sign -1 for the forward and 1 for the (unscaled) inverse
    transform *)
Definition dft (sign : Z) (c : list (R * R)) : list (R * R) :=
  map (fun k => series (0, 0) complex_sum (length c) (fun j =>
         complex_product (default (0, 0) (c !! j)) (turn (length c) (sign * (Z.of_nat j * Z.of_nat k))))) (seq 0 (length c)).

(** What is expected of rustfft *)
Definition computes_dft `{Fft R} : Prop :=
  (forall c, fft_forward c = dft (-1) c) /\ (forall c, fft_inverse c = dft 1 c) /\ (forall c, length (fft_rest c) = length c).

(** Such a transform exists. *)
Definition exact_fft : Fft R := {|
  fft_forward := dft (-1); fft_inverse := dft 1; fft_rest := fun c => map (fun _ => (0, 0)) c;
  fft_inplace_scratch_len := fun n => n; fft_outofplace_scratch_len := fun _ => 0%nat |}.

(** The buffer has room for [n] elements. *)
Definition spare {A} (b : buffer A) (n : nat) : Prop := match b with FixedLenBuffer store => (n <= length store)%nat | _ => True end.
(** ... and still has the room which it had. *)
Definition still_spare {A} (b b' : buffer A) : Prop := forall n, spare b n -> spare b' n.
(** The meta data is kept at run time. *)
Definition runtime {A} (v : dvec A) : Prop := exists c d, number_space v = NDyn c /\ domain v = DDyn d.

(** The circular cross correlation: point [i] is the sum over [k] of [x_(i + k) * conj y_k]. *)
Definition conjugated (x : R * R) : R * R := (fst x, - snd x).
Definition circular_correlation (x y : list (R * R)) : list (R * R) :=
  map (fun i => series (0, 0) complex_sum (length y) (fun k =>
         complex_product (around (0, 0) x (Z.of_nat i + Z.of_nat k)) (conjugated (default (0, 0) (y !! k))))) (seq 0 (length x)).
(** The cross correlation of two signals which are zero outside of their points, for all lags from [- (n - 1)] to [n - 1] *)
Definition outside (x : list (R * R)) (z : Z) : R * R := if (z <? 0)%Z then (0, 0) else default (0, 0) (x !! Z.to_nat z).
Definition cross_correlation (x y : list (R * R)) : list (R * R) :=
  map (fun i => series (0, 0) complex_sum (length y) (fun k =>
         complex_product (outside x (Z.of_nat k + Z.of_nat i - (Z.of_nat (length x) - 1))) (conjugated (default (0, 0) (y !! k))))) (seq 0 (2 * length x - 1)).

(** The points [c] followed by their conjugates in reverse order, without the first point: point [2 n - 1 - k] is the conjugate of point [k]. *)
Definition conj_mirrored {A} `{Num A} (c c' : list (A * A)) : Prop :=
  length c' = (2 * length c - 1)%nat /\ (forall k, (k < length c)%nat -> c' !! k = c !! k) /\
  (forall k x, (1 <= k)%nat -> c !! k = Some x -> c' !! (2 * length c - 1 - k)%nat = Some (fst x, nopp (snd x))).
(** Whatever the buffer could lend for the vector, it can still lend for the new vector. *)
Definition still_lends {A} (b : buffer A) (v : dvec A) (b' : buffer A) (v' : dvec A) : Prop := forall n, lends b v n -> lends b' v' n.
(** The storage is aligned to half a register and to a complex number, so that all SIMD operations work. *)
Definition aligned_all (r : reg_type) (addr : nat) : Prop := reg_ok r /\ elem_aligned r addr /\ half_aligned r addr /\ point_aligned r addr.
