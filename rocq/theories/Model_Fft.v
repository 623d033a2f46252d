(** Model of the transforms between time and frequency domain: vector/src/vector_types/time_freq/{mod,time_to_freq,freq_to_time,freq,correlation}.rs.
    No proofs here. *)
From Verif Require Export Model_Convolve Model_Complex.

(** The planned transforms of rustfft. Nothing is assumed about them here; the theorems say when they need the discrete Fourier transform. [fft_rest] is
    what an out-of-place transform leaves behind in its input. *)
(** The plans of time_freq/mod.rs:32-63 and convolution.rs:304-461. *)
Class Fft (A : Type) := {
  fft_forward : list (A * A) -> list (A * A);
  fft_inverse : list (A * A) -> list (A * A);
  fft_rest : list (A * A) -> list (A * A);
  fft_inplace_scratch_len : nat -> nat;
  fft_outofplace_scratch_len : nat -> nat;
}.

(** The types of the results: rededicate_and_relations.rs:143-157 ([ToTimeResult]), 159-181 ([ToFreqResult]), 183-197 ([ToRealTimeResult]) *)
Definition gen_or {A} (v : dvec A) (t : vtype) : vtype :=
  match number_space v, domain v with NDyn _, _ | _, DDyn _ => VGen | _, _ => t end.
(** ToFreqResult: rededicate_and_relations.rs:159-181 *)
Definition freq_result {A} (v : dvec A) : vtype := gen_or v VComplexFreq.
(** ToTimeResult: rededicate_and_relations.rs:143-157 *)
Definition time_result {A} (v : dvec A) : vtype := gen_or v VComplexTime.
(** ToRealTimeResult: rededicate_and_relations.rs:183-197 *)
Definition real_time_result {A} (v : dvec A) : vtype := gen_or v VRealTime.

(** [self.domain.to_freq()] *)
(** meta.rs:55-56, 67-68, 82-88 *)
Definition vec_to_freq {A} (v : dvec A) : dvec A := set_domain v (dm_to_freq (domain v)).

(** A borrow which is dropped without a trade. The content is the one which it was borrowed with: what the operation leaves in it is not modelled. *)
(** time_freq/mod.rs:32-63, convolution.rs:304-461: the borrow goes out of scope. *)
Definition give_back {A} (b : buffer A) (temp : list A) : buffer A :=
  match b with
  | SingleBuffer _ => SingleBuffer temp
  | NoBuffer => NoBuffer
  | FixedLenBuffer store => FixedLenBuffer store
  end.

Section fft.
Context {A : Type} `{Num A} `{Flt A} `{Rem A} `{Trig A} `{F : Fft A}.

(** time_freq/mod.rs:32-63, without GPU support ([use_rust_fft] is true). A transform of no points does nothing. *)
Definition run_fft (transform : list (A * A) -> list (A * A)) (b : buffer A) (v : dvec A) : run (dvec A * buffer A) :=
  let pts := len v / 2 in
  temp ← borrow n0 b (2 * fft_inplace_scratch_len pts);
  let rbw := (nofnat pts * delta v)%num in
  signal ← slice (elems v) 0 (len v);
  signal ← array_to_complex signal;
  l ← splice (elems v) 0 (complex_to_array (transform signal));
  Done (set_delta (set_elems v l) rbw, give_back b temp).

(** The branch which is the same in all transforms: time_to_freq.rs:140-145, 202-210, 234-242, freq_to_time.rs:142-147, ... *)
Definition invalid_transform (t : vtype) (v : dvec A) : dvec A :=
  rededicate_from_force t (vec_to_freq (vec_to_complex (mark_vector_as_invalid v))).

(** time_to_freq.rs:136-156 *)
Definition plain_fft (b : buffer A) (v : dvec A) : run (dvec A * buffer A) :=
  if negb (ddomain_eqb (vdomain v) Time) then Done (invalid_transform (freq_result v) v, b)
  else
    let t := freq_result v in
    '(v, b) ← (if negb (is_complex v) then '(v', b') ← zero_interleave_b n0 b v 2; Done (vec_to_complex v', b') else Done (v, b));
    '(v, b) ← run_fft fft_forward b v;
    Done (rededicate_from_force t (vec_to_freq v), b).
(** time_to_freq.rs:158-165 *)
Definition vfft (b : buffer A) (v : dvec A) : run (dvec A * buffer A) :=
  '(v, b) ← plain_fft b v;
  v ← fft_shift v;
  Done (v, b).
(** time_to_freq.rs:167-175 *)
Definition windowed_fft (w : window A) (s : settings) (sched : list nat) (b : buffer A) (v : dvec A) : run (dvec A * buffer A) :=
  v ← apply_window w s sched v;
  '(v, b) ← plain_fft b v;
  v ← fft_shift v;
  Done (v, b).

(** time_to_freq.rs:178-186 unmirror!: the length is given to [resize] as a number of elements. [expect] on the result. *)
Definition unmirror (v : dvec A) (pts : nat) : run (dvec A) :=
  match Model_Vec.resize n0 v (pts / 2 + 1) with (v', Ok _) => Done v' | _ => Panicked end.

(** time_to_freq.rs:198-228, 230-260, 262-297: [prepare] is the window and [f] the transform *)
Definition symmetric_fft (prepare : dvec A -> run (dvec A)) (f : buffer A -> dvec A -> run (dvec A * buffer A)) (b : buffer A) (v : dvec A) :
    run (dvec A * buffer A * result unit) :=
  if negb (ddomain_eqb (vdomain v) Time) || is_complex v then Done (invalid_transform (freq_result v) v, b, Err InputMustBeInTimeDomain)
  else if points v mod 2 =? 0 then Done (invalid_transform (freq_result v) v, b, Err InputMustHaveAnOddLength)
  else
    '(v, b) ← zero_interleave_b n0 b v 2;
    let v := vec_to_complex v in
    v ← prepare v;
    let pts := points v in
    '(v, b) ← f b v;
    v ← unmirror v pts;
    Done (v, b, Ok tt).
(** time_to_freq.rs:198-228 *)
Definition plain_sfft := symmetric_fft (fun v => Done v) plain_fft.
(** time_to_freq.rs:230-260 *)
Definition sfft := symmetric_fft (fun v => Done v) vfft.
(** time_to_freq.rs:262-297 *)
Definition windowed_sfft (w : window A) (s : settings) (sched : list nat) := symmetric_fft (apply_window w s sched) vfft.

(** freq_to_time.rs:138-158: ends with [to_freq()] *)
Definition plain_ifft (b : buffer A) (v : dvec A) : run (dvec A * buffer A) :=
  if negb (ddomain_eqb (vdomain v) Frequency) then Done (invalid_transform (time_result v) v, b)
  else
    let t := time_result v in
    '(v, b) ← (if negb (is_complex v) then '(v', b') ← zero_interleave_b n0 b v 2; Done (vec_to_complex v', b') else Done (v, b));
    '(v, b) ← run_fft fft_inverse b v;
    Done (rededicate_from_force t (vec_to_freq v), b).
(** freq_to_time.rs:160-168 *)
Definition vifft (r : reg_type) (addr : nat) (s : settings) (sched : list nat) (b : buffer A) (v : dvec A) : run (dvec A * buffer A) :=
  v ← scale_real r addr s sched (n1 / nofnat (points v))%num v;
  v ← ifft_shift v;
  plain_ifft b v.
(** freq_to_time.rs:170-177 *)
Definition windowed_ifft (w : window A) (r : reg_type) (addr : nat) (s : settings) (sched sched' : list nat) (b : buffer A) (v : dvec A) :
    run (dvec A * buffer A) :=
  '(v, b) ← vifft r addr s sched b v;
  v ← unapply_window w s sched' v;
  Done (v, b).

(** freq.rs:52-83. [2 * len - step] underflows for an empty vector. The counter [i] stops at [len - 1], which is not negative. *)
Definition mirror (b : buffer A) (v : dvec A) : run (dvec A * buffer A) :=
  if negb (ddomain_eqb (vdomain v) Frequency) && negb (is_complex v) then Done (mark_vector_as_invalid v, b)
  else
    let n := len v in
    temp_len ← usub (2 * n) 2;
    temp ← borrow n0 b temp_len;
    src ← slice (elems v) 2 n;
    temp ← copy_into temp 2 n src;
    src ← slice (elems v) 0 2;
    temp ← copy_into temp 0 2 src;
    i ← usub temp_len 1;
    '(_, _, temp) ← while_ (temp_len + 1) (fun '(i, j, temp) => n <=? i) (fun '(i, j, temp) =>
        x ← rd (elems v) j;
        temp ← wr temp i (nopp x);
        j' ← usub j 1;
        y ← rd (elems v) j';
        i' ← usub i 1;
        temp ← wr temp i' y;
        i ← usub i 2;
        Done (i, j + 2, temp)) (i, 3, temp);
    let '(st, b') := trade b temp (Model_Vec.data v) in
    Done (set_data (set_valid_len v temp_len) st, b').

(** freq_to_time.rs:186-221; 1e-10 is [tolerance] *)
Definition tolerance : A := (n1 / (nofnat 10 * nofnat 10 * nofnat 10 * nofnat 10 * nofnat 10 * nofnat 10 * nofnat 10 * nofnat 10 * nofnat 10 * nofnat 10))%num.
(** freq_to_time.rs:190-221 *)
Definition plain_sifft (s : settings) (sched : list nat) (b : buffer A) (v : dvec A) : run (dvec A * buffer A * result unit) :=
  let t := real_time_result v in
  if negb (ddomain_eqb (vdomain v) Frequency) || negb (is_complex v) then Done (invalid_transform t v, b, Err InputMustBeInFrequencyDomain)
  else
    asymmetric ← (if 0 <? points v then x ← rd (elems v) 1; Done (nltb tolerance (fabs x)) else Done false);
    if asymmetric : bool then Done (invalid_transform t v, b, Err InputMustBeConjSymmetric)
    else
      '(v, b) ← mirror b v;
      '(v, b) ← run_fft fft_inverse b v;
      let v := vec_to_freq v in
      '(v, b) ← pure_complex_to_real_operation n0 s sched b fst Small v;
      Done (rededicate_from_force t v, b, Ok tt).
(** freq_to_time.rs:223-234 *)
Definition sifft (r : reg_type) (addr : nat) (s : settings) (sched sched' : list nat) (b : buffer A) (v : dvec A) :
    run (dvec A * buffer A * result unit) :=
  v ← scale_complex r addr s sched (n1 / nofnat (points v), n0)%num v;
  v ← ifft_shift v;
  plain_sifft s sched' b v.
(** freq_to_time.rs:236-247: [?] returns early with the error *)
Definition windowed_sifft (w : window A) (r : reg_type) (addr : nat) (s : settings) (sched sched' sched'' : list nat) (b : buffer A) (v : dvec A) :
    run (dvec A * buffer A * result unit) :=
  '(v, b, res) ← sifft r addr s sched sched' b v;
  match res with
  | Err e => Done (v, b, Err e)
  | Ok _ => v ← unapply_window w s sched'' v; Done (v, b, Ok tt)
  end.

(** ** Correlation *)

(** correlation.rs:96-103 *)
Definition prepare_argument (r : reg_type) (addr : nat) (s : settings) (sched : list nat) (b : buffer A) (v : dvec A) : run (dvec A * buffer A) :=
  '(v, b) ← plain_fft b v;
  v ← vconj r addr s sched v;
  Done (v, b).
(** correlation.rs:105-117: [expect] on the result of zero_pad_b *)
Definition prepare_argument_padded (r : reg_type) (addr : nat) (s : settings) (sched : list nat) (b : buffer A) (v : dvec A) : run (dvec A * buffer A) :=
  pts ← usub (2 * points v) 1;
  '(v, b, res) ← zero_pad_b n0 b v pts Surround;
  match res with
  | Err _ => Panicked
  | Ok _ => prepare_argument r addr s sched b v
  end.

(** vector_types/mod.rs:641-688: the buffer which is made of a borrow of the whole buffer. A borrowed [Vec] can be resized, a borrowed slice only
    down to its length. Trading does nothing, but the transforms of complex vectors do not trade. *)
Definition no_trade {A} (b : buffer A) : buffer A :=
  match b with
  | SingleBuffer temp => SingleBuffer temp
  | NoBuffer => SingleBuffer []
  | FixedLenBuffer store => FixedLenBuffer store
  end.

(** correlation.rs:131-163. [complex] and [other] are vectors which borrow the valid data ([to_complex_time_vec], [to_complex_freq_vec] of slices,
    support_core.rs:217-240); the delta of [complex] is lost in the end. *)
Definition correlate (r : reg_type) (addr : nat) (s : settings) (sched sched' : list nat) (b : buffer A) (v o : dvec A) :
    run (dvec A * buffer A * result unit) :=
  let invalid := vec_to_freq (vec_to_complex (mark_vector_as_invalid v)) in
  if negb (ddomain_eqb (vdomain v) Time) || negb (is_complex v) then Done (invalid, b, Err InputMustBeInTimeDomain)
  else if negb (ddomain_eqb (vdomain o) Frequency) || negb (is_complex o) then Done (invalid, b, Err InputMustBeInTimeDomain)
  else
    '(v, b, res) ← zero_pad_b n0 b v (points o) Surround;
    match res with
    | Err e => Done (v, b, Err e)
    | Ok _ =>
        d ← vdata v;
        complex ← construct ToComplexTime (Storage KSliceMut (length d) d);
        '(complex, _) ← plain_fft (no_trade b) complex;
        od ← vdata o;
        other ← construct ToComplexFreq (Storage KSlice (length od) od);
        '(complex, res) ← vmul r addr s sched complex (set_delta other (delta complex));
        l ← splice (elems v) 0 (elems complex);
        match res with
        | Err e => Done (set_elems v l, b, Err e)
        | Ok _ =>
            '(complex, _) ← plain_ifft (no_trade b) complex;
            l ← splice (elems v) 0 (elems complex);
            v ← scale_real r addr s sched' (n1 / nofnat (points v))%num (set_elems v l);
            v ← swap_halves v;
            Done (v, b, Ok tt)
        end
    end.
End fft.
