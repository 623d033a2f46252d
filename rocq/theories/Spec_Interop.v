(** Specification for the C interface (C40) *)
From Verif Require Export Spec Spec_Complex Model_Interop.
Local Open Scope nat_scope.

(** The error codes of the documentation of the interface, beginning with 1 (interop/src/lib.rs:107-122) *)
Definition documented : list error_reason :=
  [InputMustHaveTheSameSize; InputMetaDataMustAgree; InputMustBeComplex; InputMustBeReal; InputMustBeInTimeDomain; InputMustBeInFrequencyDomain;
   InvalidArgumentLength; InputMustBeConjSymmetric; InputMustHaveAnOddLength; ArgumentFunctionMustBeSymmetric; InvalidNumberOfArgumentsForCombinedOp;
   InputMustNotBeEmpty].
(** The code which tells the outcome of an operation: 0 for success, -1 for a vector which was marked as invalid, else the number of the error. 13 and 14 are
    not documented. *)
Definition tells {A} (erroneous : dvec A -> bool) (v : dvec A) (res : result unit) (code : Z) : Prop :=
  match res with
  | Ok _ => code = if erroneous v then (-1)%Z else 0%Z
  | Err e => (exists k, documented !! k = Some e /\ code = Z.of_nat (k + 1)) \/ (e = InputMustHaveAnEvenLength /\ code = 13%Z) \/ (e = TypeCanNotResize /\ code = 14%Z)
  end.

(** The method of the vectors with the name of the function. Windows, padding options and responses with a number are the documented ones
    (facade64.rs:323-330, 972-979, 1226-1231, 1288-1293; other numbers: the last one). *)
Section named.
Context {A : Type} `{Num A} `{Flt A} `{Rem A} `{Trig A} `{Math A} `{F : Fft A} `{RA : Rounding A}.
Context (e : env) (fits : nat -> bool).
Definition numbered {X} (l : list X) (other : X) (k : Z) : X := if (k <? 0)%Z then other else default other (l !! Z.to_nat k).
Definition window_no : Z -> window A := numbered [triangular_window; hamming_default; blackman_harris_window; rectangular_window] rectangular_window.
Definition padding_no : Z -> padding := numbered [End; Surround; Center] Center.
(** A signed number read as an unsigned one of 32 bits *)
Definition u32_of (k : Z) : nat := Z.to_nat (if (k <? 0)%Z then k + 4294967296 else k)%Z.
Definition plain {R} (m : run R) (f : R -> dvec A * buffer A * result unit) : run (dvec A * buffer A * result unit) :=
  match m with Done r => Done (f r) | Panicked => Panicked end.
Definition named (c : foreign A) (b : buffer A) (v : dvec A) : run (dvec A * buffer A * result unit) :=
  let in_place op := plain (vec_inplace e op 0 v) (fun w => (w, b, Ok tt)) in
  let with_buffer m := plain m (fun '(w, b) => (w, b, Ok tt)) in
  let failing m := plain m (fun '(w, res) => (w, b, res)) in
  match c with
  | F_inplace op => in_place op
  | F_complex_divide z => in_place (Scale_complex (cdiv (n1, n0) z))
  | F_binary op o => failing (vec_binary e op 0 v (i_vec o))
  | F_zero_pad n k => zero_pad_b n0 b v n (padding_no k)
  | F_zero_interleave k => with_buffer (zero_interleave_b n0 b v (u32_of k))
  | F_apply_window w => in_place (Apply_window (window_no w))
  | F_unapply_window w => in_place (Unapply_window (window_no w))
  | F_windowed_fft w => with_buffer (vec_buffered e (Windowed_fft (window_no w)) 0 b v)
  | F_windowed_sfft w => vec_fallible e (Windowed_sfft (window_no w)) 0 b v
  | F_windowed_ifft w => with_buffer (vec_buffered e (Windowed_ifft (window_no w)) 0 b v)
  | F_windowed_sifft w => vec_fallible e (Windowed_sifft (window_no w)) 0 b v
  | F_multiply_frequency_response h rolloff ratio => in_place (Multiply_real_response (if (h =? 0)%Z then sinc_freq else raised_cosine_freq rolloff) ratio)
  | F_buffered op => with_buffer (vec_buffered e op 0 b v)
  | F_fallible op => vec_fallible e op 0 b v
  | F_inplace_b op => with_buffer (vec_inplace_b e fits op 0 b v)
  | F_set op p q => failing (vec_setter2 op v (i_vec p) (i_vec q))
  | F_merge l => failing (vmerge n0 v (map i_vec l))
  | F_correlate o => correlate (e_reg e) (e_addr e 0) (e_set e) (e_sched e 0 0) (e_sched e 0 1) b v (i_vec o)
  | F_convolve_signal o => convolve_signal (e_reg e) (e_addr e 0) (e_set e) (e_sched e 0 0) b v (i_vec o)
  | F_convolve h rolloff ratio n =>
      with_buffer (vec_inplace_b e fits (Convolve_real (r_calc (if (h =? 0)%Z then sinc_time else raised_cosine_time rolloff)) ratio n) 0 b v)
  | F_interpolatef h rolloff factor delay n =>
      with_buffer (vec_inplace_b e fits (Interpolatef (if (h =? 0)%Z then sinc_time else raised_cosine_time rolloff) factor delay n) 0 b v)
  | F_interpolate_custom h n delay => vec_resample e (Interpolate (Some h) n delay) 0 b v
  | F_interpolate h rolloff n delay => vec_resample e (Interpolate (Some (if (h =? 0)%Z then sinc_freq else raised_cosine_freq rolloff)) n delay) 0 b v
  | F_interpolatei_custom h k => vec_resample e (Interpolatei h (u32_of k)) 0 b v
  | F_interpolatei h rolloff k => vec_resample e (Interpolatei (if (h =? 0)%Z then sinc_freq else raised_cosine_freq rolloff) (u32_of k)) 0 b v
  end.
(** The numbers which are signed of 32 bits in the interface *)
Definition in_range (c : foreign A) : Prop :=
  match c with F_zero_interleave k | F_interpolatei _ _ k | F_interpolatei_custom _ k => (-2147483648 <= k < 2147483648)%Z | _ => True end.
End named.
