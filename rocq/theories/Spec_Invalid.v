(** Specification of what an operation needs from its vector: the trait bounds of the [impl] which has the method. *)
From Verif Require Export Model_Interop Spec_Complex Spec_Fft.

(** [r_space]: [Some true] is [ComplexNumberSpace], [Some false] is [RealNumberSpace]; [r_domain]: [TimeDomain] or [FrequencyDomain]; [None]: any *)
Record requirement := Req { r_space : option bool; r_domain : option ddomain }.
Definition anything : requirement := Req None None.
Definition a_real : requirement := Req (Some false) None.
Definition a_complex : requirement := Req (Some true) None.
Definition in_time : requirement := Req None (Some Time).
Definition in_frequency : requirement := Req None (Some Frequency).
Definition a_real_in_time : requirement := Req (Some false) (Some Time).
Definition a_complex_in_time : requirement := Req (Some true) (Some Time).
Definition a_complex_in_frequency : requirement := Req (Some true) (Some Frequency).

(** The vector isn't what is needed. *)
Definition lacks {A} (q : requirement) (v : dvec A) : Prop :=
  (exists c, r_space q = Some c /\ is_complex v <> c) \/ (exists d, r_domain q = Some d /\ vdomain v <> d).

(** A generic vector: its number space and its domain are values, so that every method can be called *)
Definition generic {A} (v : dvec A) : Prop := (exists c, number_space v = NDyn c) /\ (exists d, domain v = DDyn d).

Definition inplace_needs {A} (op : inplace A) : requirement :=
  match op with
  | Scale_complex _ | Offset_complex _ | Map_inplace_complex _ | Conj | Multiply_complex_exponential _ _ => a_complex
  | Map_inplace _ | Abs | Wrap _ | Unwrap _ | Approximated _ => a_real
  | Fft_shift | Ifft_shift => a_complex_in_frequency
  | Apply_window _ | Unapply_window _ => in_time
  | Multiply_real_response _ _ => in_frequency
  | Multiply_complex_response _ _ => a_complex_in_frequency
  | _ => anything
  end.
Definition conversion_needs (op : conversion) : requirement :=
  match op with Magnitude | Magnitude_squared | To_real | To_imag | Phase => a_complex | _ => anything end.
Definition buffered_needs {A} (op : buffered A) : requirement :=
  match op with
  | Magnitude_b | Magnitude_squared_b | To_real_b | To_imag_b | Phase_b => a_complex
  | To_complex_b => a_real
  | Plain_fft | FFT | Windowed_fft _ => in_time
  | Plain_ifft | IFFT | Windowed_ifft _ => a_complex_in_frequency
  | Prepare_argument | Prepare_argument_padded => a_complex_in_time
  end.
Definition fallible_needs {A} (op : fallible A) : requirement :=
  match op with
  | To_complex => a_real
  | Plain_sfft | Sfft | Windowed_sfft _ => a_real_in_time
  | Plain_sifft | Sifft | Windowed_sifft _ => a_complex_in_frequency
  end.
Definition inplace_b_needs {A} (op : inplace_b A) : requirement :=
  match op with
  | Mirror => a_complex_in_frequency
  | Interpolate_hermite _ _ | Interpolate_lin _ _ => a_real
  | Convolve_real _ _ _ => in_time
  | Convolve_complex _ _ _ => a_complex_in_time
  | Interpolatef _ _ _ _ | Interpft _ => anything
  end.

(** The methods which don't look at what they need *)
Definition unaware {A} (op : inplace A) : Prop :=
  match op with Fft_shift | Ifft_shift | Apply_window _ | Unapply_window _ => True | _ => False end.
(** The methods which turn a real vector into a complex one instead of rejecting it *)
Definition lenient {A} (op : buffered A) : Prop :=
  match op with Plain_ifft | IFFT | Windowed_ifft _ | Prepare_argument | Prepare_argument_padded => True | _ => False end.

(** The calls of a history *)
From Verif Require Export Spec_History.
Definition call_needs {A} (c : call A) : requirement :=
  match c with
  | C_inplace op => inplace_needs op
  | C_conversion op => conversion_needs op
  | C_buffered op _ => buffered_needs op
  | C_fallible op _ => fallible_needs op
  | C_inplace_b op _ => inplace_b_needs op
  | C_set _ _ _ => a_complex
  | C_get _ _ | C_get_first _ _ _ | C_get_second _ _ _ => a_real
  | C_correlate _ _ => a_complex_in_time
  | C_convolve_signal _ _ => in_time
  | _ => anything
  end.
(** The calls which don't look at what they need, or which do something else than marking the vector:
    - [fft_shift], [ifft_shift], the windows and the setters don't look;
    - the transforms which make a real vector complex; the domain is looked at;
    - [mirror] only rejects a vector if both are wrong;
    - [to_complex] and [convolve_signal] return an error, the getters empty their target. *)
Definition unchecked {A} (c : call A) (v : dvec A) : Prop :=
  match c with
  | C_inplace op => unaware op
  | C_buffered op _ => lenient op /\ r_domain (buffered_needs op) = Some (vdomain v)
  | C_fallible To_complex _ => True
  | C_inplace_b Mirror _ => vdomain v = Frequency \/ is_complex v = true
  | C_set _ _ _ | C_get _ _ | C_get_first _ _ _ | C_get_second _ _ _ | C_convolve_signal _ _ => True
  | _ => False
  end.
