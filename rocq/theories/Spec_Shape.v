(** Specification of what a call makes of the length and the meta data of its vector: a table which doesn't look at the elements of the vector. *)
From Verif Require Export Spec_Invalid.

(** What an observer sees who doesn't look at the elements *)
Record shape (A : Type) := Shape { sh_len : nat; sh_space : nspace; sh_domain : dmarker; sh_delta : A }.
Arguments Shape {A}. Arguments sh_len {A}. Arguments sh_space {A}. Arguments sh_domain {A}. Arguments sh_delta {A}.
Definition shape_of {A} (v : dvec A) : shape A := Shape (len v) (number_space v) (domain v) (delta v).
Definition sh_complex {A} (s : shape A) : bool := match sh_space s with NReal => false | NComplex => true | NDyn c => c end.
Definition sh_dom {A} (s : shape A) : ddomain := match sh_domain s with DTime => Time | DFreq => Frequency | DDyn d => d end.
(** The number of samples *)
Definition sh_points {A} (s : shape A) : nat := if sh_complex s then sh_len s / 2 else sh_len s.

Definition with_len {A} (n : nat) (s : shape A) : shape A := Shape n (sh_space s) (sh_domain s) (sh_delta s).
Definition with_delta {A} (d : A) (s : shape A) : shape A := Shape (sh_len s) (sh_space s) (sh_domain s) d.
(** The type of a generic vector stays generic: only its values change. *)
Definition as_space {A} (c : bool) (s : shape A) : shape A :=
  Shape (sh_len s) (match sh_space s with NDyn _ => NDyn c | _ => if c then NComplex else NReal end) (sh_domain s) (sh_delta s).
Definition as_domain {A} (d : ddomain) (s : shape A) : shape A :=
  Shape (sh_len s) (sh_space s) (match sh_domain s, d with DDyn _, _ => DDyn d | _, Time => DTime | _, Frequency => DFreq end) (sh_delta s).
Definition typed_as {A} (t : vtype) (s : shape A) : shape A :=
  match t with
  | VRealTime => Shape (sh_len s) NReal DTime (sh_delta s)
  | VRealFreq => Shape (sh_len s) NReal DFreq (sh_delta s)
  | VComplexTime => Shape (sh_len s) NComplex DTime (sh_delta s)
  | VComplexFreq => Shape (sh_len s) NComplex DFreq (sh_delta s)
  | VGen => Shape (sh_len s) (NDyn (sh_complex s)) (DDyn (sh_dom s)) (sh_delta s)
  end.

(** The requirement of a method is met. *)
Definition same_domain (a b : ddomain) : bool := match a, b with Time, Time | Frequency, Frequency => true | _, _ => false end.
Definition meets {A} (q : requirement) (s : shape A) : bool :=
  match r_space q with Some c => Bool.eqb c (sh_complex s) | None => true end &&
  match r_domain q with Some d => same_domain d (sh_dom s) | None => true end.
(** Nothing is left, and the delta says that something went wrong. *)
Definition emptied {A} `{Num A} (s : shape A) : shape A := with_delta nnan (with_len 0 s).

Section tables.
Context {A : Type} `{Num A} `{Flt A} `{Rounding A}.
Notation shape := (shape A).

(** In place *)
Definition inplace_shape (op : inplace A) (s : shape) : shape :=
  match op with
  | Set_delta d => with_delta d s
  | Diff => with_len (sh_len s - (if sh_complex s then 2 else 1)) s
  | Decimatei k d => let n := (sh_points s - d + (k - 1)) / k in with_len (if sh_complex s then 2 * n else n) s
  | Fft_shift | Ifft_shift | Apply_window _ | Unapply_window _ => s
  | _ => if meets (inplace_needs op) s then s else emptied s
  end.
(** One number per point *)
Definition halved (s : shape) : shape := if sh_complex s then as_space false (with_len (sh_len s / 2) s) else emptied (as_space false s).
Definition conversion_shape (op : conversion) (s : shape) : shape :=
  match op with
  | Rededicate_from_force t => typed_as t s
  | Rededicate_with_runtime_data VGen c d => Shape (sh_len s) (NDyn c) (DDyn d) (sh_delta s)
  | Rededicate_with_runtime_data t _ _ => typed_as t s
  | _ => halved s
  end.
(** Imaginary parts are added. *)
Definition doubled (s : shape) : shape := if sh_complex s then s else as_space true (with_len (2 * sh_len s) s).
(** The transforms: real numbers become complex ones, the delta is multiplied with the number of points. *)
Definition transformed (s : shape) : shape := let s' := doubled s in with_delta (nofnat (sh_points s') * sh_delta s')%num s'.
Definition to_frequency (s : shape) : shape :=
  match sh_dom s with Time => as_domain Frequency (transformed s) | Frequency => emptied (as_space true s) end.
(** What comes back from the frequency domain has the type of a time domain vector. A generic vector still says that it is in the frequency domain. *)
Definition back_to (c : bool) (s : shape) : shape := as_space c (match sh_domain s with DDyn _ => as_domain Frequency s | _ => as_domain Time s end).
Definition from_frequency (s : shape) : shape :=
  match sh_dom s with Frequency => back_to true (transformed s) | Time => back_to true (emptied s) end.
Definition buffered_shape (op : buffered A) (s : shape) : shape :=
  match op with
  | Magnitude_b | Magnitude_squared_b | To_real_b | To_imag_b | Phase_b => halved s
  | To_complex_b => if sh_complex s then emptied (as_space true s) else doubled s
  | Plain_fft | FFT | Windowed_fft _ => to_frequency s
  | Plain_ifft | IFFT | Windowed_ifft _ => from_frequency s
  | Prepare_argument => to_frequency s
  | Prepare_argument_padded => let n := 2 * sh_points s - 1 in to_frequency (with_len (if sh_complex s then 2 * n else n) s)
  end.
(** ... if there is no error *)
Definition fallible_shape (op : fallible A) (s : shape) : shape :=
  match op with
  | To_complex => doubled s
  | Plain_sfft | Sfft | Windowed_sfft _ =>
      (* A vector whose type says that it is real gets its zeros twice. *)
      match sh_space s with
      | NDyn _ => with_len (sh_len s / 2 + 1) (to_frequency s)
      | _ => with_len (sh_len s + 1) (to_frequency (with_len (2 * sh_len s) s))
      end
  | Plain_sifft | Sifft | Windowed_sifft _ =>
      (* [2 * n - 1] real numbers for [n] points. A generic vector still says that it is a complex vector in the frequency domain. *)
      let n := sh_len s - 1 in
      let s' := with_delta (nofnat n * sh_delta s)%num (with_len n s) in
      match sh_space s with NDyn _ => s' | _ => as_space false (as_domain Time s') end
  end.
(** In place with a buffer. [interpolated n f] is the number of elements which [n] elements become. *)
Definition interpolated (n : nat) (f : A) : nat := default 0 (to_usize (fround (nofnat n * f)%num)).
Definition inplace_b_shape (op : inplace_b A) (s : shape) : shape :=
  match op with
  | Mirror => match sh_complex s, sh_dom s with false, Time => emptied s | _, _ => with_len (2 * sh_len s - 2) s end
  | Interpolate_hermite f _ | Interpolate_lin f _ => if sh_complex s then emptied s else with_len (interpolated (sh_len s - 1) f + 1) s
  | Convolve_real _ _ _ | Convolve_complex _ _ _ => if meets (inplace_b_needs op) s then s else emptied s
  | Interpolatef _ f _ _ => let n := interpolated (sh_len s) f in with_len (if Nat.even n then n else n + 1) s
  | Interpft n => with_delta (sh_delta s / (nofnat n / nofnat (sh_points s)))%num (with_len (if sh_complex s then 2 * n else n) s)
  end.
(** ... if there is no error *)
Definition resampling_shape (op : resampling A) (s : shape) : shape :=
  match op with
  | Interpolatei _ k => if k <=? 1 then s else with_len (k * sh_len s) s
  | Interpolate _ n _ => with_delta (sh_delta s / (nofnat n / nofnat (sh_points s)))%num (with_len (if sh_complex s then 2 * n else n) s)
  end.
End tables.

(** Number space and domain are both fixed by the type, or both kept at run time. *)
Definition sh_typed {A} (s : shape A) : Prop :=
  match sh_space s, sh_domain s with NDyn _, DDyn _ => True | NDyn _, _ | _, DDyn _ => False | _, _ => True end.
(** The vector keeps its domain at run time. *)
Definition at_run_time {A} (v : dvec A) : bool := match domain v with DDyn _ => true | _ => false end.
(** The rows of a matrix have the same shape. *)
Definition alike {A} (s : shape A) (m : matrix A) : Prop := Forall (fun v => shape_of v = s) m.
