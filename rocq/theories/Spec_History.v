(** Histories of calls on one vector. Everything else which a call needs (other vectors, buffers, numbers, functions) is arbitrary. *)
From Verif Require Export Model_Interop Spec Spec_Complex.

(** A call of a method of the vector, or of a method of another vector which has this one as a target *)
Inductive call (A : Type) :=
| C_inplace (op : inplace A)
| C_binary (op : binary) (o : dvec A)
| C_conversion (op : conversion)
| C_rededicate (t : vtype)
| C_buffered (op : buffered A) (b : buffer A)
| C_fallible (op : fallible A) (b : buffer A)
| C_inplace_b (op : inplace_b A) (b : buffer A)
| C_resample (op : resampling A) (b : buffer A)
| C_set (op : setter2) (x y : dvec A)
| C_get (op : getter) (source : dvec A)
| C_get_first (op : getter2) (source other : dvec A)
| C_get_second (op : getter2) (source other : dvec A)
| C_correlate (o : dvec A) (b : buffer A)
| C_convolve_signal (o : dvec A) (b : buffer A)
| C_merge (sources : list (dvec A))
| C_split (source : dvec A) (before after : list (dvec A))
| C_zero_pad (n : nat) (o : padding)
| C_zero_pad_b (n : nat) (o : padding) (b : buffer A)
| C_zero_interleave (factor : nat)
| C_zero_interleave_b (factor : nat) (b : buffer A)
| C_resize (n : nat)
| C_resize_b (n : nat) (b : buffer A).
Arguments C_inplace {A}. Arguments C_binary {A}. Arguments C_conversion {A}. Arguments C_rededicate {A}. Arguments C_buffered {A}. Arguments C_fallible {A}.
Arguments C_inplace_b {A}. Arguments C_resample {A}. Arguments C_set {A}. Arguments C_get {A}. Arguments C_get_first {A}. Arguments C_get_second {A}. Arguments C_correlate {A}.
Arguments C_convolve_signal {A}. Arguments C_merge {A}. Arguments C_split {A}. Arguments C_zero_pad {A}. Arguments C_zero_pad_b {A}.
Arguments C_zero_interleave {A}. Arguments C_zero_interleave_b {A}. Arguments C_resize {A}. Arguments C_resize_b {A}.

Section history.
Context {A : Type} `{Num A} `{Flt A} `{Rem A} `{Trig A} `{Math A} `{F : Fft A} `{RA : Rounding A}.

(** The vector after the call; an error is not looked at, a panic ends the history. *)
Definition perform (e : env) (fits : nat -> bool) (c : call A) (v : dvec A) : run (dvec A) :=
  match c with
  | C_inplace op => vec_inplace e op 0 v
  | C_binary op o => '(v, _) ← vec_binary e op 0 v o; Done v
  | C_conversion op => vec_conversion op v
  | C_rededicate t => Done (rededicate_from n0 t v)
  | C_buffered op b => '(v, _) ← vec_buffered e op 0 b v; Done v
  | C_fallible op b => '(v, _, _) ← vec_fallible e op 0 b v; Done v
  | C_inplace_b op b => '(v, _) ← vec_inplace_b e fits op 0 b v; Done v
  | C_resample op b => '(v, _, _) ← vec_resample e op 0 b v; Done v
  | C_set op x y => '(v, _) ← vec_setter2 op v x y; Done v
  | C_get op src => vec_getter e op 0 src v
  | C_get_first op src o => '(v, _) ← vec_getter2 op src v o; Done v
  | C_get_second op src o => '(_, v) ← vec_getter2 op src o v; Done v
  | C_correlate o b => '(v, _, _) ← correlate (e_reg e) (e_addr e 0) (e_set e) (e_sched e 0 0) (e_sched e 0 1) b v o; Done v
  | C_convolve_signal o b => '(v, _, _) ← convolve_signal (e_reg e) (e_addr e 0) (e_set e) (e_sched e 0 0) b v o; Done v
  | C_merge l => '(v, _) ← vmerge n0 v l; Done v
  | C_split src before after => '(l, _) ← split_into n0 src (before ++ v :: after); rd l (length before)
  | C_zero_pad n o => '(v, _) ← zero_pad n0 v n o; Done v
  | C_zero_pad_b n o b => '(v, _, _) ← zero_pad_b n0 b v n o; Done v
  | C_zero_interleave k => '(v, _) ← zero_interleave n0 v k; Done v
  | C_zero_interleave_b k b => '(v, _) ← zero_interleave_b n0 b v k; Done v
  | C_resize n => Done (fst (Model_Vec.resize n0 v n))
  | C_resize_b n b => '(v, _, _) ← resize_b n0 b v n; Done v
  end.

(** The length which the call asks its buffer for in order to make it the new storage: 0 if nothing is swapped, or if the vector doesn't become longer *)
Definition demand (c : call A) (v : dvec A) : nat :=
  match c with
  | C_buffered To_complex_b _ => 2 * len v
  | C_buffered (Plain_fft | FFT | Windowed_fft _ | Plain_ifft | IFFT | Windowed_ifft _ | Prepare_argument) _ => if is_complex v then 0 else 2 * len v
  | C_buffered Prepare_argument_padded _ => 4 * len v
  | C_fallible (Plain_sfft | Sfft | Windowed_sfft _) _ => 4 * len v
  | C_fallible (Plain_sifft | Sifft | Windowed_sifft _) _ => 2 * len v
  | C_inplace_b Mirror _ => 2 * len v
  | C_inplace_b (Interpolate_hermite f _ | Interpolate_lin f _) _ => match interpolated_len (len v) f with Done n => n | Panicked => 0 end
  | C_inplace_b (Interpolatef _ f _ _) _ => match to_usize (fround (nofnat (len v) * f)%num) with Some n => n + n mod 2 | None => 0 end
  | C_inplace_b (Interpft n) _ | C_resample (Interpolate _ n _) _ => Nat.max (if is_complex v then len v else 2 * len v) (2 * n)
  | C_resample (Interpolatei _ k) _ => if k <=? 1 then 0 else if is_complex v then k * len v else k * 2 * len v
  | C_correlate o _ => len o
  | C_zero_pad_b n _ _ => if is_complex v then 2 * n else n
  | C_zero_interleave_b k _ => k * len v
  | C_resize_b n _ => n
  | _ => 0
  end.
Definition buffer_of (c : call A) : option (buffer A) :=
  match c with
  | C_buffered _ b | C_fallible _ b | C_inplace_b _ b | C_resample _ b | C_correlate _ b | C_convolve_signal _ b | C_zero_pad_b _ _ b | C_zero_interleave_b _ b | C_resize_b _ b => Some b
  | _ => None
  end.
Definition rededicated (t : vtype) (v : dvec A) : bool := match t with VComplexTime | VComplexFreq => true | VRealTime | VRealFreq => false | VGen => is_complex v end.
(** [rededicate] empties the vector if the domain changes together with the number space. *)
Definition same_domain (t : vtype) (v : dvec A) : Prop :=
  match t with VComplexTime | VRealTime => vdomain v = Time | VComplexFreq | VRealFreq => vdomain v = Frequency | VGen => True end.

(** The calls which are known to break the vector:
    - a buffer of fixed length stands for a longer vector than its storage;
    - the storage can't take what [to_complex] needs;
    - the symmetric inverse transforms of a generic vector;
    - a real vector of odd length is declared to be complex. *)
Definition breaks (c : call A) (v : dvec A) : Prop :=
  match buffer_of c with Some (FixedLenBuffer _) => alloc_len v < demand c v | _ => False end \/
  match c with
  | C_fallible To_complex _ => is_complex v = false /\ ~ can_hold (data v) (2 * len v)
  | C_fallible (Plain_sifft | Sifft | Windowed_sifft _) _ => exists b, number_space v = NDyn b
  | C_conversion (Rededicate_from_force t) => rededicated t v = true /\ Nat.odd (len v) = true
  | C_rededicate t => rededicated t v = true /\ Nat.odd (len v) = true /\ same_domain t v
  | C_conversion (Rededicate_with_runtime_data t c _) => (match t with VGen => c | _ => rededicated t v end) = true /\ Nat.odd (len v) = true
  | _ => False
  end.

(** A history: calls one after the other, each in its own environment *)
Inductive leads_to : dvec A -> dvec A -> Prop :=
| still v : leads_to v v
| after u v w e fits c : leads_to u v -> ~ breaks c v -> perform e fits c v = Done w -> leads_to u w.
End history.
