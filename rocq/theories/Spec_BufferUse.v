(** Everything which can be done with a vector and a buffer, and sessions in which several vectors share one buffer. *)
From Verif Require Export Spec_Buffer Spec_Par Model_Interop.
From Verif Require Import Model_Reorg.

(** The methods of a vector which take a buffer, and [W_other] for everything which doesn't (the numbers which such a call computes are left out) *)
Inductive use (A : Type) :=
| W_buffered (op : buffered A) | W_fallible (op : fallible A) | W_inplace_b (op : inplace_b A) | W_resample (op : resampling A)
| W_correlate (o : dvec A) | W_convolve_signal (o : dvec A)
| W_zero_pad (n : nat) (o : padding) | W_zero_interleave (factor : nat) | W_resize (n : nat)
| W_other (f : dvec A -> run (dvec A * result unit)).
Arguments W_buffered {A}. Arguments W_fallible {A}. Arguments W_inplace_b {A}. Arguments W_resample {A}. Arguments W_correlate {A}. Arguments W_convolve_signal {A}.
Arguments W_zero_pad {A}. Arguments W_zero_interleave {A}. Arguments W_resize {A}. Arguments W_other {A}.

Section use.
Context {A : Type} `{Num A} `{Flt A} `{Rem A} `{Trig A} `{Math A} `{F : Fft A} `{RA : Rounding A}.

(** The call on the row [i] of the environment: the vector afterwards, the buffer afterwards, and whether there was an error *)
Definition with_buffer (e : env) (fits : nat -> bool) (i : nat) (u : use A) (b : buffer A) (v : dvec A) : run (dvec A * buffer A * result unit) :=
  match u with
  | W_buffered op => '(v, b) ← vec_buffered e op i b v; Done (v, b, Ok tt)
  | W_fallible op => vec_fallible e op i b v
  | W_inplace_b op => '(v, b) ← vec_inplace_b e fits op i b v; Done (v, b, Ok tt)
  | W_resample op => vec_resample e op i b v
  | W_correlate o => correlate (e_reg e) (e_addr e i) (e_set e) (e_sched e i 0) (e_sched e i 1) b v o
  | W_convolve_signal o => convolve_signal (e_reg e) (e_addr e i) (e_set e) (e_sched e i 0) b v o
  | W_zero_pad n o => zero_pad_b n0 b v n o
  | W_zero_interleave k => '(v, b) ← zero_interleave_b n0 b v k; Done (v, b, Ok tt)
  | W_resize n => resize_b n0 b v n
  | W_other f => '(v, res) ← f v; Done (v, b, res)
  end.

(** What is needed for the result to be free of the buffer's old content.
    - the magnitudes: storages at an address which the registers can be loaded from;
    - padding: a vector with whole points, and not in the center;
    - resizing: a storage which can hold the elements, and a buffer of the type for such storages. *)
Definition clean (e : env) (i : nat) (u : use A) (b : buffer A) (v : dvec A) : Prop :=
  match u with
  | W_buffered (Magnitude_b | Magnitude_squared_b) =>
      reg_ok (e_reg e) /\ elem_aligned (e_reg e) (e_addr e i) /\ wf v /\ address_ok (e_reg e) (e_addr e i) v
  | W_buffered Prepare_argument_padded | W_correlate _ => wf v
  | W_zero_pad _ o => wf v /\ o <> Center
  | W_inplace_b (Interpft _) | W_resample (Interpolate _ _ _) => buffer_fits b (data v) = true /\ wf_storage (data v)
  | W_resize n => wf_storage (data v) /\ can_hold (data v) n
  | _ => True
  end.

(** A session: every step says which vector is used, and how. An error doesn't stop it, a panic does. *)
Fixpoint session (fits : nat -> bool) (steps : list (env * nat * use A)) (vs : list (dvec A)) (b : buffer A) : run (list (dvec A) * list (result unit)) :=
  match steps with
  | [] => Done (vs, [])
  | (e, k, u) :: steps =>
      v ← rd vs k;
      '(v, b, res) ← with_buffer e fits k u b v;
      vs ← wr vs k v;
      '(vs, answers) ← session fits steps vs b;
      Done (vs, res :: answers)
  end.
(** Every step of the session is a clean one when its turn comes. *)
Fixpoint clean_session (fits : nat -> bool) (steps : list (env * nat * use A)) (vs : list (dvec A)) (b : buffer A) : Prop :=
  match steps with
  | [] => True
  | (e, k, u) :: steps =>
      forall v, vs !! k = Some v -> clean e k u b v /\
        forall v' b' res, with_buffer e fits k u b v = Done (v', b', res) -> clean_session fits steps (<[k := v']> vs) b'
  end.

(** The matrix methods which hand the buffer from row to row *)
Definition matrix_with_buffer (e : env) (fits : nat -> bool) (k : mkind) (u : use A) (b : buffer A) (m : list (dvec A)) : run (list (dvec A) * buffer A * result unit) :=
  match u with
  | W_buffered op => '(m, b) ← mat_buffered e k op b m; Done (m, b, Ok tt)
  | W_fallible op => mat_fallible e k op b m
  | W_inplace_b op => '(m, b) ← mat_inplace_b e fits op b m; Done (m, b, Ok tt)
  | W_resample op => mat_resample e op b m
  | W_convolve_signal o => mat_convolve_vector e b m o
  | _ => Done (m, b, Ok tt)      (* matrices have no such method, or one without a buffer; [correlate] has a second matrix and is left out *)
  end.

(** The foreign functions keep a buffer with every vector. *)
Definition clean_foreign (e : env) (c : foreign A) (x : ivec A) : Prop :=
  match c with
  | F_zero_pad n o => clean e 0 (W_zero_pad n (translate_to_padding_option o)) (i_buf x) (i_vec x)
  | F_buffered op => clean e 0 (W_buffered op) (i_buf x) (i_vec x)
  | F_inplace_b op => clean e 0 (W_inplace_b op) (i_buf x) (i_vec x)
  | F_correlate o => clean e 0 (W_correlate (i_vec o)) (i_buf x) (i_vec x)
  | F_interpolate_custom _ _ _ | F_interpolate _ _ _ _ => buffer_fits (i_buf x) (data (i_vec x)) = true /\ wf_storage (data (i_vec x))
  | _ => True
  end.
(** Both calls panic, or both end with the same vector, the same number and buffers which are alike. *)
Definition same_foreign (r1 r2 : run (ivec A * Z)) : Prop :=
  match r1, r2 with
  | Panicked, Panicked => True
  | Done (x, n), Done (y, k) => i_vec x = i_vec y /\ alike (i_buf x) (i_buf y) /\ n = k
  | _, _ => False
  end.
End use.

(** The calls which leave the old storage of the vector in a growing buffer: the lines of the code which say [trade] *)
Definition swaps {A} (u : use A) (v : dvec A) : Prop :=
  match u with
  | W_zero_pad n _ => len v < (if is_complex v then 2 * n else n)
  | W_zero_interleave k => 1 < k
  | W_buffered (To_real_b | To_imag_b | Phase_b | Magnitude_b | Magnitude_squared_b) => is_complex v = true
  | W_buffered To_complex_b => is_complex v = false
  | _ => False
  end.
