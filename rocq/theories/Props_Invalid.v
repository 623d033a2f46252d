(** C43: calls on vectors of the wrong number space or domain *)
From Verif Require Import Proof_Invalid Nums NumsFlt NumsTrig Spec_Window Proof_Breaks.
From Verif Require Import Model_MatOps.
Local Open Scope nat_scope.

(** Whatever the call is: if the vector doesn't have the number space or the domain which the method needs ([call_needs], Spec_Invalid), then the result is a
    vector without elements whose delta is NaN. [unchecked] are the exceptions, see below. *)
Theorem C43_call : forall {A} `{Num A} `{Flt A} `{Rem A} `{Trig A} `{Math A} `{F : Fft A} `{RA : Rounding A} e fits (c : call A) v w,
  perform e fits c v = Done w -> lacks (call_needs c) v -> ~ unchecked c v -> len w = 0 /\ delta w = nnan.
Proof. intros A ? ? ? ? ? ? ? e fits c v w. exact (call_rejects e fits c v w). Qed.
Print Assumptions C43_call.
(** [is_erroneous()] tells this, provided that NaN is NaN. *)
Theorem C43_erroneous : forall {A} `{Num A} `{IsNan A} (v : dvec A), nisnan nnan = true -> len v = 0 -> delta v = nnan -> is_erroneous v = true.
Proof. intros A ? ? v Hn Hl Hd. unfold is_erroneous. unfold len in Hl. by rewrite Hl, Hd, Hn. Qed.
Print Assumptions C43_erroneous.
(** The methods which return a [Result] also return an error. *)
Theorem C43_fallible : forall {A} `{Num A} `{Rem A} `{F : Fft A} e (op : fallible A) i b v v' b' res,
  vec_fallible e op i b v = Done (v', b', res) -> lacks (fallible_needs op) v -> op <> To_complex -> poisoned v' /\ exists er, res = Err er.
Proof. exact @fallible_rejects. Qed.
Print Assumptions C43_fallible.
(** There is no panic. *)
Theorem C43_inplace : forall {A} `{Num A} `{Flt A} `{Rem A} `{Trig A} `{Math A} e (op : inplace A) v,
  reg_ok (e_reg e) -> elem_aligned (e_reg e) (e_addr e 0) -> (forall x : A, x * n1 = x /\ x * nopp n1 = nopp x)%num ->
  lacks (inplace_needs op) v -> ~ unaware op -> exists v', vec_inplace e op 0 v = Done v' /\ poisoned v'.
Proof. exact @inplace_rejecting. Qed.
Print Assumptions C43_inplace.
Theorem C43_conversion : forall {A} `{Num A} `{Flt A} op (v : dvec A), lacks (conversion_needs op) v -> exists v', vec_conversion op v = Done v' /\ poisoned v'.
Proof. exact @conversion_rejecting. Qed.
Print Assumptions C43_conversion.
Theorem C43_buffered : forall {A} `{Num A} `{Flt A} `{F : Fft A} e (op : buffered A) b v, looks_first op ->
  lacks (buffered_needs op) v -> ~ (lenient op /\ r_domain (buffered_needs op) = Some (vdomain v)) ->
  exists v', vec_buffered e op 0 b v = Done (v', b) /\ poisoned v'.
Proof. exact @buffered_rejecting. Qed.
Print Assumptions C43_buffered.

Local Instance Zmath_inv : Math Z := {| rmath := fun _ x => x; cmath := fun _ x => x; rpowf := Z.pow;
  cpowf := fun x _ => x; rlog := fun x _ => x; clog := fun x _ => x; cexpf := fun x _ => x |}.
Local Instance Zfft_inv : Fft Z := {| fft_forward := fun c => c; fft_inverse := fun c => c; fft_rest := fun c => c; fft_inplace_scratch_len := fun _ => 0;
  fft_outofplace_scratch_len := fun _ => 0 |}.
Local Instance Zrounding_inv : Rounding Z := {| fround := fun x => x; ffloor := fun x => x; fceil := fun x => x; to_usize := fun x => Some (Z.to_nat x);
  to_isize := fun x => Some x; as_usize := Z.to_nat |}.
Definition in_peace : env := Env f64x2 (fun _ => 48) (with_thresholds 1 2 3 2 3) (fun _ _ => []).
Definition gen (c : bool) (d : ddomain) (l : list Z) : dvec Z := DVec (Storage KVec (length l) l) 1%Z (DDyn d) (NDyn c) (length l).

(** Real vectors, vectors in frequency domain, and complex vectors are rejected *)
Example C43_example : let v := gen false Frequency [1; 2; 3; 4]%Z in let w := gen true Time [1; 2; 3; 4]%Z in
  lacks (call_needs (C_inplace (Conj (A := Z)))) v /\ ~ unchecked (C_inplace Conj) v /\
  (exists v', perform in_peace (fun _ => true) (C_inplace Conj) v = Done v' /\ poisoned v') /\
  (exists v', perform in_peace (fun _ => true) (C_buffered FFT NoBuffer) v = Done v' /\ poisoned v') /\
  (exists v', perform in_peace (fun _ => true) (C_fallible Sifft NoBuffer) v = Done v' /\ poisoned v') /\
  (exists w', perform in_peace (fun _ => true) (C_inplace (Wrap 3%Z)) w = Done w' /\ poisoned w') /\
  (exists w', perform in_peace (fun _ => true) (C_inplace_b (Interpolate_lin 2%Z 0%Z) NoBuffer) w = Done w' /\ poisoned w').
Proof.
  intros v w. split; [left; by exists true|]. split; [intros []|].
  repeat match goal with |- _ /\ _ => split end; eexists; (split; [vm_compute; reflexivity|done]).
Qed.

(** [apply_window] (and [unapply_window]) multiplies the points of a vector in frequency domain, too. *)
Theorem C43_window_refuted : forall {A} `{Num A} `{Flt A} `{Rem A} `{Trig A} `{Math A} `{F : Fft A} `{RA : Rounding A} e fits (w : window A) v l,
  generic v -> lacks (call_needs (C_inplace (Apply_window w))) v -> reals v l -> l <> [] -> w_symmetric w = false ->
  exists v' l', perform e fits (C_inplace (Apply_window w)) v = Done v' /\ reals v' l' /\ windowed nmul (w_fun w) l l'.
Proof. intros A ? ? ? ? ? ? ? e fits w v l _ _. exact (perform_window e fits w v l). Qed.
Print Assumptions C43_window_refuted.
Example C43_window_example : exists v w, generic v /\ lacks (call_needs (C_inplace (Apply_window (rectangular_window (A := Z))))) v /\
  perform in_peace (fun _ => true) (C_inplace (Apply_window rectangular_window)) v = Done w /\ reals w [1; 2; 3; 4]%Z.
Proof.
  exists (gen false Frequency [1; 2; 3; 4]%Z). eexists. split; [split; eauto|]. split; [right; by exists Time|]. split; [vm_compute; reflexivity|]. split; done.
Qed.
(** [fft_shift] (and [ifft_shift]) moves the elements of a real vector in time domain. *)
Theorem C43_shift_refuted : forall {A} `{Num A} `{Flt A} `{Rem A} `{Trig A} `{Math A} `{F : Fft A} `{RA : Rounding A} e fits (v : dvec A) l,
  generic v -> lacks (call_needs (C_inplace (Fft_shift (A := A)))) v -> reals v l ->
  exists v' l', perform e fits (C_inplace Fft_shift) v = Done v' /\ reals v' l' /\ rotated_by (length l / 2) l l'.
Proof. intros A ? ? ? ? ? ? ? e fits v l _ _. exact (perform_shift e fits v l). Qed.
Print Assumptions C43_shift_refuted.
Example C43_shift_example : exists v w, generic v /\ lacks (call_needs (C_inplace (Fft_shift (A := Z)))) v /\
  perform in_peace (fun _ => true) (C_inplace Fft_shift) v = Done w /\ reals w [3; 4; 1; 2]%Z.
Proof.
  exists (gen false Time [1; 2; 3; 4]%Z). eexists. split; [split; eauto|]. split; [left; by exists true|]. split; [vm_compute; reflexivity|]. split; done.
Qed.
(** [mirror] takes the elements of a real vector in frequency domain for points. *)
Theorem C43_mirror_refuted : exists v w, generic v /\ lacks (call_needs (C_inplace_b (Mirror (A := Z)) NoBuffer)) v /\
  perform in_peace (fun _ => true) (C_inplace_b Mirror NoBuffer) v = Done w /\ reals w [1; 2; 3; 4; 3; -4]%Z.
Proof.
  exists (gen false Frequency [1; 2; 3; 4]%Z). eexists. split; [split; eauto|]. split; [left; by exists true|]. split; [vm_compute; reflexivity|]. split; done.
Qed.
Print Assumptions C43_mirror_refuted.
(** [set_real_imag] writes points into a real vector. *)
Theorem C43_set_refuted : forall {A} `{Num A} `{Flt A} `{Rem A} `{Trig A} `{Math A} `{F : Fft A} `{RA : Rounding A} e fits (v x y : dvec A) lx ly,
  generic v -> is_complex v = false -> lacks (call_needs (C_set Set_real_imag x y)) v -> s_kind (data v) = KVec -> reals x lx -> reals y ly -> length lx = length ly ->
  exists v', perform e fits (C_set Set_real_imag x y) v = Done v' /\ reals v' (complex_to_array (zip lx ly)).
Proof. intros A ? ? ? ? ? ? ? e fits v x y lx ly _ Hc _. exact (perform_set e fits v x y lx ly Hc). Qed.
Print Assumptions C43_set_refuted.
Example C43_set_example : exists v w, generic v /\ lacks (call_needs (C_set Set_real_imag (gen false Time [1; 2]%Z) (gen false Time [3; 4]%Z))) v /\
  perform in_peace (fun _ => true) (C_set Set_real_imag (gen false Time [1; 2]%Z) (gen false Time [3; 4]%Z)) v = Done w /\ reals w [1; 3; 2; 4]%Z.
Proof.
  exists (gen false Time [0; 0; 0]%Z). eexists. split; [split; eauto|]. split; [left; by exists true|]. split; [vm_compute; reflexivity|]. split; done.
Qed.
(** The inverse transforms take a real vector for a complex one with imaginary parts of zero. *)
Theorem C43_ifft_refuted : forall {A} `{Num A} `{Flt A} `{Rem A} `{Trig A} `{Math A} `{F : Fft A} `{RA : Rounding A} e fits b (v : dvec A) l,
  (forall c : list (A * A), length (fft_inverse c) = length c) ->
  generic v -> lacks (call_needs (C_buffered (Plain_ifft (A := A)) b)) v -> reals v l -> l <> [] -> vdomain v = Frequency ->
  lends b v (2 * length l) -> spare b (2 * fft_inplace_scratch_len (length l)) ->
  exists v', perform e fits (C_buffered Plain_ifft b) v = Done v' /\ cplx v' (fft_inverse (map (fun x => (x, n0)) l)).
Proof. intros A ? ? ? ? ? ? ? e fits b v l Hi Hg _. exact (perform_ifft Hi e fits b v l (generic_typed v Hg)). Qed.
Print Assumptions C43_ifft_refuted.
Example C43_ifft_example : exists v w, generic v /\ lacks (call_needs (C_buffered (Plain_ifft (A := Z)) NoBuffer)) v /\
  perform in_peace (fun _ => true) (C_buffered Plain_ifft NoBuffer) v = Done w /\ cplx w [(1, 0); (2, 0)]%Z.
Proof.
  exists (gen false Frequency [1; 2]%Z). eexists. split; [split; eauto|]. split; [left; by exists true|]. split; [vm_compute; reflexivity|]. split; done.
Qed.
(** The exceptions which don't compute anything: [to_complex] and [convolve_signal] return an error and leave the vector as it is, the getters empty their
    target but keep its delta. *)
Theorem C43_to_complex : forall {A} `{Num A} (v : dvec A), is_complex v = true ->
  exists v', to_complex v = Done (v', Err InputMustBeReal) /\ data v' = data v /\ len v' = len v /\ delta v' = delta v.
Proof. exact @to_complex_complex. Qed.
Print Assumptions C43_to_complex.
Theorem C43_convolve_signal : forall {A} `{Num A} `{F : Fft A} r addr s sched b (v o : dvec A), vdomain v <> Time ->
  exists er, convolve_signal r addr s sched b v o = Done (v, b, Err er).
Proof. exact @convolve_signal_frequency. Qed.
Print Assumptions C43_convolve_signal.
Theorem C43_getter : forall {A} `{Num A} `{Flt A} e op (src dst : dvec A), is_complex src = false \/ is_complex dst = true ->
  exists dst', vec_getter e op 0 src dst = Done dst' /\ len dst' = 0 /\ delta dst' = delta dst.
Proof. exact @getter_wrong. Qed.
Print Assumptions C43_getter.
Example C43_other_example : (exists v', to_complex (gen true Time [1; 2]%Z) = Done (v', Err InputMustBeReal)) /\
  (exists er, convolve_signal f64x2 48 (with_thresholds 1 2 3 2 3) [] NoBuffer (gen true Frequency [1; 2]%Z) (gen true Frequency [1; 2]%Z) =
     Done (gen true Frequency [1; 2]%Z, NoBuffer, Err er)) /\
  (exists d', vec_getter in_peace Get_real 0 (gen false Time [1; 2]%Z) (gen false Time [5]%Z) = Done d' /\ len d' = 0 /\ delta d' = 1%Z).
Proof. split; [|split]; eexists; vm_compute; repeat split; reflexivity. Qed.
