(** C01: the lengths of every vector which can be reached *)
From Verif Require Import Proof_History Nums NumsFlt NumsTrig Proof_Vec Proof_Breaks.
From Verif Require Import Model_MatOps.
Local Open Scope nat_scope.

(** A vector of any storage, made by a constructor which checks the length, after any history of calls: whichever calls, with any other vectors, buffers,
    numbers, functions, schedules and addresses. [leads_to] leaves out the calls of [breaks] (Spec_History), which are refuted below. *)
Theorem C01_history : forall {A} `{Num A} `{Flt A} `{Rem A} `{Trig A} `{Math A} `{F : Fft A} `{RA : Rounding A} (c : ctor) (s : storage A) u w,
  wf_storage s -> construct c s = Done u -> (is_complex u = true -> checked_ctor c (s_kind s) = true) -> typed u -> leads_to u w ->
  len w <= alloc_len w /\ (is_complex w = true -> Nat.even (len w) = true) /\ exists l, vdata w = Done l /\ length l = len w.
Proof.
  intros A ? ? ? ? ? ? ? c s u w Hs Hc Hk Ht Hl.
  assert (Hu : ok u).
  { split; [|done]. destruct (is_complex u) eqn:Hx.
    - exact (construct_wf c s u Hs (Hk eq_refl) Hc).
    - destruct (construct_spec c s Hs) as (u' & Hu & _ & Hle & _). rewrite Hc in Hu. injection Hu as <-. split; [done|congruence]. }
  destruct (history_ok u w Hl Hu) as [[Hle He] _]. split; [done|]. split; [done|]. unfold vdata. exists (take (len w) (elems w)).
  unfold len, alloc_len, s_len, elems in *. rewrite slice_Done by lia. rewrite drop_0, Nat.sub_0_r. split; [done|]. rewrite take_length. lia.
Qed.
Print Assumptions C01_history.
(** One call on any vector whose lengths are right *)
Theorem C01_call : forall {A} `{Num A} `{Flt A} `{Rem A} `{Trig A} `{Math A} `{F : Fft A} `{RA : Rounding A} e fits (c : call A) v w,
  wf v -> typed v -> ~ breaks c v -> perform e fits c v = Done w -> wf w /\ typed w.
Proof. intros A ? ? ? ? ? ? ? e fits c v w Hw Ht Hb Hp. exact (perform_ok e fits c v w Hp Hb (conj Hw Ht)). Qed.
Print Assumptions C01_call.

Local Instance Zmath_hi : Math Z := {| rmath := fun _ x => x; cmath := fun _ x => x; rpowf := Z.pow;
  cpowf := fun x _ => x; rlog := fun x _ => x; clog := fun x _ => x; cexpf := fun x _ => x |}.
Local Instance Zfft_hi : Fft Z := {| fft_forward := fun c => c; fft_inverse := fun c => c; fft_rest := fun c => c; fft_inplace_scratch_len := fun _ => 0;
  fft_outofplace_scratch_len := fun _ => 0 |}.
Local Instance Zrounding_hi : Rounding Z := {| fround := fun x => x; ffloor := fun x => x; fceil := fun x => x; to_usize := fun x => Some (Z.to_nat x);
  to_isize := fun x => Some x; as_usize := Z.to_nat |}.
Definition quietly : env := Env f64x2 (fun _ => 48) (with_thresholds 1 2 3 2 3) (fun _ _ => []).
Definition boxed (ns : nspace) (d : dmarker) (l : list Z) : dvec Z := DVec (Storage KBox (length l) l) 1%Z d ns (length l).

(** A history: a real vector is padded, becomes complex, is transformed, cut, and made real again. *)
Example C01_example : exists u w, construct ToRealTime (Storage KVec 3 [1; 2; 3]%Z) = Done u /\ typed u /\ leads_to u w /\ len w = 3 /\ alloc_len w = 10 /\ is_complex w = false.
Proof.
  eexists _, _. split; [vm_compute; reflexivity|]. split; [done|]. split.
  - eapply (after _ _ _ quietly (fun _ => true) (C_conversion Magnitude)).
    { eapply (after _ _ _ quietly (fun _ => true) (C_resize 6)).
      { eapply (after _ _ _ quietly (fun _ => true) (C_buffered FFT (SingleBuffer []))).
        { eapply (after _ _ _ quietly (fun _ => true) (C_zero_pad_b 5 End (SingleBuffer []))).
          { apply still. }
          { intros [[]|[]]. }
          { vm_compute. reflexivity. } }
        { intros [[]|[]]. }
        { vm_compute. reflexivity. } }
      { intros [[]|[]]. }
      { vm_compute. reflexivity. } }
    { intros [[]|[]]. }
    { vm_compute. reflexivity. }
  - vm_compute. done.
Qed.

(** The calls which break a vector.
    A buffer of fixed length keeps the storage of the vector, but the vector gets its new length. *)
Theorem C01_fixed_buffer_refuted : forall {A} `{Num A} `{Flt A} `{Rem A} `{Trig A} `{Math A} `{F : Fft A} `{RA : Rounding A} e fits (v : dvec A) l n store, reals v l -> alloc_len v < n -> n <= length store ->
  exists w, perform e fits (C_zero_pad_b n End (FixedLenBuffer store)) v = Done w /\ len w = n /\ alloc_len w = alloc_len v /\ vdata w = Panicked.
Proof. intros A ? ? ? ? ? ? ?. exact perform_fixed. Qed.
Print Assumptions C01_fixed_buffer_refuted.
Example C01_fixed_buffer_example : exists v w, wf v /\ typed v /\ perform quietly (fun _ => true) (C_zero_pad_b 5 End (FixedLenBuffer [0; 0; 0; 0; 0]%Z)) v = Done w /\
  alloc_len w < len w /\ vdata w = Panicked.
Proof.
  exists (boxed NReal DTime [1; 2; 3]%Z). eexists. split; [split; [done|done]|]. split; [done|]. split; [vm_compute; reflexivity|]. split; [vm_compute; lia|]. vm_compute. reflexivity.
Qed.
(** [to_complex] of a real vector of odd length on a storage which can't grow *)
Theorem C01_to_complex_refuted : forall {A} `{Num A} `{Flt A} `{Rem A} `{Trig A} `{Math A} `{F : Fft A} `{RA : Rounding A} e fits b (v : dvec A), is_complex v = false -> 0 < len v -> len v <= alloc_len v < 2 * len v -> ~ can_hold (data v) (2 * len v) ->
  exists w, perform e fits (C_fallible To_complex b) v = Done w /\ is_complex w = true /\ len w = len v.
Proof. intros A ? ? ? ? ? ? ? e fits b v Hc Hl [Hle Ha] Hh. exact (perform_to_complex e fits b v Hc Hl Hh Hle Ha). Qed.
Print Assumptions C01_to_complex_refuted.
Example C01_to_complex_example : exists v w, wf v /\ typed v /\ perform quietly (fun _ => true) (C_fallible To_complex NoBuffer) v = Done w /\
  is_complex w = true /\ len w = 3.
Proof. exists (boxed NReal DTime [1; 2; 3]%Z). eexists. split; [split; [done|done]|]. split; [done|]. split; [vm_compute; reflexivity|]. done. Qed.
(** The symmetric inverse transform of a generic vector: the result is real data in a vector which is still called complex. *)
Theorem C01_generic_sifft_refuted : exists v w, wf v /\ typed v /\ perform quietly (fun _ => true) (C_fallible Plain_sifft NoBuffer) v = Done w /\
  is_complex w = true /\ len w = 7.
Proof.
  exists (boxed (NDyn true) (DDyn Frequency) [1; 0; 2; 3; 4; 5; 6; 7]%Z). eexists. split; [split; [done|done]|]. split; [done|]. split; [vm_compute; reflexivity|].
  vm_compute. done.
Qed.
Print Assumptions C01_generic_sifft_refuted.
(** A real vector of odd length is declared to be complex: the data isn't looked at. *)
Theorem C01_rededicate_refuted : forall {A} `{Num A} `{Flt A} `{Rem A} `{Trig A} `{Math A} `{F : Fft A} `{RA : Rounding A} e fits (v : dvec A), is_complex v = false -> vdomain v = Time ->
  exists w w', perform e fits (C_rededicate VComplexTime) v = Done w /\ perform e fits (C_conversion (Rededicate_from_force VComplexTime)) v = Done w' /\
    is_complex w = true /\ len w = len v /\ is_complex w' = true /\ len w' = len v.
Proof.
  intros A ? ? ? ? ? ? ? e fits v Hc Hd. eexists _, _. split; [reflexivity|]. split; [reflexivity|]. destruct (rededicate_odd n0 v Hc Hd) as (? & ? & ? & ?). by split_and!.
Qed.
Print Assumptions C01_rededicate_refuted.
Example C01_rededicate_example : exists v w w', wf v /\ typed v /\ perform quietly (fun _ => true) (C_rededicate VComplexTime) v = Done w /\
  perform quietly (fun _ => true) (C_conversion (Rededicate_from_force VComplexTime)) v = Done w' /\ is_complex w = true /\ len w = 3 /\ is_complex w' = true /\ len w' = 3.
Proof. exists (boxed NReal DTime [1; 2; 3]%Z). eexists _, _. split; [split; [done|done]|]. split; [done|]. split; [vm_compute; reflexivity|]. split; [vm_compute; reflexivity|]. vm_compute. done. Qed.
