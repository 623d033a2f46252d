(** C07: what an earlier operation left in a buffer can't be seen in a later result - for every method with a buffer, sessions, matrices and foreign functions *)
From Verif Require Import Proof_Base Proof_Vec Proof_Frame Proof_FrameB Proof_BufferAll Proof_BufferSwap Nums NumsFlt NumsTrig Props_History Model_Interop.
From stdpp Require Import list tactics.
From Verif Require Import Model_Chunk Model_Reorg Model_MatOps.
Local Open Scope nat_scope.

(** One call of any method which takes a buffer: both buffers lead to a panic, or to the same vector and the same answer. *)
Theorem C07_call : forall {A} `{Num A} `{Flt A} `{Rem A} `{Trig A} `{Math A} `{F : Fft A} `{RA : Rounding A} e fits i (u : use A) b1 b2 v,
  clean e i u b1 v -> alike b1 b2 -> same_answer (with_buffer e fits i u b1 v) (with_buffer e fits i u b2 v).
Proof. intros A ? ? ? ? ? ? ? e fits i u b1 b2 v Hc Hb. apply same_answer_rel. by apply rel_with_buffer. Qed.
Print Assumptions C07_call.

(** Any number of vectors which share a buffer in any sequence of calls: nothing of the result depends on what was in the buffer when the session began. *)
Theorem C07_session : forall {A} `{Num A} `{Flt A} `{Rem A} `{Trig A} `{Math A} `{F : Fft A} `{RA : Rounding A} fits steps (vs : list (dvec A)) b1 b2,
  alike b1 b2 -> clean_session fits steps vs b1 -> same_run (session fits steps vs b1) (session fits steps vs b2).
Proof. intros A ? ? ? ? ? ? ? fits steps vs b1 b2. exact (session_same fits steps vs b1 b2). Qed.
Print Assumptions C07_session.

(** The matrix methods, where each row uses the buffer after the row before it *)
Theorem C07_matrix : forall {A} `{Num A} `{Flt A} `{Rem A} `{Trig A} `{Math A} `{F : Fft A} `{RA : Rounding A} e fits k (u : use A) b1 b2 (m : list (dvec A)),
  (forall i v, m !! i = Some v -> clean e i u b1 v) -> alike b1 b2 ->
  same_answer (matrix_with_buffer e fits k u b1 m) (matrix_with_buffer e fits k u b2 m).
Proof. intros A ? ? ? ? ? ? ? e fits k u b1 b2 m. exact (matrix_same e fits k u b1 b2 m). Qed.
Print Assumptions C07_matrix.
Theorem C07_matrix_correlate : forall {A} `{Num A} `{Flt A} `{Rem A} `{Trig A} `{Math A} `{F : Fft A} `{RA : Rounding A} e b1 b2 (m o : list (dvec A)),
  Forall wf m -> alike b1 b2 -> same_answer (mat_correlate e b1 m o) (mat_correlate e b2 m o).
Proof. intros A ? ? ? ? ? ? ? e b1 b2 m o. exact (matrix_correlate_same e b1 b2 m o). Qed.
Print Assumptions C07_matrix_correlate.
Theorem C07_matrix_convolve : forall {A} `{Num A} `{Flt A} `{Rem A} `{Trig A} `{Math A} `{F : Fft A} `{RA : Rounding A} b1 b2 (m : list (dvec A)) imps,
  length m <= length imps -> alike b1 b2 -> same_answer (mat_convolve_signal b1 m imps) (mat_convolve_signal b2 m imps).
Proof. intros A ? ? ? ? ? ? ? b1 b2 m imps. exact (matrix_convolve_same b1 b2 m imps). Qed.
Print Assumptions C07_matrix_convolve.

(** The foreign functions: the buffer which belongs to the handle *)
Theorem C07_foreign : forall {A} `{Num A} `{Flt A} `{Rem A} `{Trig A} `{Math A} `{F : Fft A} `{RA : Rounding A} `{IsNan A} e fits c (v : dvec A) b1 b2,
  clean_foreign e c (IVec v b1) -> alike b1 b2 -> same_foreign (foreign_call e fits c (IVec v b1)) (foreign_call e fits c (IVec v b2)).
Proof. intros A ? ? ? ? ? ? ? ? e fits c v b1 b2. exact (foreign_same e fits c v b1 b2). Qed.
Print Assumptions C07_foreign.

(** What is in a growing buffer afterwards: the storage which the vector had before. Callers who keep the buffer keep that storage. *)
Theorem C07_swapped : forall {A} `{Num A} `{Flt A} `{Rem A} `{Trig A} `{Math A} `{F : Fft A} `{RA : Rounding A} e fits i (u : use A) v w t b res,
  swaps u v -> with_buffer e fits i u (SingleBuffer t) v = Done (w, b, res) -> b = SingleBuffer (elems v) /\ res = Ok tt.
Proof. intros A ? ? ? ? ? ? ? e fits i u v w t b res. exact (swapped e fits i u v w t b res). Qed.
Print Assumptions C07_swapped.

(** A session on three vectors with one buffer: padding, interleaving, magnitudes, a transform and a resampling. *)
Local Instance Zmath_bu : Math Z := {| rmath := fun _ x => x; cmath := fun _ x => x; rpowf := Z.pow;
  cpowf := fun x _ => x; rlog := fun x _ => x; clog := fun x _ => x; cexpf := fun x _ => x |}.
Local Instance Zfft_bu : Fft Z := {| fft_forward := fun c => c; fft_inverse := fun c => c; fft_rest := fun c => c; fft_inplace_scratch_len := fun _ => 0;
  fft_outofplace_scratch_len := fun _ => 0 |}.
Local Instance Zrounding_bu : Rounding Z := {| fround := fun x => x; ffloor := fun x => x; fceil := fun x => x; to_usize := fun x => Some (Z.to_nat x);
  to_isize := fun x => Some x; as_usize := Z.to_nat |}.
Local Instance Znan_bu : IsNan Z := fun x => (x =? nnan)%Z.
Definition grown (ns : nspace) (l : list Z) : dvec Z := DVec (Storage KVec (length l) l) 1%Z DTime ns (length l).
Definition day : list (env * nat * use Z) :=
  [(quietly, 0, W_zero_pad 5 Surround); (quietly, 1, W_buffered Magnitude_b); (quietly, 2, W_zero_interleave 2); (quietly, 0, W_buffered FFT);
   (quietly, 2, W_other (fun v => Done (v, Ok tt))); (quietly, 1, W_zero_pad 1 End)].
Definition morning : list (dvec Z) := [grown NReal [1; 2; 3]%Z; grown NComplex [3; 4; 6; 8; 5; 12]%Z; grown NReal [7; 8]%Z].
Example C07_session_example : clean_session (fun _ => true) day morning (SingleBuffer [77; 77; 77]%Z) /\ alike (SingleBuffer [77; 77; 77]%Z) NoBuffer /\
  exists vs answers, session (fun _ => true) day morning (SingleBuffer [77; 77; 77]%Z) = Done (vs, answers) /\ answers = [Ok tt; Ok tt; Ok tt; Ok tt; Ok tt; Err InvalidArgumentLength] /\
    map vdata vs = [Done [3; 0; 0; 0; 0; 0; 1; 0; 2; 0]%Z; Done [5; 10; 13]%Z; Done [7; 0; 8; 0]%Z].
Proof.
  split; [|split; [done|]].
  - cbn [clean_session day]. intros v Hv. injection Hv as <-. split; [split; [split; [vm_compute; lia|done]|done]|].
    intros v' b' res E. vm_compute in E. injection E as <- <- <-. intros v Hv. injection Hv as <-. split.
    { cbn [clean]. split; [vm_compute; split_and!; lia || done|]. split; [done|]. split; [split; [vm_compute; lia|done]|]. left. split; [done|]. done. }
    intros v' b' res E. vm_compute in E. injection E as <- <- <-. intros v Hv. injection Hv as <-. split; [done|].
    intros v' b' res E. vm_compute in E. injection E as <- <- <-. intros v Hv. injection Hv as <-. split; [done|].
    intros v' b' res E. vm_compute in E. injection E as <- <- <-. intros v Hv. injection Hv as <-. split; [done|].
    intros v' b' res E. vm_compute in E. injection E as <- <- <-. intros v Hv. injection Hv as <-. split; [|done].
    split; [split; [vm_compute; lia|done]|done].
  - eexists _, _. split; [vm_compute; reflexivity|]. split; [done|]. vm_compute. reflexivity.
Qed.

(** A matrix, a foreign handle and a swap *)
Example C07_matrix_example : (forall i v, [grown NComplex [3; 4; 6; 8]%Z; grown NComplex [5; 12; 8; 15]%Z] !! i = Some v -> clean quietly i (W_buffered Magnitude_b) (SingleBuffer [77]%Z) v) /\
  exists m b, matrix_with_buffer quietly (fun _ => true) Matrix2xN (W_buffered Magnitude_b) (SingleBuffer [77]%Z) [grown NComplex [3; 4; 6; 8]%Z; grown NComplex [5; 12; 8; 15]%Z] = Done (m, b, Ok tt) /\
    map vdata m = [Done [5; 10]%Z; Done [13; 17]%Z] /\ b = SingleBuffer [5; 12; 8; 15]%Z.
Proof.
  split.
  - intros [|[|i]] v Hv; [injection Hv as <-|injection Hv as <-|done]; cbn [clean]; (split; [vm_compute; split_and!; lia || done|]); (split; [done|]);
      (split; [split; [vm_compute; lia|done]|]); left; done.
  - eexists _, _. split; [vm_compute; reflexivity|]. vm_compute. done.
Qed.
Example C07_matrix_convolve_example : let m := [grown NReal [1; 2; 3]%Z; grown NReal [4; 5; 6]%Z] in let one := grown NReal [1]%Z in
  length m <= length [[one; one]; [one; one]] /\ Forall wf m /\
  exists m' b', mat_convolve_signal (SingleBuffer [7; 7; 7; 7; 7; 7]%Z) m [[one; one]; [one; one]] = Done (m', b', Ok tt) /\ map vdata m' = [Done [5; 7; 9]%Z; Done [5; 7; 9]%Z].
Proof.
  cbv zeta. split; [done|]. split.
  - repeat constructor; try done; vm_compute; lia.
  - eexists _, _. split; vm_compute; reflexivity.
Qed.
Example C07_foreign_example : clean_foreign quietly (F_zero_pad 5 0%Z) (IVec (grown NReal [1; 2; 3]%Z) (SingleBuffer [77; 77; 77; 77]%Z)) /\
  exists x, foreign_call quietly (fun _ => true) (F_zero_pad 5 0%Z) (IVec (grown NReal [1; 2; 3]%Z) (SingleBuffer [77; 77; 77; 77]%Z)) = Done (x, 0%Z) /\
    vdata (i_vec x) = Done [1; 2; 3; 0; 0]%Z.
Proof. split; [split; [split; [vm_compute; lia|done]|done]|]. eexists. split; vm_compute; reflexivity. Qed.

(** Where the property fails.
    A matrix which is convolved with fewer impulse responses than it has rows; with none at all, every row becomes what was in the buffer. *)
Theorem C07_matrix_convolve_refuted : forall {A} `{Num A} `{Flt A} `{Rem A} `{Trig A} `{Math A} `{F : Fft A} `{RA : Rounding A} (m : list (dvec A)) n t,
  Forall (fun v => valid_len v = n /\ n <= alloc_len v) m -> length t = n * length m ->
  exists m' b', mat_convolve_signal (SingleBuffer t) m [] = Done (m', b', Ok tt) /\
    Forall2 (fun v w => same_meta v w /\ same_rest v w) m m' /\ forall i w, m' !! i = Some w -> vdata w = Done (take n (drop (i * n) t)).
Proof. intros A ? ? ? ? ? ? ? m n t. exact (convolve_with_nothing m n t). Qed.
Print Assumptions C07_matrix_convolve_refuted.
Example C07_matrix_convolve_refuted_example : let m := [grown NReal [1; 2]%Z; grown NReal [3; 4]%Z] in
  Forall (fun v => valid_len v = 2 /\ 2 <= alloc_len v) m /\
  exists m' b', mat_convolve_signal (SingleBuffer [70; 71; 72; 73]%Z) m [] = Done (m', b', Ok tt) /\ map vdata m' = [Done [70; 71]%Z; Done [72; 73]%Z].
Proof. cbv zeta. split; [repeat constructor|]. eexists _, _. split; vm_compute; reflexivity. Qed.
(** The magnitudes of complex numbers in a storage which starts between two of them, as far as the registers see it *)
Definition askew : env := Env f64x2 (fun _ => 40) (with_thresholds 1 2 3 2 3) (fun _ _ => []).
Theorem C07_misaligned_refuted : exists w1 w2 b1 b2, let v := grown NComplex [3; 4; 6; 8; 5; 12; 8; 15]%Z in
  with_buffer askew (fun _ => true) 0 (W_buffered Magnitude_b) (SingleBuffer [0; 0; 0; 0]%Z) v = Done (w1, b1, Ok tt) /\
  with_buffer askew (fun _ => true) 0 (W_buffered Magnitude_b) (SingleBuffer [0; 0; 0; 77]%Z) v = Done (w2, b2, Ok tt) /\
  vdata w1 = Done [7; 9; 14; 0]%Z /\ vdata w2 = Done [7; 9; 14; 77]%Z.
Proof. eexists _, _, _, _. cbv zeta. split; [vm_compute; reflexivity|]. split; [vm_compute; reflexivity|]. split; vm_compute; reflexivity. Qed.
Print Assumptions C07_misaligned_refuted.
