(** C27, C28, C29, C30: convolutions. *)
From Verif Require Import Proof_OverlapV Proof_ConvFn Proof_MatConv Proof_CorrV NumsFlt NumsR NumsTrig.
From stdpp Require Import list_numbers.
From Verif Require Import Spec_Convolve Spec_Matrix Model_Chunk.
Local Open Scope nat_scope.

Definition ex_vec {A} `{Num A} (ns : nspace) (d : dmarker) (l : list A) : dvec A := DVec (Storage KVec (length l) l) n1 d ns (length l).
Definition one_core : settings := with_thresholds 1 2 3 2 3.
Definition Zfft : Fft Z := {| fft_forward := @rev _; fft_inverse := @rev _; fft_rest := fun c => c; fft_inplace_scratch_len := fun n => n; fft_outofplace_scratch_len := fun _ => 0 |}.
Lemma exact_fft_computes : @computes_dft exact_fft.
Proof. split_and!; try done. intros c. apply map_length. Qed.
Lemma aligned_ex : aligned_all f64x2 48.
Proof. unfold aligned_all, reg_ok, elem_aligned, half_aligned, point_aligned. vm_compute. split_and!; try lia; done. Qed.
Lemma agree_ex ns d (l l' : list R) : meta_agree (ex_vec ns d l) (ex_vec ns d l').
Proof. split; [done|]. split; [done|]. apply (same_ratio 1). lra. Qed.
Lemma reals_ex d (l : list R) : reals (ex_vec NReal d l) l.
Proof. split; [done|]. apply (vdata_intro _ l []); [by rewrite app_nil_r | done]. Qed.
Lemma cplx_ex d (c : list (R * R)) : cplx (ex_vec NComplex d (complex_to_array c)) c.
Proof. split; [done|]. apply (vdata_intro _ _ []); [by rewrite app_nil_r | done]. Qed.

Ltac numbers := repeat match goal with |- context [Z.to_nat ?z] => let k := eval vm_compute in (Z.to_nat z) in change (Z.to_nat z) with k end.

(** * C27 convolve_signal is the circular convolution *)

(** Real vectors, for every size: all registers, schedules and buffers. *)
Theorem C27_reals : forall {A} `{Num A} `{F : Fft A}, exact_ring A ->
  forall r addr s sched b (v o : dvec A) x h, aligned_all r addr -> reg_len r <= 64 -> reals v x -> reals o h ->
  meta_agree v o -> vdomain v = Time -> length h <= length x -> lends b v (length x) -> x <> [] \/ no_threads_for_nothing Large s ->
  exists v' b', convolve_signal r addr s sched b v o = Done (v', b', Ok tt) /\ reals v' (centred_convolution n0 nadd nmul x h) /\ same_meta v v'.
Proof. exact @convolve_signal_reals. Qed.
Print Assumptions C27_reals.

(** Complex vectors. What is missing: see [C28_gap_refuted]. *)
Theorem C27_complex : forall `{F : Fft R}, computes_dft ->
  forall r addr s sched b (v o : dvec R) x h, aligned_all r addr -> reg_len r <= 64 -> cplx v x -> cplx o h -> whole_points o ->
  meta_agree v o -> vdomain v = Time -> length h <= length x -> lends b v (2 * length x) -> overlap_room b (length x) (length h) ->
  x <> [] \/ no_threads_for_nothing Large s ->
  ~ (512 < length h /\ 10 * length h < length x < 15 * length h) ->
  exists v' b', convolve_signal r addr s sched b v o = Done (v', b', Ok tt) /\
    cplx v' (centred_convolution (0, 0)%R complex_sum complex_product x h) /\ same_meta v v'.
Proof. exact @convolve_signal_cplx. Qed.
Print Assumptions C27_complex.

(** Point [i] of a [centred_convolution], written as in the documentation *)
Theorem C27_reading : forall {P} (zero : P) (add mul : P -> P -> P) x h i, i < length x ->
  centred_convolution zero add mul x h !! i =
  Some (foldl add zero (map (fun k => mul (default zero (x !! Z.to_nat ((Z.of_nat i + Z.of_nat ((length h + 1) / 2) - 1 - Z.of_nat k) mod Z.of_nat (length x)))) (default zero (h !! k))) (seq 0 (length h)))).
Proof. intros P zero add mul x h i Hi. unfold centred_convolution. by rewrite circular_convolution_lookup. Qed.
Print Assumptions C27_reading.

(** Everything else is an error which leaves the vector unchanged. *)
Theorem C27_errors : forall {A} `{Num A} `{F : Fft A} r addr s sched b (v o : dvec A),
  (~ meta_agree v o -> convolve_signal r addr s sched b v o = Done (v, b, Err InputMetaDataMustAgree)) /\
  (meta_agree v o -> vdomain v <> Time -> convolve_signal r addr s sched b v o = Done (v, b, Err InputMustBeInTimeDomain)) /\
  (meta_agree v o -> vdomain v = Time -> points v < points o -> convolve_signal r addr s sched b v o = Done (v, b, Err InvalidArgumentLength)).
Proof. exact @convolve_signal_errors. Qed.
Print Assumptions C27_errors.

Example C27_example : let v := ex_vec NReal DTime [1; 2; 3; 4]%R in let o := ex_vec NReal DTime [10; 20; 30]%R in
  exists v' b', convolve_signal (F := exact_fft) f64x2 48 one_core [] (SingleBuffer []) v o = Done (v', b', Ok tt) /\ reals v' [160; 100; 160; 180]%R.
Proof.
  intros v o. destruct (C27_reals (F := exact_fft) R_exact f64x2 48 one_core [] (SingleBuffer []) v o [1; 2; 3; 4]%R [10; 20; 30]%R) as (v' & b' & E & Hv & _);
    [exact aligned_ex | vm_compute; lia | apply reals_ex | apply reals_ex | apply agree_ex | done | cbn; lia | done | by left |].
  exists v', b'. split; [exact E|]. replace [160; 100; 160; 180]%R with (centred_convolution (P := R) n0 nadd nmul [1; 2; 3; 4]%R [10; 20; 30]%R); [exact Hv|].
  unfold centred_convolution, circular_convolution, series, around, circular. vm_compute seq. cbn. numbers. cbn. f_equal; [lra|]. f_equal; [lra|]. f_equal; [lra|]. f_equal; lra.
Qed.
Example C27_example_complex : let v := ex_vec NComplex DTime [1; 2; 3; 4]%R in let o := ex_vec NComplex DTime [0; 1]%R in
  exists v' b', convolve_signal (F := exact_fft) f64x2 48 one_core [] (SingleBuffer []) v o = Done (v', b', Ok tt) /\ cplx v' [(-2, 1); (-4, 3)]%R.
Proof.
  intros v o. destruct (C27_complex (F := exact_fft) exact_fft_computes f64x2 48 one_core [] (SingleBuffer []) v o [(1, 2); (3, 4)]%R [(0, 1)]%R) as (v' & b' & E & Hv & _);
    [exact aligned_ex | vm_compute; lia | apply (cplx_ex DTime [(1, 2); (3, 4)]%R) | apply (cplx_ex DTime [(0, 1)]%R) | done | apply agree_ex | done | cbn; lia | done | done | by left | cbn; lia |].
  exists v', b'. split; [exact E|].
  replace [(-2, 1); (-4, 3)]%R with (centred_convolution (P := R * R) (0, 0)%R complex_sum complex_product [(1, 2); (3, 4)]%R [(0, 1)]%R); [exact Hv|].
  unfold centred_convolution, circular_convolution, series, around, circular. vm_compute seq. cbn. numbers. unfold complex_sum, complex_product. cbn. f_equal; [f_equal; lra|]. f_equal. f_equal; lra.
Qed.
Example C27_example_error : convolve_signal (F := Zfft) f64x2 48 one_core [] NoBuffer (ex_vec NReal DTime [1; 2]%Z) (ex_vec NComplex DTime [1; 2]%Z) =
  Done (ex_vec NReal DTime [1; 2]%Z, NoBuffer, Err InputMetaDataMustAgree).
Proof. vm_compute. done. Qed.

(** * C28 The selection of the algorithm doesn't matter *)

(** The scalar loop and the one with registers *)
Theorem C28_simd_reals : forall {A} `{Num A}, exact_ring A -> forall r addr s sched sched' b b' (v o : dvec A) x h,
  reg_ok r -> elem_aligned r addr -> half_aligned r addr -> reals v x -> reals o h ->
  lends b v (length x) -> lends b' v (length x) -> length h < length x -> 2 * ((length h + 1) / 2 + reg_len r) < length x ->
  exists v1 b1 v2 b2 y, convolve_signal_simd r addr s sched b v o = Done (v1, b1) /\ convolve_signal_scalar s sched' b' v o = Done (v2, b2) /\ reals v1 y /\ reals v2 y /\
    y = centred_convolution n0 nadd nmul x h.
Proof.
  intros A HN HR r addr s sched sched' b b' v o x h ? ? ? Hv Ho Hb Hb' ? ?.
  destruct (convolve_simd_reals HR r addr s sched b v o x h) as (v1 & b1 & ? & ? & _); [done..|].
  destruct (convolve_scalar_reals s sched' b' v o x h) as (v2 & b2 & ? & ? & _); [done | done | lia | done | left; intros ->; cbn in *; lia |].
  by eexists v1, b1, v2, b2, _.
Qed.
Print Assumptions C28_simd_reals.
Theorem C28_simd_complex : forall {A} `{Num A}, exact_ring A -> forall r addr s sched sched' b b' (v o : dvec A) x h,
  reg_ok r -> elem_aligned r addr -> half_aligned r addr -> point_aligned r addr -> cplx v x -> cplx o h ->
  lends b v (2 * length x) -> lends b' v (2 * length x) -> length h < length x -> 2 * ((length h + 1) / 2 + reg_len r) < length x ->
  exists v1 b1 v2 b2 y, convolve_signal_simd r addr s sched b v o = Done (v1, b1) /\ convolve_signal_scalar s sched' b' v o = Done (v2, b2) /\ cplx v1 y /\ cplx v2 y /\
    y = centred_convolution (n0, n0) complex_sum complex_product x h.
Proof.
  intros A HN HR r addr s sched sched' b b' v o x h ? ? ? ? Hv Ho Hb Hb' ? ?.
  destruct (convolve_simd_cplx HR r addr s sched b v o x h) as (v1 & b1 & ? & ? & _); [done..|].
  destruct (convolve_scalar_cplx s sched' b' v o x h) as (v2 & b2 & ? & ? & _); [done | done | lia | done | left; intros ->; cbn in *; lia |].
  by eexists v1, b1, v2, b2, _.
Qed.
Print Assumptions C28_simd_complex.

(** Whatever is selected: the same points as the scalar loop, every point written. What is missing for complex vectors: [C28_gap_refuted]. *)
Theorem C28_selection_reals : forall {A} `{Num A} `{F : Fft A}, exact_ring A ->
  forall r addr s sched sched' b b' (v o : dvec A) x h, aligned_all r addr -> reg_len r <= 64 -> reals v x -> reals o h ->
  meta_agree v o -> vdomain v = Time -> length h <= length x -> lends b v (length x) -> lends b' v (length x) -> x <> [] \/ no_threads_for_nothing Large s ->
  exists v1 b1 v2 b2 y, convolve_signal r addr s sched b v o = Done (v1, b1, Ok tt) /\ convolve_signal_scalar s sched' b' v o = Done (v2, b2) /\ reals v1 y /\ reals v2 y.
Proof.
  intros A HN F HR r addr s sched sched' b b' v o x h Hr Hr2 Hv Ho Hm Hd Hl Hb Hb' Hs.
  destruct (convolve_signal_reals HR r addr s sched b v o x h) as (v1 & b1 & ? & ? & _); [done..|].
  destruct (convolve_scalar_reals s sched' b' v o x h) as (v2 & b2 & ? & ? & _); [done..|].
  by eexists v1, b1, v2, b2, _.
Qed.
Print Assumptions C28_selection_reals.
Theorem C28_selection_complex : forall `{F : Fft R}, computes_dft ->
  forall r addr s sched sched' b b' (v o : dvec R) x h, aligned_all r addr -> reg_len r <= 64 -> cplx v x -> cplx o h -> whole_points o ->
  meta_agree v o -> vdomain v = Time -> length h <= length x -> lends b v (2 * length x) -> lends b' v (2 * length x) -> overlap_room b (length x) (length h) ->
  x <> [] \/ no_threads_for_nothing Large s ->
  ~ (512 < length h /\ 10 * length h < length x < 15 * length h) ->
  exists v1 b1 v2 b2 y, convolve_signal r addr s sched b v o = Done (v1, b1, Ok tt) /\ convolve_signal_scalar s sched' b' v o = Done (v2, b2) /\ cplx v1 y /\ cplx v2 y.
Proof.
  intros F HF r addr s sched sched' b b' v o x h Hr Hr2 Hv Ho Hw Hm Hd Hl Hb Hb' Hroom Hs Hno.
  destruct (convolve_signal_cplx HF r addr s sched b v o x h) as (v1 & b1 & ? & ? & _); [done..|].
  destruct (convolve_scalar_cplx s sched' b' v o x h) as (v2 & b2 & ? & ? & _); [done..|].
  by eexists v1, b1, v2, b2, _.
Qed.
Print Assumptions C28_selection_complex.

(** In between, the overlap-discard algorithm leaves a part of the input in the result. *)
Theorem C28_gap_refuted : forall `{F : Fft R}, computes_dft -> forall r addr s sched b (v o : dvec R) x h k, cplx v x -> cplx o h -> whole_points o ->
  meta_agree v o -> vdomain v = Time -> overlap_room b (length x) (length h) ->
  next_power_of_two (4 * (length h - 1)) = Done k -> 101 < length h -> 10 * length h < length x -> 50 * 100 < length x -> length x <= 2 * k - (length h - 1) ->
  exists v' b' y, convolve_signal r addr s sched b v o = Done (v', b', Ok tt) /\ cplx v' y /\ length y = length x /\
    forall i, k <= i < length x - k / 2 -> y !! i = x !! i.
Proof. exact @convolve_signal_gap. Qed.
Print Assumptions C28_gap_refuted.

(** [convolve] with a function, for short vectors, long responses and ratios whose inverse isn't a whole number: the sum over the neighbourhood, weighted with
    the function of the distance times the ratio *)
Theorem C28_function_scalar : forall round to_usize fits r addr s sched b (v : dvec R) f ratio L k `{F : Fft R}, vdomain v = Time -> to_usize ratio = Some k ->
  len v <= 20 * 100 \/ 202 < L \/ ~ whole_inverse round ratio ->
  (forall x, reals v x -> lends b v (length x) -> exists v' b', convolve_real_response round to_usize fits f ratio L r addr s sched b v = Done (v', b') /\
     same_meta v v' /\ reals v' (function_convolution n0 nadd nmul counted f ratio (Nat.min L (length x)) x)) /\
  (forall x, cplx v x -> lends b v (2 * length x) -> exists v' b', convolve_real_response round to_usize fits f ratio L r addr s sched b v = Done (v', b') /\
     same_meta v v' /\ cplx v' (function_convolution (n0, n0) complex_sum complex_product counted (fun x => (f x, n0)) ratio (Nat.min L (length x)) x)).
Proof. intros. by eapply convolve_real_response_scalar. Qed.
Print Assumptions C28_function_scalar.
Theorem C28_function_scalar_complex : forall round to_usize fits r addr s sched b (v : dvec R) f ratio L k x `{F : Fft R}, vdomain v = Time -> to_usize ratio = Some k ->
  len v <= 20 * 100 \/ 202 < L \/ ~ whole_inverse round ratio -> cplx v x -> lends b v (2 * length x) ->
  exists v' b', convolve_complex_response round to_usize fits f ratio L r addr s sched b v = Done (v', b') /\
     same_meta v v' /\ cplx v' (function_convolution (n0, n0) complex_sum complex_product counted f ratio (Nat.min L (length x)) x).
Proof. intros. by eapply convolve_complex_response_scalar. Qed.
Print Assumptions C28_function_scalar_complex.
(** The ratios of the other path are close to 1, just above 1/2, or greater than a million. *)
Theorem C28_ratios : forall round ratio, (forall y, exists z, round y = IZR z) -> whole_inverse round ratio ->
  (Rabs (1 / ratio - 1) < 1 / 10 ^ 6 \/ 2 - 1 / 10 ^ 6 < 1 / ratio < 2 \/ 10 ^ 6 < ratio)%R.
Proof.
  intros round ratio Hr [H1 H2]. destruct (Hr (1 / ratio)%R) as [z Ez]. rewrite Ez in H1. assert (Hq : (1 / ratio * ratio = 1)%R) by (field; lra).
  assert (E6 : (10 ^ 6 = 1000000)%R) by (cbn; lra). rewrite E6 in *. set (q := (1 / ratio)%R) in *. assert (H0 : (0 < q)%R) by (apply Rdiv_lt_0_compat; lra). assert (q < 2)%R by nra.
  apply Rabs_def2 in H1. assert (Hz : (-1 < z)%Z) by (apply lt_IZR; lra). assert (Hz2 : (z < 3)%Z) by (apply lt_IZR; lra).
  assert (Hc : (z = 0 \/ z = 1 \/ z = 2)%Z) by lia. destruct Hc as [Hc|[Hc|Hc]]; subst z.
  - right. right. apply (Rmult_lt_reg_l q); [done|]. rewrite Hq. lra.
  - left. apply Rabs_def1; lra.
  - right. left. lra.
Qed.
Print Assumptions C28_ratios.

(** Long complex vectors with such a ratio, if it rounds to one: the same sum, from samples of the function, but with the inverse ratio instead of the ratio. *)
Theorem C28_function_sampled : forall `{F : Fft R}, computes_dft -> forall round to_usize fits r addr s sched b (v : dvec R) f ratio L x,
  aligned_all r addr -> reg_len r <= 64 -> vdomain v = Time -> cplx v x -> delta v <> 0%R ->
  20 * 100 < len v -> L <= 202 -> whole_inverse round ratio -> to_usize ratio = Some 1 -> (forall n, fits n = true) -> lends b v (2 * length x) -> overlap_room b (length x) (2 * L + 1) ->
  exists v' b', convolve_real_response round to_usize fits f ratio L r addr s sched b v = Done (v', b') /\
     same_meta v v' /\ cplx v' (function_convolution (n0, n0) complex_sum complex_product counted (fun x => (f x, n0)) (1 / ratio)%R (Nat.min L (length x)) x).
Proof.
  intros F HF round to_usize fits r addr s sched b v f ratio L x Hal Hr Hd Hv Hdl Hn HL Hw Hu Hf Hb Hroom.
  assert (Hlx : 10 * 100 < length x) by (rewrite (reals_len v _ (proj2 Hv)), complex_to_array_length in Hn; lia).
  destruct (convolve_real_response_sampled HF round to_usize fits r addr s sched b v f ratio L 1 x Hal Hr Hd Hv Hdl Hn HL Hw Hu Hf) as [_ K]. rewrite Nat.mul_1_r in K.
  destruct K as (v' & b' & E & K1 & K2); [lia | done | done | lia |]. exists v', b'. split; [done|]. split; [done|]. rewrite Nat.min_l by lia.
  change (n0 : R) with 0%R. change complex_sum with (@cadd R _). change complex_product with (@cmul R _). rewrite <- sampled_function. exact K2.
Qed.
Print Assumptions C28_function_sampled.
(** So with a ratio of exactly one it is the documented sum. *)
Theorem C28_function_one : forall `{F : Fft R}, computes_dft -> forall round to_usize fits, round 1%R = 1%R -> to_usize 1%R = Some 1 ->
  forall r addr s sched b (v : dvec R) f L x, aligned_all r addr -> reg_len r <= 64 -> vdomain v = Time -> cplx v x -> delta v <> 0%R ->
  20 * 100 < len v -> L <= 202 -> (forall n, fits n = true) -> lends b v (2 * length x) -> overlap_room b (length x) (2 * L + 1) ->
  exists v' b', convolve_real_response round to_usize fits f 1%R L r addr s sched b v = Done (v', b') /\
     same_meta v v' /\ cplx v' (function_convolution (n0, n0) complex_sum complex_product counted (fun x => (f x, n0)) 1%R (Nat.min L (length x)) x).
Proof.
  intros F HF round to_usize fits H1 H2 r addr s sched b v f L x Hal Hr Hd Hv Hdl Hn HL Hf Hb Hroom.
  destruct (C28_function_sampled HF round to_usize fits r addr s sched b v f 1%R L x) as (v' & b' & E & K1 & K2); try done.
  { split; [|lra]. replace (1 / 1)%R with 1%R by field. rewrite H1. replace (1 - 1)%R with 0%R by ring. rewrite Rabs_R0. cbn. lra. }
  exists v', b'. split; [done|]. split; [done|]. replace (1 / 1)%R with 1%R in K2 by field. exact K2.
Qed.
Print Assumptions C28_function_one.
(** Greater ratios: there are more samples than the neighbourhood has points, none of them at the right place. *)
Theorem C28_function_greater_refuted : forall `{F : Fft R}, computes_dft -> forall round to_usize fits r addr s sched b (v : dvec R) f ratio L K x,
  aligned_all r addr -> reg_len r <= 64 -> vdomain v = Time -> cplx v x -> delta v <> 0%R ->
  20 * 100 < len v -> L <= 202 -> whole_inverse round ratio -> to_usize ratio = Some K -> (forall n, fits n = true) ->
  let m := (2 * L + 1) * K in
  (length x < m -> convolve_real_response round to_usize fits f ratio L r addr s sched b v = Panicked) /\
  (m <= length x -> lends b v (2 * length x) -> overlap_room b (length x) m -> ~ (512 < m /\ 10 * m < length x < 15 * m) ->
   exists v' b', convolve_real_response round to_usize fits f ratio L r addr s sched b v = Done (v', b') /\
     same_meta v v' /\ cplx v' (centred_convolution (n0, n0) complex_sum complex_product x (sampled_response (fun t => (f t, n0)) ratio L m))).
Proof. exact @convolve_real_response_sampled. Qed.
Print Assumptions C28_function_greater_refuted.

(** Long real vectors: every second sample is dropped and the others are stretched. *)
Theorem C28_function_real_refuted : forall `{F : Fft R}, computes_dft -> forall round to_usize fits r addr s sched b (v : dvec R) f ratio L K x,
  aligned_all r addr -> reg_len r <= 64 -> vdomain v = Time -> reals v x -> delta v <> 0%R ->
  20 * 100 < len v -> L <= 202 -> whole_inverse round ratio -> to_usize ratio = Some K -> (forall n, fits n = true) ->
  let m := (2 * L + 1) * K in
  (length x < m -> convolve_real_response round to_usize fits f ratio L r addr s sched b v = Panicked) /\
  (m <= length x -> lends b v (length x) ->
   exists v' b', convolve_real_response round to_usize fits f ratio L r addr s sched b v = Done (v', b') /\
     same_meta v v' /\ reals v' (centred_convolution n0 nadd nmul x (stretched_response f ratio L m))).
Proof. exact @convolve_real_response_halved. Qed.
Print Assumptions C28_function_real_refuted.

(** A complex function and a long vector: the samples are written behind the end of their storage, so that the call panics for all but greater ratios; for these
    the response has as many points as the vector and the parts of the samples end up in the wrong places. *)
Theorem C28_function_complex_refuted : forall `{F : Fft R}, computes_dft -> forall round to_usize fits r addr s sched b (v : dvec R) f ratio L K x,
  aligned_all r addr -> reg_len r <= 64 -> vdomain v = Time -> cplx v x -> delta v <> 0%R ->
  20 * 100 < len v -> L <= 202 -> whole_inverse round ratio -> to_usize ratio = Some K -> (forall n, fits n = true) ->
  (4 * (2 * L + 1) * K < 3 * ((2 * length x + 2) / 3) -> convolve_complex_response round to_usize fits f ratio L r addr s sched b v = Panicked) /\
  (3 * ((2 * length x + 2) / 3) <= 4 * (2 * L + 1) * K -> lends b v (2 * length x) -> overlap_room b (length x) (length x) ->
   exists v' b' h, convolve_complex_response round to_usize fits f ratio L r addr s sched b v = Done (v', b') /\
     same_meta v v' /\ complex_to_array h = scattered_response f ratio L (2 * length x) /\ cplx v' (centred_convolution (n0, n0) complex_sum complex_product x h)).
Proof. exact @convolve_complex_response_sampled. Qed.
Print Assumptions C28_function_complex_refuted.

(** One long signal for several theorems: 700 * 10 ones *)
Definition ones : list (R * R) := replicate (70 * 100) (1, 0)%R.
Definition zeros : list (R * R) := replicate 514 (0, 0)%R.
Example C28_example_simd : let x := replicate (11 * 100) 1%R in let h := replicate 20 1%R in
  exists v1 b1 v2 b2 y, convolve_signal_simd f64x2 48 one_core [] (SingleBuffer []) (ex_vec NReal DTime x) (ex_vec NReal DTime h) = Done (v1, b1) /\
    convolve_signal_scalar one_core [] (SingleBuffer []) (ex_vec NReal DTime x) (ex_vec NReal DTime h) = Done (v2, b2) /\ reals v1 y /\ reals v2 y.
Proof.
  intros x h. pose proof aligned_ex as (? & ? & ? & ?).
  destruct (C28_simd_reals R_exact f64x2 48 one_core [] [] (SingleBuffer []) (SingleBuffer []) (ex_vec NReal DTime x) (ex_vec NReal DTime h) x h)
    as (v1 & b1 & v2 & b2 & y & ? & ? & ? & ? & _); [done | done | done | apply reals_ex | apply reals_ex | done | done | | |].
  - unfold x, h. rewrite !replicate_length. lia.
  - unfold x, h. rewrite !replicate_length. change (reg_len f64x2) with 2. lia.
  - exists v1, b1, v2, b2, y. split_and!; assumption.
Qed.
Example C28_example_simd_complex : let x := replicate (11 * 100) (1, 2)%R in let h := replicate 20 (3, 4)%R in
  exists v1 b1 v2 b2 y, convolve_signal_simd f64x2 48 one_core [] (SingleBuffer []) (ex_vec NComplex DTime (complex_to_array x)) (ex_vec NComplex DTime (complex_to_array h)) = Done (v1, b1) /\
    convolve_signal_scalar one_core [] (SingleBuffer []) (ex_vec NComplex DTime (complex_to_array x)) (ex_vec NComplex DTime (complex_to_array h)) = Done (v2, b2) /\ cplx v1 y /\ cplx v2 y.
Proof.
  intros x h. pose proof aligned_ex as (? & ? & ? & ?).
  destruct (C28_simd_complex R_exact f64x2 48 one_core [] [] (SingleBuffer []) (SingleBuffer []) (ex_vec NComplex DTime (complex_to_array x)) (ex_vec NComplex DTime (complex_to_array h)) x h)
    as (v1 & b1 & v2 & b2 & y & ? & ? & ? & ? & _); [done | done | done | done | apply cplx_ex | apply cplx_ex | done | done | | |].
  - unfold x, h. rewrite !replicate_length. lia.
  - unfold x, h. rewrite !replicate_length. change (reg_len f64x2) with 2. lia.
  - exists v1, b1, v2, b2, y. split_and!; assumption.
Qed.
Example C28_example_selection : let x := replicate (11 * 100) 1%R in let h := replicate 20 1%R in
  exists v1 b1 v2 b2 y, convolve_signal (F := exact_fft) f64x2 48 one_core [] (SingleBuffer []) (ex_vec NReal DTime x) (ex_vec NReal DTime h) = Done (v1, b1, Ok tt) /\
    convolve_signal_scalar one_core [] (SingleBuffer []) (ex_vec NReal DTime x) (ex_vec NReal DTime h) = Done (v2, b2) /\ reals v1 y /\ reals v2 y.
Proof.
  intros x h.
  destruct (C28_selection_reals (F := exact_fft) R_exact f64x2 48 one_core [] [] (SingleBuffer []) (SingleBuffer []) (ex_vec NReal DTime x) (ex_vec NReal DTime h) x h)
    as (v1 & b1 & v2 & b2 & y & ? & ? & ? & ?); [exact aligned_ex | vm_compute; lia | apply reals_ex | apply reals_ex | apply agree_ex | done | | done | done | by left |].
  - unfold x, h. rewrite !replicate_length. lia.
  - exists v1, b1, v2, b2, y. split_and!; assumption.
Qed.
(** The overlap-discard algorithm: 200 taps, 70 * 100 points *)
Example C28_example_overlap : let h := replicate 200 (3, 4)%R in
  exists v1 b1 v2 b2 y, convolve_signal (F := exact_fft) f64x2 48 one_core [] (SingleBuffer []) (ex_vec NComplex DTime (complex_to_array ones)) (ex_vec NComplex DTime (complex_to_array h)) = Done (v1, b1, Ok tt) /\
    convolve_signal_scalar one_core [] (SingleBuffer []) (ex_vec NComplex DTime (complex_to_array ones)) (ex_vec NComplex DTime (complex_to_array h)) = Done (v2, b2) /\ cplx v1 y /\ cplx v2 y.
Proof.
  intros h.
  destruct (C28_selection_complex (F := exact_fft) exact_fft_computes f64x2 48 one_core [] [] (SingleBuffer []) (SingleBuffer []) (ex_vec NComplex DTime (complex_to_array ones)) (ex_vec NComplex DTime (complex_to_array h)) ones h)
    as (v1 & b1 & v2 & b2 & y & ? & ? & ? & ?); [exact aligned_ex | vm_compute; lia | apply cplx_ex | apply cplx_ex | | apply agree_ex | done | | done | done | done | by left | |].
  - intros _. unfold alloc_len. cbn -[complex_to_array]. by rewrite complex_to_array_length, even_double.
  - unfold ones, h. rewrite !replicate_length. lia.
  - unfold h. rewrite replicate_length. lia.
  - exists v1, b1, v2, b2, y. split_and!; assumption.
Qed.
(** 514 zeros as taps, but the result is not zero. *)
Example C28_example_gap : exists v' b' y,
  convolve_signal (F := exact_fft) f64x2 48 one_core [] (SingleBuffer []) (ex_vec NComplex DTime (complex_to_array ones)) (ex_vec NComplex DTime (complex_to_array zeros)) = Done (v', b', Ok tt) /\
  cplx v' y /\ y !! (45 * 100) = Some (1, 0)%R /\ centred_convolution (0, 0)%R complex_sum complex_product ones zeros !! (45 * 100) = Some (0, 0)%R.
Proof.
  assert (Hlo : length ones = 70 * 100) by apply replicate_length. assert (Hlz : length zeros = 514) by apply replicate_length.
  destruct (C28_gap_refuted (F := exact_fft) exact_fft_computes f64x2 48 one_core [] (SingleBuffer []) (ex_vec NComplex DTime (complex_to_array ones)) (ex_vec NComplex DTime (complex_to_array zeros)) ones zeros (4 * 1024))
    as (v' & b' & y & E & Hy & Hl & K);
    [apply cplx_ex | apply cplx_ex | | apply agree_ex | done | done | rewrite Hlz; vm_compute; done | lia | lia | lia | lia |].
  - intros _. unfold alloc_len. cbn -[complex_to_array]. by rewrite complex_to_array_length, even_double.
  - exists v', b', y. split; [exact E|]. split; [exact Hy|]. split.
    + rewrite K by (rewrite Hlo; change (4 * 1024 / 2) with (2 * 1024); lia). unfold ones. apply lookup_replicate_2. lia.
    + unfold centred_convolution. rewrite circular_convolution_lookup by lia. f_equal. unfold series. rewrite Hlz.
      assert (Hz : forall k, k < 514 -> zeros !! k = Some (0, 0)%R) by (intros k Hk; apply lookup_replicate_2; done).
      assert (Hs : Forall (fun k => k < 514) (seq 0 514)) by (apply Forall_lookup; intros i k Hk; apply lookup_seq in Hk; lia).
      revert Hs. generalize (seq 0 514). intros l Hs. clear - Hz Hs.
      induction Hs as [|k l Hk Hs IH]; [done|]. cbn [map foldl]. rewrite (Hz k Hk). change (default ?aa (Some ?bb)) with bb.
      destruct (around _ _ _) as [a c]. unfold complex_product, complex_sum, cmul, cadd. cbn [fst snd].
      replace (_, _) with (0, 0)%R; [exact IH|]. cbn [nadd nmul nsub Rnum n0]. f_equal; lra.
Qed.
Example C28_example_function : exists v' b', convolve_real_response (F := exact_fft) (fun x => x) (fun _ => Some 1) (fun _ => true) (fun _ => 1%R) 1%R 1 f64x2 48 one_core [] (SingleBuffer [])
  (ex_vec NReal DTime [1; 2; 4]%R) = Done (v', b') /\ reals v' [7; 7; 7]%R.
Proof.
  destruct (C28_function_scalar (fun x => x) (fun _ => Some 1) (fun _ => true) f64x2 48 one_core [] (SingleBuffer []) (ex_vec NReal DTime [1; 2; 4]%R) (fun _ => 1%R) 1%R 1 1 (F := exact_fft)) as [K _];
    [done | done | left; cbn; lia |].
  destruct (K [1; 2; 4]%R) as (v' & b' & E & _ & Hv); [apply reals_ex | done |]. exists v', b'. split; [exact E|].
  match type of Hv with reals _ ?l => replace [7; 7; 7]%R with l; [exact Hv|] end.
  unfold function_convolution, series, around, circular. cbn. numbers. cbn. f_equal; [lra|]. f_equal; [lra|]. f_equal; lra.
Qed.
Example C28_example_function_sampled : exists v' b', convolve_real_response (F := exact_fft) (fun x => x) (fun _ => Some 1) (fun _ => true) (fun _ => 1%R) 1%R 7 f64x2 48 one_core [] (SingleBuffer [])
  (ex_vec NComplex DTime (complex_to_array ones)) = Done (v', b') /\
  cplx v' (function_convolution (0, 0)%R complex_sum complex_product counted (fun _ => (1, 0)%R) 1%R (Nat.min 7 (length ones)) ones).
Proof.
  assert (Hlo : length ones = 70 * 100) by apply replicate_length.
  destruct (C28_function_one (F := exact_fft) exact_fft_computes (fun x => x) (fun _ => Some 1) (fun _ => true) eq_refl eq_refl f64x2 48 one_core [] (SingleBuffer [])
     (ex_vec NComplex DTime (complex_to_array ones)) (fun _ => 1%R) 7 ones) as (v' & b' & E & _ & Hv);
    [exact aligned_ex | vm_compute; lia | done | apply cplx_ex | cbn; lra | | lia | done | done | done |].
  - unfold len. cbn [valid_len ex_vec]. rewrite complex_to_array_length, Hlo. lia.
  - exists v', b'. split; [exact E | exact Hv].
Qed.
(** Three ones in every neighbourhood of length one, but the sum is two. *)
Lemma one_whole : whole_inverse (fun x => x) 1.
Proof. split; [|lra]. replace (1 / 1 - 1 / 1)%R with 0%R by ring. rewrite Rabs_R0. cbn. lra. Qed.
Example C28_example_function_real : exists v' b' y, convolve_real_response (F := exact_fft) (fun x => x) (fun _ => Some 1) (fun _ => true) (fun _ => 1%R) 1%R 1 f64x2 48 one_core [] (SingleBuffer [])
  (ex_vec NReal DTime (replicate (21 * 100) 1%R)) = Done (v', b') /\ reals v' y /\ y !! 5 = Some 2%R.
Proof.
  set (x := replicate _ _). assert (Hlx : length x = 21 * 100) by apply replicate_length.
  destruct (C28_function_real_refuted (F := exact_fft) exact_fft_computes (fun x => x) (fun _ => Some 1) (fun _ => true) f64x2 48 one_core [] (SingleBuffer [])
     (ex_vec NReal DTime x) (fun _ => 1%R) 1%R 1 1 x) as [_ K];
    [exact aligned_ex | vm_compute; lia | done | apply reals_ex | cbn; lra | | lia | exact one_whole | done | done |].
  - unfold len. cbn [valid_len ex_vec]. rewrite Hlx. lia.
  - destruct K as (v' & b' & E & _ & Hv); [lia | done |]. set (h := stretched_response (fun _ => 1%R) 1%R 1 ((2 * 1 + 1) * 1)) in *.
    exists v', b', (centred_convolution n0 nadd nmul x h). split; [exact E|]. split; [exact Hv|]. change h with [1; 0; 1]%R. clear E Hv h.
    unfold centred_convolution. rewrite circular_convolution_lookup by lia. unfold series, around. cbn [seq map foldl Nat.mul Nat.add length].
    change (default ?aa ([?x1; ?x2; ?x3] !! 0)) with x1. change (default ?aa ([?x1; ?x2; ?x3] !! 1)) with x2. change (default ?aa ([?x1; ?x2; ?x3] !! 2)) with x3.
    assert (Hx : forall z, default (n0 : R) (x !! circular (length x) z) = 1%R).
    { intros z. assert (Hc : circular (length x) z < length x) by (apply circular_lt; lia). rewrite Hlx in Hc at 2. generalize dependent (circular (length x) z). intros c Hc. assert (E1 : x !! c = Some 1%R) by (by apply lookup_replicate_2). by rewrite E1. }
    rewrite !Hx. cbn [nadd nmul Rnum n0]. f_equal. lra.
Qed.
Example C28_example_function_panics : convolve_complex_response (F := exact_fft) (fun x => x) (fun _ => Some 1) (fun _ => true) (fun _ => (1, 1)%R) 1%R 7 f64x2 48 one_core [] (SingleBuffer [])
  (ex_vec NComplex DTime (complex_to_array ones)) = Panicked.
Proof.
  assert (Hlo : length ones = 70 * 100) by apply replicate_length.
  destruct (C28_function_complex_refuted (F := exact_fft) exact_fft_computes (fun x => x) (fun _ => Some 1) (fun _ => true) f64x2 48 one_core [] (SingleBuffer [])
     (ex_vec NComplex DTime (complex_to_array ones)) (fun _ => (1, 1)%R) 1%R 7 1 ones) as [K _];
    [exact aligned_ex | vm_compute; lia | done | apply cplx_ex | cbn; lra | | lia | exact one_whole | done | done |].
  - unfold len. cbn [valid_len ex_vec]. rewrite complex_to_array_length, Hlo. lia.
  - apply K. rewrite Hlo. pose proof (Nat.div_mod (2 * (70 * 100) + 2) 3 ltac:(lia)). pose proof (Nat.mod_upper_bound (2 * (70 * 100) + 2) 3 ltac:(lia)). lia.
Qed.

(** * C29 Iterators which wrap around *)

(** Every item is an element of the slice, the one at [pos + 1 + k] around the circle. No access is out of bounds: that would be [Panicked]. *)
Theorem C29_forward : forall {P} (x : list P) (pos : Z) n, x <> [] ->
  exists it l, wi_new (length x) pos n = Done it /\ items (wi_next x) it = Done l /\ length l = n /\
    forall k, k < n -> l !! k = x !! Z.to_nat ((pos + 1 + Z.of_nat k) mod Z.of_nat (length x)).
Proof.
  intros P x pos n Hx. destruct x as [|zero x']; [done|]. set (x := zero :: x') in *. assert (0 < length x) by (cbn; lia).
  eexists _, _. split; [by apply wi_new_Done|]. split; [by apply (items_forward zero)|]. rewrite map_length, seq_length. split; [done|].
  intros k Hk. change (map ?f ?l) with (f <$> l). rewrite list_lookup_fmap, lookup_seq_lt by done. cbn [fmap option_fmap option_map Nat.add].
  unfold around, circular. pose proof (circular_lt (length x) (pos + 1 + Z.of_nat k) ltac:(lia)) as Hc. unfold circular in Hc.
  apply lookup_lt_is_Some_2 in Hc as [y ->]. done.
Qed.
Print Assumptions C29_forward.
Theorem C29_backward : forall {P} (x : list P) (pos : Z) n, x <> [] ->
  exists it l, wi_new (length x) pos n = Done it /\ items (rwi_next x) it = Done l /\ length l = n /\
    forall k, k < n -> l !! k = x !! Z.to_nat ((pos - 1 - Z.of_nat k) mod Z.of_nat (length x)).
Proof.
  intros P x pos n Hx. destruct x as [|zero x']; [done|]. set (x := zero :: x') in *. assert (0 < length x) by (cbn; lia).
  eexists _, _. split; [by apply wi_new_Done|]. split; [by apply (items_backward zero)|]. rewrite map_length, seq_length. split; [done|].
  intros k Hk. change (map ?f ?l) with (f <$> l). rewrite list_lookup_fmap, lookup_seq_lt by done. cbn [fmap option_fmap option_map Nat.add].
  unfold around, circular. pose proof (circular_lt (length x) (pos - 1 - Z.of_nat k) ltac:(lia)) as Hc. unfold circular in Hc.
  apply lookup_lt_is_Some_2 in Hc as [y ->]. done.
Qed.
Print Assumptions C29_backward.
(** An empty slice panics in the constructor. *)
Theorem C29_empty : forall pos n, wi_new 0 pos n = Panicked.
Proof. done. Qed.
Print Assumptions C29_empty.
Example C29_example : (it ← wi_new 3 (-7)%Z 5; items (wi_next [10; 20; 30]) it) = Done [10; 20; 30; 10; 20] /\
  (it ← wi_new 3 (-7)%Z 5; items (rwi_next [10; 20; 30]) it) = Done [20; 10; 30; 20; 10].
Proof. split; vm_compute; done. Qed.
Example C29_example_hyp : exists it l, wi_new 3 4%Z 7 = Done it /\ items (wi_next [10; 20; 30]) it = Done l /\ length l = 7 /\
  forall k, k < 7 -> l !! k = [10; 20; 30] !! Z.to_nat ((4 + 1 + Z.of_nat k) mod 3)%Z.
Proof. by apply (C29_forward [10; 20; 30] 4 7). Qed.

(** * C30 Convolution of matrices *)

(** Real matrices: row [r] of the result is the sum of the convolutions of all rows with the impulse responses of row [r]. *)
Theorem C30_reals : forall {A} `{Num A}, exact_ring A -> forall b (rows : matrix A) (imps : list (matrix A)) xs hs n m, rows <> [] -> length imps = length rows ->
  real_rows rows xs -> Forall (fun x => length x = n) xs ->
  Forall2 real_rows imps hs -> Forall (fun imp => length imp = length rows) imps -> Forall (Forall (fun h => length h = m)) hs -> m <= n ->
  (forall store, b = FixedLenBuffer store -> n * length rows <= length store) -> length rows <= 64 ->
  exists rows' b', mat_convolve_signal b rows imps = Done (rows', b', Ok tt) /\
    real_rows rows' (map (fun h => row_sums n0 nadd n (zip_with (centred_convolution n0 nadd nmul) xs h)) hs) /\ Forall2 same_meta rows rows'.
Proof. exact @mat_convolve_reals. Qed.
Print Assumptions C30_reals.
(** What is missing: complex matrices. The rows are cut to the length of the impulse responses before they are convolved. *)
Theorem C30_complex_refuted : forall {A} `{Num A} (rows imps : matrix A) xs hs n m target, rows <> [] -> length imps = length rows ->
  complex_rows rows xs -> complex_rows imps hs -> Forall (fun x => length x = n) xs -> Forall (fun h => length h = m) hs -> 0 < m <= n -> 2 * n <= length target ->
  length rows <= 64 ->
  convolve_mat rows imps target =
    Done (complex_to_array (matrix_convolution (n0, n0) complex_sum complex_product ((m + 1) / 2) n (map (take m) xs) hs) ++ drop (2 * n) target, Ok tt).
Proof. exact @convolve_mat_cplx. Qed.
Print Assumptions C30_complex_refuted.
(** Also missing: matrices of more than 64 rows, with which the code always panics. *)
Theorem C30_many_rows_refuted : forall {A} `{Num A} b (rows : matrix A) (imps : list (matrix A)) n m, 64 < length rows -> imps <> [] ->
  Forall (fun v => len v = n) rows -> Forall (fun imp => length imp = length rows /\ Forall (fun v => len v = m) imp) imps ->
  mat_convolve_signal b rows imps = Panicked.
Proof. exact @mat_convolve_many. Qed.
Print Assumptions C30_many_rows_refuted.
Example C30_many_rows_example : let row := ex_vec NReal DTime [1; 2; 3]%Z in let tap := ex_vec NReal DTime [1]%Z in
  mat_convolve_signal (SingleBuffer []) (replicate 65 row) (replicate 65 (replicate 65 tap)) = Panicked.
Proof. intros row tap. apply (C30_many_rows_refuted _ _ _ 3 1); [rewrite replicate_length; lia | done | by apply Forall_replicate |]. apply Forall_replicate. by rewrite !replicate_length; split; [|apply Forall_replicate]. Qed.
(** Matrices which don't fit together are refused. *)
Theorem C30_errors : forall {A} `{Num A} (rows imps : matrix A) target,
  rows = [] \/ imps = [] \/ length imps <> length rows \/ (exists v w, v ∈ rows /\ w ∈ rows /\ len v <> len w) \/ (exists v w, v ∈ imps /\ w ∈ imps /\ len v <> len w) ->
  convolve_mat rows imps target = Done (target, Err InvalidArgumentLength).
Proof. exact @convolve_mat_error. Qed.
Print Assumptions C30_errors.

Example C30_example : let row := ex_vec NReal DTime in
  exists rows' b', mat_convolve_signal (SingleBuffer []) [row [1; 2; 3]%Z; row [4; 5; 6]%Z] [[row [1]; row [0]]; [row [1]; row [10]]]%Z = Done (rows', b', Ok tt) /\
    real_rows rows' [[1; 2; 3]; [41; 52; 63]]%Z.
Proof.
  intros row. destruct (C30_reals Z_exact (SingleBuffer []) [row [1; 2; 3]%Z; row [4; 5; 6]%Z] [[row [1]; row [0]]; [row [1]; row [10]]]%Z
    [[1; 2; 3]; [4; 5; 6]]%Z [[[1]; [0]]; [[1]; [10]]]%Z 3 1) as (rows' & b' & E & Hr & _); try done; try (by repeat constructor); try lia.
  by exists rows', b'.
Qed.
(** Three points, one tap of one: the result should be the row itself, but it is its first point three times. *)
Example C30_example_complex : convolve_mat [ex_vec NComplex DTime [1; 2; 3; 4; 5; 6]%Z] [ex_vec NComplex DTime [1; 0]%Z] [0; 0; 0; 0; 0; 0]%Z =
  Done ([1; 2; 1; 2; 1; 2]%Z, Ok tt) /\
  centred_convolution (0, 0)%Z complex_sum complex_product [(1, 2); (3, 4); (5, 6)]%Z [(1, 0)]%Z = [(1, 2); (3, 4); (5, 6)]%Z.
Proof. split; vm_compute; done. Qed.
Example C30_example_error : convolve_mat [ex_vec NReal DTime [1; 2; 3]%Z] [] [0; 0; 0]%Z = Done ([0; 0; 0]%Z, Err InvalidArgumentLength).
Proof. vm_compute. done. Qed.
(** With too few rows of impulse responses, the rest of the matrix is overwritten with what was in the buffer, and no error is reported. *)
Example C30_missing_rows_refuted : let row := ex_vec NReal DTime in
  exists b', mat_convolve_signal (SingleBuffer [7; 7; 7; 7; 7; 7]%Z) [row [1; 2; 3]%Z; row [4; 5; 6]%Z] [[row [1]; row [0]]]%Z = Done ([row [1; 2; 3]%Z; row [7; 7; 7]%Z], b', Ok tt).
Proof. eexists. vm_compute. done. Qed.
