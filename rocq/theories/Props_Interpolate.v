(** C51 to C57: interpolation in frequency domain and with an impulse response. *)
From Verif Require Import Proof_Base Proof_Vec Proof_Window Proof_Dft Proof_Trig Proof_Exact Proof_Interpolate Proof_Interpolatei Proof_Interpolatef Proof_InterpolateSimd2 Proof_Interpolate2 Proof_BackEven Proof_Dot NumsR.
From stdpp Require Import list_numbers.
From Verif Require Import Spec_Interp Spec_Interpolate Props_Convolve.
Local Open Scope R_scope.
Local Notation C := (R * R)%type.


Definition no_schedules : schedules := Schedules [] [] [] [].
Lemma band_2 f : band 2 f = if ((f =? -1) || (f =? 0))%Z then 1 else 0.
Proof. unfold band, in_band. change (2 / 2)%nat with 1%nat. change (2 - 1)%nat with 1%nat. destruct (Z.leb_spec (- Z.of_nat 1) f), (Z.ltb_spec f (Z.of_nat 1)), (Z.eqb_spec f (-1)), (Z.eqb_spec f 0); done || lia. Qed.

(** * C51 interpft to the same number of points changes nothing *)
Theorem C51_complex : forall `{F : Fft R}, computes_dft -> forall r addr s sc sch b (v : dvec R) c,
  cplx v c -> c <> [] -> aligned_all r addr -> lends b v (2 * length c) -> spare b (2 * fft_inplace_scratch_len (length c)) ->
  exists v' b', interpft r addr s sc sch b v (length c) = Done (v', b') /\ cplx v' c /\ same_meta v v'.
Proof. exact @interpft_same_cplx. Qed.
Print Assumptions C51_complex.
Theorem C51_reals : forall `{F : Fft R}, computes_dft -> forall r addr s sc sch b (v : dvec R) l,
  reals v l -> l <> [] -> aligned_all r addr -> lends b v (2 * length l) -> spare b (2 * fft_inplace_scratch_len (length l)) ->
  exists v' b', interpft r addr s sc sch b v (length l) = Done (v', b') /\ reals v' l /\ same_meta v v'.
Proof. exact @interpft_same_reals. Qed.
Print Assumptions C51_reals.
Example C51_example : exists v' b', interpft (F := exact_fft) f64x2 48 one_core one_core no_schedules (SingleBuffer []) (ex_vec NReal DTime [1; 5; -2]) 3 = Done (v', b') /\ reals v' [1; 5; -2].
Proof.
  destruct (C51_reals (F := exact_fft) exact_fft_computes f64x2 48 one_core one_core no_schedules (SingleBuffer []) (ex_vec NReal DTime [1; 5; -2]) [1; 5; -2]) as (v' & b' & ? & ? & _);
    [apply reals_ex | done | exact aligned_ex | done | done | by exists v', b'].
Qed.

(** * C52 interpft gives points of the trigonometric polynomial through the points *)
Theorem C52_complex : forall `{F : Fft R}, computes_dft -> forall r addr s sc sch b (v : dvec R) c m,
  cplx v c -> c <> [] -> (0 < m)%nat -> aligned_all r addr -> lends b v (2 * Nat.max (length c) m) ->
  spare b (2 * fft_inplace_scratch_len (length c)) -> spare b (2 * fft_inplace_scratch_len m) ->
  exists v' b', interpft r addr s sc sch b v m = Done (v', b') /\ cplx v' (samples c (band m) m 0) /\
    delta v' = delta v * INR (length c) / INR m /\ number_space v' = number_space v /\ domain v' = domain v.
Proof. exact @interpft_cplx. Qed.
Print Assumptions C52_complex.
Theorem C52_reals : forall `{F : Fft R}, computes_dft -> forall r addr s sc sch b (v : dvec R) l m,
  reals v l -> l <> [] -> (0 < m)%nat -> aligned_all r addr -> lends b v (2 * Nat.max (length l) m) ->
  spare b (2 * fft_inplace_scratch_len (length l)) -> spare b (2 * fft_inplace_scratch_len m) ->
  exists v' b', interpft r addr s sc sch b v m = Done (v', b') /\ reals v' (map fst (samples (map of_real l) (band m) m 0)) /\
    delta v' = delta v * INR (length l) / INR m /\ number_space v' = number_space v /\ domain v' = domain v.
Proof. exact @interpft_reals. Qed.
Print Assumptions C52_reals.
(** If the points are those of a signal without frequencies above half of the sampling rate, the result is the points of that signal. *)
Theorem C52_band_limited : forall `{F : Fft R}, computes_dft -> forall r addr s sc sch b (v : dvec R) a m,
  cplx v (sampled (harmonics a (fun _ => 1)) (length a)) -> a <> [] -> (length a <= m)%nat -> aligned_all r addr ->
  lends b v (2 * m) -> spare b (2 * fft_inplace_scratch_len (length a)) -> spare b (2 * fft_inplace_scratch_len m) ->
  exists v' b', interpft r addr s sc sch b v m = Done (v', b') /\
    cplx v' (map (fun i => harmonics a (fun _ => 1) (INR i * INR (length a) / INR m)) (seq 0 m)).
Proof. exact @interpft_exact_cplx. Qed.
Print Assumptions C52_band_limited.
(** Every [k]th of the points is an original one if there are [k] times as many points. *)
Theorem C52_kept_complex : forall `{F : Fft R}, computes_dft -> forall r addr s sc sch b (v : dvec R) c k,
  cplx v c -> c <> [] -> (0 < k)%nat -> aligned_all r addr -> lends b v (2 * (length c * k)) ->
  spare b (2 * fft_inplace_scratch_len (length c)) -> spare b (2 * fft_inplace_scratch_len (length c * k)) ->
  exists v' b' y, interpft r addr s sc sch b v (length c * k) = Done (v', b') /\ cplx v' y /\ forall i, (i < length c)%nat -> y !! (i * k)%nat = c !! i.
Proof.
  intros F HF r addr s sc sch b v c k Hv Hc Hk Hal Hb H1 H2. assert (Hn : (0 < length c)%nat) by (destruct c; [done | cbn; lia]).
  destruct (C52_complex HF r addr s sc sch b v c (length c * k)) as (v' & b' & E & K1 & _); try done; [nia | by rewrite Nat.max_r by nia|].
  eexists v', b', _. split; [exact E|]. split; [exact K1|]. intros i Hi. by apply samples_kept.
Qed.
Print Assumptions C52_kept_complex.
Theorem C52_kept_reals : forall `{F : Fft R}, computes_dft -> forall r addr s sc sch b (v : dvec R) l k,
  reals v l -> l <> [] -> (0 < k)%nat -> aligned_all r addr -> lends b v (2 * (length l * k)) ->
  spare b (2 * fft_inplace_scratch_len (length l)) -> spare b (2 * fft_inplace_scratch_len (length l * k)) ->
  exists v' b' y, interpft r addr s sc sch b v (length l * k) = Done (v', b') /\ reals v' y /\ forall i, (i < length l)%nat -> y !! (i * k)%nat = l !! i.
Proof.
  intros F HF r addr s sc sch b v l k Hv Hc Hk Hal Hb H1 H2. assert (Hn : (0 < length l)%nat) by (destruct l; [done | cbn; lia]).
  destruct (C52_reals HF r addr s sc sch b v l (length l * k)) as (v' & b' & E & K1 & _); try done; [nia | by rewrite Nat.max_r by nia|].
  eexists v', b', _. split; [exact E|]. split; [exact K1|]. intros i Hi. by apply samples_kept_real.
Qed.
Print Assumptions C52_kept_reals.
Example C52_example : exists v' b' y, interpft (F := exact_fft) f64x2 48 one_core one_core no_schedules (SingleBuffer []) (ex_vec NReal DTime [1; 5; -2]) (3 * 2) = Done (v', b') /\
  reals v' y /\ y !! 2%nat = Some 5.
Proof.
  destruct (C52_kept_reals (F := exact_fft) exact_fft_computes f64x2 48 one_core one_core no_schedules (SingleBuffer []) (ex_vec NReal DTime [1; 5; -2]) [1; 5; -2] 2) as (v' & b' & y & ? & ? & K);
    [apply reals_ex | done | lia | exact aligned_ex | done | done | done |].
  exists v', b', y. split; [done|]. split; [done|]. apply (K 1%nat). cbn. lia.
Qed.
(** One harmonic, from 2 to 5 points *)
Example C52_example_band_limited : let a := [(3, 0); (0, 1)] in exists v' b',
  interpft (F := exact_fft) f64x2 48 one_core one_core no_schedules (SingleBuffer []) (ex_vec NComplex DTime (complex_to_array (sampled (harmonics a (fun _ => 1)) 2))) 5 = Done (v', b').
Proof.
  intros a. destruct (C52_band_limited (F := exact_fft) exact_fft_computes f64x2 48 one_core one_core no_schedules (SingleBuffer [])
    (ex_vec NComplex DTime (complex_to_array (sampled (harmonics a (fun _ => 1)) 2))) a 5) as (v' & b' & E & _);
    [apply cplx_ex | done | cbn; lia | exact aligned_ex | done | done | done | by exists v', b'].
Qed.
(** Fewer points: only the frequencies which they can represent *)
Example C52_example_fewer : exists v' b', interpft (F := exact_fft) f64x2 48 one_core one_core no_schedules (SingleBuffer []) (ex_vec NComplex DTime [1; 2; 3; 4; 5; 6]) 2 = Done (v', b') /\
  cplx v' (samples [(1, 2); (3, 4); (5, 6)] (band 2) 2 0).
Proof.
  destruct (C52_complex (F := exact_fft) exact_fft_computes f64x2 48 one_core one_core no_schedules (SingleBuffer []) (ex_vec NComplex DTime [1; 2; 3; 4; 5; 6]) [(1, 2); (3, 4); (5, 6)] 2)
    as (v' & b' & ? & ? & _); [apply (cplx_ex DTime [(1, 2); (3, 4); (5, 6)]) | done | lia | exact aligned_ex | done | done | done | by exists v', b'].
Qed.

(** * C53 interpolate with a delay *)
(** For an even number of points, or without a delay. [placed] is what a frequency response is in fact multiplied with, see C55. *)
Theorem C53_complex : forall `{F : Fft R}, computes_dft -> forall r addr s sc sch b (v : dvec R) function c m delay,
  cplx v c -> c <> [] -> (0 < m)%nat -> aligned_all r addr -> lends b v (2 * Nat.max (length c) m) ->
  spare b (2 * fft_inplace_scratch_len (length c)) -> spare b (2 * fft_inplace_scratch_len m) ->
  (delay = 0 \/ Nat.even (length c) = true) -> (forall h, function = Some h -> (length c < m)%nat -> foldable h sc m) ->
  exists v' b', interpolate r addr s sc sch b v function m delay = Done (v', b', Ok tt) /\
    cplx v' (samples c (placed function (length c) m) m (delay / delta v)) /\
    delta v' = delta v / (INR m / INR (length c)) /\ number_space v' = number_space v /\ domain v' = domain v.
Proof. exact @interpolate_cplx. Qed.
Print Assumptions C53_complex.
Theorem C53_reals : forall `{F : Fft R}, computes_dft -> forall r addr s sc sch b (v : dvec R) function l m delay,
  reals v l -> l <> [] -> (0 < m)%nat -> aligned_all r addr -> lends b v (2 * Nat.max (length l) m) ->
  spare b (2 * fft_inplace_scratch_len (length l)) -> spare b (2 * fft_inplace_scratch_len m) ->
  (delay = 0 \/ Nat.even (length l) = true) -> (forall h, function = Some h -> r_symmetric h = true /\ ((length l < m)%nat -> foldable h sc m)) ->
  exists v' b', interpolate r addr s sc sch b v function m delay = Done (v', b', Ok tt) /\
    reals v' (map fst (samples (map of_real l) (placed function (length l) m) m (delay / delta v))) /\
    delta v' = delta v / (INR m / INR (length l)) /\ number_space v' = number_space v /\ domain v' = domain v.
Proof. exact @interpolate_reals. Qed.
Print Assumptions C53_reals.
(** The gain of a response is what it should be if the response is symmetric and [m] is even, or if neither is true. *)
Theorem C53_gain : forall function n m f, (forall h, function = Some h -> (n < m)%nat -> centered h m) -> placed function n m f = gain function n m f.
Proof. exact placed_gain_centered. Qed.
Print Assumptions C53_gain.
(** Hence for such a response the result is the delayed polynomial with the gain of the response: *)
Theorem C53_centered_complex : forall `{F : Fft R}, computes_dft -> forall r addr s sc sch b (v : dvec R) function c m delay,
  cplx v c -> c <> [] -> (0 < m)%nat -> aligned_all r addr -> lends b v (2 * Nat.max (length c) m) ->
  spare b (2 * fft_inplace_scratch_len (length c)) -> spare b (2 * fft_inplace_scratch_len m) ->
  (delay = 0 \/ Nat.even (length c) = true) -> (forall h, function = Some h -> (length c < m)%nat -> foldable h sc m /\ centered h m) ->
  exists v' b', interpolate r addr s sc sch b v function m delay = Done (v', b', Ok tt) /\
    cplx v' (samples c (gain function (length c) m) m (delay / delta v)) /\
    delta v' = delta v / (INR m / INR (length c)) /\ number_space v' = number_space v /\ domain v' = domain v.
Proof.
  intros F HF r addr s sc sch b v function c m delay Hv Hc Hm Hal Hb H1 H2 Hd Hh.
  rewrite (samples_ext c (gain function (length c) m) (placed function (length c) m)).
  - apply C53_complex; try done. intros h E1 E2. by apply (Hh h).
  - intros k _. symmetry. apply C53_gain. intros h E1 E2. by apply (Hh h).
Qed.
Print Assumptions C53_centered_complex.
Theorem C53_centered_reals : forall `{F : Fft R}, computes_dft -> forall r addr s sc sch b (v : dvec R) function l m delay,
  reals v l -> l <> [] -> (0 < m)%nat -> aligned_all r addr -> lends b v (2 * Nat.max (length l) m) ->
  spare b (2 * fft_inplace_scratch_len (length l)) -> spare b (2 * fft_inplace_scratch_len m) ->
  (delay = 0 \/ Nat.even (length l) = true) ->
  (forall h, function = Some h -> r_symmetric h = true /\ ((length l < m)%nat -> foldable h sc m /\ even_function (r_calc h) /\ Nat.even m = true)) ->
  exists v' b', interpolate r addr s sc sch b v function m delay = Done (v', b', Ok tt) /\
    reals v' (map fst (samples (map of_real l) (gain function (length l) m) m (delay / delta v))) /\
    delta v' = delta v / (INR m / INR (length l)) /\ number_space v' = number_space v /\ domain v' = domain v.
Proof.
  intros F HF r addr s sc sch b v function l m delay Hv Hc Hm Hal Hb H1 H2 Hd Hh.
  rewrite (samples_ext (map of_real l) (gain function (length l) m) (placed function (length l) m)).
  - apply C53_reals; try done. intros h E1. destruct (Hh h E1) as [K1 K2]. split; [done|]. intros K3. by apply K2.
  - intros k _. symmetry. apply C53_gain. intros h E1 E2. left. destruct (Hh h E1) as [K1 K2]. destruct (K2 E2) as (_ & K3 & K4). done.
Qed.
Print Assumptions C53_centered_reals.
(** An asymmetric response is refused for real vectors, and nothing changes. *)
Theorem C53_asymmetric : forall `{F : Fft R} r addr s sc sch b (v : dvec R) h m delay, is_complex v = false -> r_symmetric h = false ->
  interpolate r addr s sc sch b v (Some h) m delay = Done (v, b, Err ArgumentFunctionMustBeSymmetric).
Proof. intros F r addr s sc sch b v h m delay Hc Hs. unfold interpolate. by rewrite Hc, Hs. Qed.
Print Assumptions C53_asymmetric.
(** With a delay a single point, and with it the constant signal 1, is negated. *)
Theorem C53_odd_refuted : exists (F : Fft R), computes_dft /\ exists v v' b' : _, cplx v [(1, 0)] /\ delta v = 1 /\
  interpolate f64x2 48 one_core one_core no_schedules (SingleBuffer []) v None 1 (1 / 2) = Done (v', b', Ok tt) /\
  cplx v' [(-1, 0)] /\ samples [(1, 0)] (band 1) 1 (1 / 2) = [(1, 0)].
Proof.
  exists exact_fft. split; [exact exact_fft_computes|]. set (v := ex_vec NComplex DTime [1; 0]). exists v.
  destruct (interpolate_cplx' (F := exact_fft) exact_fft_computes f64x2 48 one_core one_core no_schedules (SingleBuffer []) v None [(1, 0)] 1 (1 / 2) [(-1, 0)] 0)
    as (v' & b' & E & K & _); [apply (cplx_ex DTime [(1, 0)]) | done | lia | exact aligned_ex | done | done | done | | done |].
  { change (delta v) with 1. replace (1 / 2 / 1) with (1 / 2) by field. exact delays_single. }
  exists v', b'. split; [apply (cplx_ex DTime [(1, 0)])|]. split; [done|]. split; [exact E|]. split.
  - assert (Es := samples_same [(-1, 0)]). cbn [length] in Es. change (placed None (length [(1, 0)]) 1) with (band 1) in K. rewrite Es in K by done. exact K.
  - unfold samples. cbn [seq map length]. f_equal. unfold polynomial. cbn [length]. cbv zeta. rewrite dft_single. change (series (0, 0) complex_sum) with Proof_Dft.csm. change complex_product with (@cmul R _).
    rewrite (Proof_Dft.csm_single 1 0) by lia. change (default ?aa ([?bb] !! 0%nat)) with bb. change (frequency 1 0) with 0%Z. change (band 1 0) with 1.
    match goal with |- context [circle ?aa] => replace aa with 0 by (unfold Rdiv; ring) end. rewrite circle_0. unfold cmul. cbn. f_equal; field.
Qed.
Print Assumptions C53_odd_refuted.
Definition low_pass : response R R := Response true (fun y => if Rlt_dec (Rabs y) 1 then 1 else 0).
Lemma low_pass_even : even_function (r_calc low_pass).
Proof. intros x. cbn. by rewrite Rabs_Ropp. Qed.
Lemma folds s n : threads s n = 1%nat -> (2 <= n)%nat -> foldable low_pass s n.
Proof. intros H1 H2 _. by left. Qed.
Example C53_example : exists v' b', interpolate (F := exact_fft) f64x2 48 one_core one_core no_schedules (SingleBuffer []) (ex_vec NReal DTime [1; 5; -2; 4]) (Some low_pass) 6 (1 / 3) = Done (v', b', Ok tt) /\
  reals v' (map fst (samples (map of_real [1; 5; -2; 4]) (placed (Some low_pass) 4 6) 6 (1 / 3 / 1))).
Proof.
  destruct (C53_reals (F := exact_fft) exact_fft_computes f64x2 48 one_core one_core no_schedules (SingleBuffer []) (ex_vec NReal DTime [1; 5; -2; 4]) (Some low_pass) [1; 5; -2; 4] 6 (1 / 3))
    as (v' & b' & E & K & _); [apply reals_ex | done | lia | exact aligned_ex | done | done | done | by right | | by exists v', b'].
  intros h Hh. injection Hh as <-. split; [done|]. intros _. by apply folds; [|lia].
Qed.
Example C53_example_gain : forall f, placed (Some low_pass) 4 6 f = response_gain (r_calc low_pass) 4 6 f.
Proof. intros f. rewrite C53_gain; [done|]. intros h Hh _. injection Hh as <-. left. split; [done|]. split; [exact low_pass_even | done]. Qed.
Example C53_example_asymmetric : interpolate (F := exact_fft) f64x2 48 one_core one_core no_schedules (SingleBuffer []) (ex_vec NReal DTime [1; 5]) (Some (Response false (fun x => x))) 6 0 =
  Done (ex_vec NReal DTime [1; 5], SingleBuffer [], Err ArgumentFunctionMustBeSymmetric).
Proof. by apply C53_asymmetric. Qed.

(** * C54 interpft to more points and back *)
Theorem C54_complex : forall `{F : Fft R}, computes_dft -> forall r addr s sc sch b (v : dvec R) c m r2 addr2 s2 sc2 sch2 b2,
  cplx v c -> c <> [] -> (length c <= m)%nat -> aligned_all r addr -> aligned_all r2 addr2 ->
  lends b v (2 * m) -> spare b (2 * fft_inplace_scratch_len (length c)) -> spare b (2 * fft_inplace_scratch_len m) ->
  (forall w, lends b2 w (2 * m)) -> spare b2 (2 * fft_inplace_scratch_len (length c)) -> spare b2 (2 * fft_inplace_scratch_len m) ->
  exists v1 b1 v' b', interpft r addr s sc sch b v m = Done (v1, b1) /\ points v1 = m /\ interpft r2 addr2 s2 sc2 sch2 b2 v1 (length c) = Done (v', b') /\ cplx v' c /\ same_meta v v'.
Proof. exact @interpft_back_cplx. Qed.
Print Assumptions C54_complex.
(** A real vector of odd length *)
Theorem C54_reals : forall `{F : Fft R}, computes_dft -> forall r addr s sc sch b (v : dvec R) l m r2 addr2 s2 sc2 sch2 b2,
  reals v l -> Nat.odd (length l) = true -> (length l <= m)%nat -> aligned_all r addr -> aligned_all r2 addr2 ->
  lends b v (2 * m) -> spare b (2 * fft_inplace_scratch_len (length l)) -> spare b (2 * fft_inplace_scratch_len m) ->
  (forall w, lends b2 w (2 * m)) -> spare b2 (2 * fft_inplace_scratch_len (length l)) -> spare b2 (2 * fft_inplace_scratch_len m) ->
  exists v1 b1 v' b', interpft r addr s sc sch b v m = Done (v1, b1) /\ points v1 = m /\ interpft r2 addr2 s2 sc2 sch2 b2 v1 (length l) = Done (v', b') /\ reals v' l /\ same_meta v v'.
Proof. exact @interpft_back_reals. Qed.
Print Assumptions C54_reals.
(** For an even number of points the component at half of the sampling rate, which is [alternating l / n * (-1)^i], always loses half of its amplitude. *)
Theorem C54_reals_refuted : forall `{F : Fft R}, computes_dft -> forall r addr s sc sch b (v : dvec R) l m r2 addr2 s2 sc2 sch2 b2,
  reals v l -> l <> [] -> Nat.even (length l) = true -> (length l < m)%nat -> aligned_all r addr -> aligned_all r2 addr2 ->
  lends b v (2 * m) -> spare b (2 * fft_inplace_scratch_len (length l)) -> spare b (2 * fft_inplace_scratch_len m) ->
  (forall w, lends b2 w (2 * m)) -> spare b2 (2 * fft_inplace_scratch_len (length l)) -> spare b2 (2 * fft_inplace_scratch_len m) ->
  exists v1 b1 v' b', interpft r addr s sc sch b v m = Done (v1, b1) /\ points v1 = m /\ interpft r2 addr2 s2 sc2 sch2 b2 v1 (length l) = Done (v', b') /\
    reals v' (imap (fun i x => x - (-1) ^ i * (alternating l / INR (length l)) / 2) l) /\ same_meta v v'.
Proof. exact @interpft_back_even. Qed.
Print Assumptions C54_reals_refuted.
Example C54_example : exists v1 b1 v' b', interpft (F := exact_fft) f64x2 48 one_core one_core no_schedules (SingleBuffer []) (ex_vec NReal DTime [1; 5; -2]) 7 = Done (v1, b1) /\
  interpft (F := exact_fft) f64x2 48 one_core one_core no_schedules (SingleBuffer []) v1 3 = Done (v', b') /\ reals v' [1; 5; -2].
Proof.
  destruct (C54_reals (F := exact_fft) exact_fft_computes f64x2 48 one_core one_core no_schedules (SingleBuffer []) (ex_vec NReal DTime [1; 5; -2]) [1; 5; -2] 7
    f64x2 48 one_core one_core no_schedules (SingleBuffer [])) as (v1 & b1 & v' & b' & ? & _ & ? & ? & _);
    [apply reals_ex | done | cbn; lia | exact aligned_ex | exact aligned_ex | done | done | done | done | done | done | by exists v1, b1, v', b'].
Qed.
Example C54_example_even : exists v1 b1 v' b', interpft (F := exact_fft) f64x2 48 one_core one_core no_schedules (SingleBuffer []) (ex_vec NReal DTime [1; -1]) 4 = Done (v1, b1) /\
  interpft (F := exact_fft) f64x2 48 one_core one_core no_schedules (SingleBuffer []) v1 2 = Done (v', b') /\ reals v' [1 / 2; - (1 / 2)].
Proof.
  destruct (C54_reals_refuted (F := exact_fft) exact_fft_computes f64x2 48 one_core one_core no_schedules (SingleBuffer []) (ex_vec NReal DTime [1; -1]) [1; -1] 4
    f64x2 48 one_core one_core no_schedules (SingleBuffer [])) as (v1 & b1 & v' & b' & ? & _ & ? & K & _);
    [apply reals_ex | done | done | cbn; lia | exact aligned_ex | exact aligned_ex | done | done | done | done | done | done |].
  exists v1, b1, v', b'. split; [done|]. split; [done|].
  assert (E : imap (fun i x => x - (-1) ^ i * (alternating [1; -1] / INR (length [1; -1])) / 2) [1; -1] = [1 / 2; - (1 / 2)]).
  { unfold alternating, series. cbn. repeat f_equal; field. }
  by rewrite E in K.
Qed.
Example C54_example_complex : exists v1 b1 v' b', interpft (F := exact_fft) f64x2 48 one_core one_core no_schedules (SingleBuffer []) (ex_vec NComplex DTime [1; 5; -2; 4]) 7 = Done (v1, b1) /\
  interpft (F := exact_fft) f64x2 48 one_core one_core no_schedules (SingleBuffer []) v1 2 = Done (v', b') /\ cplx v' [(1, 5); (-2, 4)].
Proof.
  destruct (C54_complex (F := exact_fft) exact_fft_computes f64x2 48 one_core one_core no_schedules (SingleBuffer []) (ex_vec NComplex DTime [1; 5; -2; 4]) [(1, 5); (-2, 4)] 7
    f64x2 48 one_core one_core no_schedules (SingleBuffer [])) as (v1 & b1 & v' & b' & ? & _ & ? & ? & _);
    [apply (cplx_ex DTime [(1, 5); (-2, 4)]) | done | cbn; lia | exact aligned_ex | exact aligned_ex | done | done | done | done | done | done | by exists v1, b1, v', b'].
Qed.

(** * C55 interpolatei multiplies the spectrum of the points with zeros between them with the frequency response *)
Theorem C55_complex : forall `{F : Fft R}, computes_dft -> forall r addr s sc sch b (v : dvec R) h c k,
  (1 < k)%nat -> cplx v c -> c <> [] -> aligned_all r addr ->
  lends b v (2 * (length c * k)) -> spare b (2 * fft_inplace_scratch_len (length c * k)) -> foldable h sc (length c * k) ->
  exists v' b', interpolatei r addr s sc sch b v h k = Done (v', b', Ok tt) /\
    cplx v' (samples_with_images c (placed_gain h (length c) (length c * k)) k) /\ same_meta v v'.
Proof. exact @interpolatei_cplx. Qed.
Print Assumptions C55_complex.
Theorem C55_reals : forall `{F : Fft R}, computes_dft -> forall r addr s sc sch b (v : dvec R) h l k,
  (1 < k)%nat -> reals v l -> l <> [] -> aligned_all r addr ->
  lends b v (2 * (length l * k)) -> spare b (2 * fft_inplace_scratch_len (length l * k)) -> r_symmetric h = true -> foldable h sc (length l * k) ->
  exists v' b', interpolatei r addr s sc sch b v h k = Done (v', b', Ok tt) /\
    reals v' (map fst (samples_with_images (map of_real l) (placed_gain h (length l) (length l * k)) k)) /\ same_meta v v'.
Proof. exact @interpolatei_reals. Qed.
Print Assumptions C55_reals.
(** The gain is that of the response under the same conditions as before. *)
Theorem C55_gain : forall h n m f, centered h m -> placed_gain h n m f = response_gain (r_calc h) n m f.
Proof. exact placed_centered. Qed.
Print Assumptions C55_gain.
(** If the response removes what the original points can't represent, the result is the polynomial through them (with the gain of the response). *)
Theorem C55_no_images : forall (c : list C) g k t, c <> [] -> (0 < k)%nat -> (forall f, in_band (length c) f = false -> g f = 0) ->
  with_images c g (length c * k) t = polynomial c g t.
Proof. exact no_images. Qed.
Print Assumptions C55_no_images.
(** Hence an ideal interpolation filter (even, 0 outside of the band) in front of an even number of points gives the polynomial through the points. *)
Theorem C55_ideal : forall `{F : Fft R}, computes_dft -> forall r addr s sc sch b (v : dvec R) h l k,
  (1 < k)%nat -> reals v l -> l <> [] -> aligned_all r addr ->
  lends b v (2 * (length l * k)) -> spare b (2 * fft_inplace_scratch_len (length l * k)) -> r_symmetric h = true -> foldable h sc (length l * k) ->
  even_function (r_calc h) -> Nat.even (length l * k) = true ->
  (forall f, in_band (length l) f = false -> response_gain (r_calc h) (length l) (length l * k) f = 0) ->
  exists v' b', interpolatei r addr s sc sch b v h k = Done (v', b', Ok tt) /\ same_meta v v' /\
    reals v' (map (fun i => fst (polynomial (map of_real l) (response_gain (r_calc h) (length l) (length l * k)) (INR i / INR k))) (seq 0 (length l * k))).
Proof.
  intros F HF r addr s sc sch b v h l k Hk Hv Hl Hal Hb Hs Hsym Hfold Heven Hm Hg.
  destruct (C55_reals HF r addr s sc sch b v h l k) as (v' & b' & E & K & M); try done. exists v', b'. split; [exact E|]. split; [exact M|].
  replace (map _ (seq 0 (length l * k))) with (map fst (samples_with_images (map of_real l) (placed_gain h (length l) (length l * k)) k)); [exact K|].
  unfold samples_with_images. rewrite map_map, (map_length of_real). apply map_ext. intros i. f_equal. assert (Hlen := map_length of_real l).
  assert (Hp : forall f, placed_gain h (length l) (length l * k) f = response_gain (r_calc h) (length l) (length l * k) f) by (intros f; apply placed_centered; by left).
  rewrite <- Hlen at 3. rewrite no_images; [|by destruct l | lia|].
  - apply polynomial_ext. intros j _. apply Hp.
  - intros f Hf. rewrite Hp. apply Hg. by rewrite Hlen in Hf.
Qed.
Print Assumptions C55_ideal.
Theorem C55_asymmetric : forall `{F : Fft R} r addr s sc sch b (v : dvec R) h k, (1 < k)%nat -> is_complex v = false -> r_symmetric h = false ->
  interpolatei r addr s sc sch b v h k = Done (v, b, Err ArgumentFunctionMustBeSymmetric).
Proof. intros F r addr s sc sch b v h k Hk Hc Hs. unfold interpolatei. rewrite (proj2 (Nat.leb_gt k 1)) by lia. by rewrite Hc, Hs. Qed.
Print Assumptions C55_asymmetric.
Theorem C55_no_factor : forall `{F : Fft R} r addr s sc sch b (v : dvec R) h k, (k <= 1)%nat -> interpolatei r addr s sc sch b v h k = Done (v, b, Ok tt).
Proof. intros F r addr s sc sch b v h k Hk. unfold interpolatei. by rewrite (proj2 (Nat.leb_le k 1)) by lia. Qed.
Print Assumptions C55_no_factor.
(** A low pass filter doesn't leave the constant signal alone if the number of points afterwards is odd: *)
Theorem C55_odd_refuted : exists (F : Fft R), computes_dft /\ exists v v' b' y, reals v [1] /\
  interpolatei f64x2 48 one_core one_core no_schedules (SingleBuffer []) v low_pass 3 = Done (v', b', Ok tt) /\ reals v' y /\ y !! 0%nat = Some 2 /\
  map fst (samples_with_images [(1, 0)] (response_gain (r_calc low_pass) 1 3) 3) !! 0%nat = Some 1.
Proof.
  exists exact_fft. split; [exact exact_fft_computes|]. set (v := ex_vec NReal DTime [1]). exists v.
  destruct (C55_reals (F := exact_fft) exact_fft_computes f64x2 48 one_core one_core no_schedules (SingleBuffer []) v low_pass [1] 3) as (v' & b' & E & K & _);
    [lia | apply reals_ex | done | exact aligned_ex | done | done | done | by apply folds; [|cbn; lia] |].
  eexists v', b', _. split; [apply reals_ex|]. split; [exact E|]. split; [exact K|]. change (map of_real [1]) with [(1, 0)]. change (length [1]) with 1%nat.
  assert (E0 : r_calc low_pass 0 = 1). { cbn. destruct (Rlt_dec (Rabs 0) 1) as [|K1]; [done|]. exfalso. apply K1. rewrite Rabs_R0. lra. }
  assert (Ef : forall x, 1 <= Rabs x -> r_calc low_pass x = 0). { intros x Hx. cbn. destruct (Rlt_dec (Rabs x) 1); [lra | done]. }
  change (map fst ?x) with (fst <$> x). rewrite !list_lookup_fmap, !samples_with_images_first by (done || lia). cbn [length]. rewrite !with_images_single. cbn [fmap option_fmap option_map fst].
  change (seq 0 (1 * 3)) with [0%nat; 1%nat; 2%nat]. cbn [map fold_right].
  change (frequency (1 * 3) 0) with 0%Z. change (frequency (1 * 3) 1) with 1%Z. change (frequency (1 * 3) 2) with (-1)%Z. unfold placed_gain, response_gain. cbn [r_symmetric low_pass].
  change (1 * 3)%nat with 3%nat. change (Nat.even 3) with false. change (3 / 2)%nat with 1%nat. cbn [Z.leb Z.compare]. change (- -1 - 1)%Z with 0%Z. fold low_pass.
  replace (0 / INR 1 * (INR 3 / INR 1)) with 0 by (cbn; field). rewrite E0. rewrite (Ef (1 / INR 1 * (INR 3 / INR 1))), (Ef (-1 / INR 1 * (INR 3 / INR 1))).
  - split; f_equal; lra.
  - replace (-1 / INR 1 * (INR 3 / INR 1)) with (-3) by (cbn; field). rewrite Rabs_left; lra.
  - replace (1 / INR 1 * (INR 3 / INR 1)) with 3 by (cbn; field). rewrite Rabs_right; lra.
Qed.
Print Assumptions C55_odd_refuted.
(** A response which isn't symmetric is read at the wrong places if the number of points afterwards is even: here it should let the frequency -1 pass, and nothing passes. *)
Definition one_bin : response R R := Response false (fun y => if Req_EM_T y (-2) then 1 else 0).
Theorem C55_even_refuted : exists (F : Fft R), computes_dft /\ exists v v' b' y, cplx v [(1, 0)] /\
  interpolatei f64x2 48 one_core one_core no_schedules (SingleBuffer []) v one_bin 4 = Done (v', b', Ok tt) /\ cplx v' y /\ y !! 0%nat = Some (0, 0) /\
  samples_with_images [(1, 0)] (response_gain (r_calc one_bin) 1 4) 4 !! 0%nat = Some (1, 0).
Proof.
  exists exact_fft. split; [exact exact_fft_computes|]. set (v := ex_vec NComplex DTime [1; 0]). exists v.
  destruct (C55_complex (F := exact_fft) exact_fft_computes f64x2 48 one_core one_core no_schedules (SingleBuffer []) v one_bin [(1, 0)] 4) as (v' & b' & E & K & _);
    [lia | apply (cplx_ex DTime [(1, 0)]) | done | exact aligned_ex | done | done | done |].
  eexists v', b', _. split; [apply (cplx_ex DTime [(1, 0)])|]. split; [exact E|]. split; [exact K|].
  assert (E1 : r_calc one_bin (-2) = 1). { cbn [r_calc one_bin]. destruct (Req_EM_T (-2) (-2)) as [_|K1]; [reflexivity | exfalso; apply K1; reflexivity]. }
  assert (Ef : forall x, x <> -2 -> r_calc one_bin x = 0). { intros x Hx. cbn [r_calc one_bin]. destruct (Req_EM_T x (-2)) as [K1|_]; [exfalso; exact (Hx K1) | reflexivity]. }
  assert (A : forall g, samples_with_images [(1, 0)] g 4 !! 0%nat = Some (g 0%Z + (g 1%Z + (g (-2)%Z + (g (-1)%Z + 0))), 0)).
  { intros g. rewrite samples_with_images_first; [|lia|discriminate]. f_equal. exact (with_images_single g 4). }
  assert (Ex : forall z, IZR z / INR 2 * (INR 4 / INR 1) = 2 * IZR z) by (intros z; cbn; field).
  assert (B : forall z, response_gain (r_calc one_bin) 1 4 z = if (z =? -1)%Z then 1 else 0).
  { intros z. unfold response_gain. change (4 / 2)%nat with 2%nat. rewrite Ex. destruct (Z.eqb_spec z (-1)) as [->|Hz]; [replace (2 * -1) with (-2) by lra; exact E1|].
    apply Ef. intros Hq. apply Hz, eq_IZR. lra. }
  split.
  - eapply eq_trans; [exact (A _)|]. cbn [length]. change (1 * 4)%nat with 4%nat. unfold placed_gain. rewrite !B. cbn [r_symmetric one_bin Nat.even Z.leb Z.compare].
    change (-2 =? - Z.of_nat (4 / 2))%Z with true. change (-1 =? - Z.of_nat (4 / 2))%Z with false. cbv iota.
    change (- -2 =? -1)%Z with false. change (-1 - 1 =? -1)%Z with false. change (0 =? -1)%Z with false. change (1 =? -1)%Z with false. cbv iota. f_equal. f_equal. lra.
  - eapply eq_trans; [exact (A _)|]. rewrite !B. change (-2 =? -1)%Z with false. change (-1 =? -1)%Z with true. change (0 =? -1)%Z with false. change (1 =? -1)%Z with false. cbv iota. f_equal. f_equal. lra.
Qed.
Print Assumptions C55_even_refuted.
Example C55_example : exists v' b', interpolatei (F := exact_fft) f64x2 48 one_core one_core no_schedules (SingleBuffer []) (ex_vec NReal DTime [1; 5; -2]) low_pass 2 = Done (v', b', Ok tt) /\
  reals v' (map fst (samples_with_images (map of_real [1; 5; -2]) (placed_gain low_pass 3 6) 2)).
Proof.
  destruct (C55_reals (F := exact_fft) exact_fft_computes f64x2 48 one_core one_core no_schedules (SingleBuffer []) (ex_vec NReal DTime [1; 5; -2]) low_pass [1; 5; -2] 2) as (v' & b' & E & K & _);
    [lia | apply reals_ex | done | exact aligned_ex | exact I | exact I | reflexivity | apply folds; [reflexivity | cbn; lia] | exists v', b'; split; [exact E | exact K]].
Qed.
(** 3 real points become 6, and the low pass filter removes all images: the result is the polynomial through the points. *)
Example C55_example_polynomial : forall t, with_images [(1, 0); (5, 0); (-2, 0)] (placed_gain low_pass 3 6) 6 t = polynomial [(1, 0); (5, 0); (-2, 0)] (placed_gain low_pass 3 6) t.
Proof.
  intros t. apply (C55_no_images [(1, 0); (5, 0); (-2, 0)] (placed_gain low_pass 3 6) 2); [done | lia|]. intros f Hf.
  rewrite C55_gain by (left; split_and!; [done | exact low_pass_even | done]). unfold response_gain. cbn [r_calc low_pass]. destruct (Rlt_dec _ 1) as [Hl|]; [|done]. exfalso.
  assert (Hz : (f <= -2 \/ 2 <= f)%Z).
  { unfold in_band in Hf. match type of Hf with context [Z.of_nat (?aa / 2)] => change (aa / 2)%nat with 1%nat in Hf; change aa with 3%nat in Hf end. cbn in Hf. apply andb_false_iff in Hf as [Hf|Hf]; [apply Z.leb_gt in Hf | apply Z.ltb_ge in Hf]; lia. }
  change (6 / 2)%nat with 3%nat in Hl. replace (IZR f / INR 3 * (INR 6 / INR 3)) with (IZR f * (2 / 3)) in Hl by (cbn; field). rewrite Rabs_mult, (Rabs_right (2 / 3)) in Hl by lra.
  assert (2 <= Rabs (IZR f)). { destruct Hz as [Hz|Hz]; apply IZR_le in Hz; [rewrite Rabs_left; lra | rewrite Rabs_right; lra]. }
  lra.
Qed.
Example C55_example_asymmetric : interpolatei (F := exact_fft) f64x2 48 one_core one_core no_schedules (SingleBuffer []) (ex_vec NReal DTime [1; 5]) one_bin 3 =
  Done (ex_vec NReal DTime [1; 5], SingleBuffer [], Err ArgumentFunctionMustBeSymmetric).
Proof. apply C55_asymmetric; [lia | done | done]. Qed.

(** * C56 interpolatef: every point is a weighted sum of its neighbours *)
Theorem C56_reals : forall (h : response R R) f delay c r addr s sched b (v : dvec R) n0, let n := (n0 + n0 mod 2)%nat in
  0 < f -> Rround (INR (len v) * f) = INR n0 -> lends b v n -> (0 < n)%nat \/ no_threads_for_nothing Large s ->
  (202 < half_at_most (points v) c)%nat \/ (n < 2000)%nat \/ / 1000000 <= Rabs (Rround f - f) -> forall x, reals v x -> x <> [] ->
  exists v' b', interpolatef h f delay c r addr s sched b v = Done (v', b') /\ same_meta v v' /\
    reals v' (map (fun i => weighted 0 Rplus Rmult (fun y => y) x (fun y => r_calc h (y + delay / delta v))
       (Int_part (INR i / f) - Z.of_nat (half_at_most (length x) c)) (half_at_most (length x) c) (INR i / f)) (seq 0 n)).
Proof. exact interpolatef_reals. Qed.
Print Assumptions C56_reals.
Theorem C56_complex : forall (h : response R R) f delay c r addr s sched b (v : dvec R) n0, let n := (n0 + n0 mod 2)%nat in
  0 < f -> Rround (INR (len v) * f) = INR n0 -> lends b v n -> (0 < n)%nat \/ no_threads_for_nothing Large s ->
  (202 < half_at_most (points v) c)%nat \/ (n < 2000)%nat \/ / 1000000 <= Rabs (Rround f - f) -> forall x, cplx v x -> x <> [] ->
  exists v' b', interpolatef h f delay c r addr s sched b v = Done (v', b') /\ same_meta v v' /\
    cplx v' (map (fun i => weighted (0, 0) complex_sum complex_product of_real x (fun y => r_calc h (y + delay / delta v))
       (Int_part (INR i / f) - Z.of_nat (half_at_most (length x) c)) (half_at_most (length x) c) (INR i / f)) (seq 0 (n / 2))).
Proof. exact interpolatef_cplx. Qed.
Print Assumptions C56_complex.
(** Without a delay, with a function which is 1 at 0 and 0 at all other integers, the points which are there before are among the points afterwards. *)
Lemma weighted_kept {P} (zero : P) add mul (from : R -> P) : comm_monoid add zero -> (forall x, mul x zero = zero) -> from 0 = zero -> (forall x, mul x (from 1) = x) ->
  forall x h c q i f d, (forall z, h (IZR z) = if (z =? 0)%Z then 1 else 0) -> 0 < f -> INR i / f = INR q -> (q < length x)%nat -> d <> 0 ->
  Some (weighted zero add mul from x (fun y => h (y + 0 / d)) (Int_part (INR i / f) - Z.of_nat c) c (INR i / f)) = x !! q.
Proof.
  intros M H0 H1 H2 x h c q i f d Hh Hf Hq Hx Hd. rewrite Hq, INR_IZR_INZ. rewrite (Proof_Interp.Int_part_unique _ (Z.of_nat q)) by lra.
  rewrite (weighted_at zero add mul from M H0 H1 H2 x (fun y => h (y + 0 / d))); [|intros z; replace (IZR z + 0 / d) with (IZR z) by (field; done); apply Hh | lia].
  unfold around. rewrite Proof_Convolve.circular_small by lia. rewrite Nat2Z.id.
  by destruct (lookup_lt_is_Some_2 x q Hx) as [y ->].
Qed.
Theorem C56_kept_reals : forall (h : response R R) f c r addr s sched b (v : dvec R) n0, let n := (n0 + n0 mod 2)%nat in
  0 < f -> Rround (INR (len v) * f) = INR n0 -> lends b v n -> (0 < n)%nat \/ no_threads_for_nothing Large s ->
  (202 < half_at_most (points v) c)%nat \/ (n < 2000)%nat \/ / 1000000 <= Rabs (Rround f - f) -> forall x, reals v x -> x <> [] ->
  delta v <> 0 -> (forall z, r_calc h (IZR z) = if (z =? 0)%Z then 1 else 0) ->
  exists v' b' y, interpolatef h f 0 c r addr s sched b v = Done (v', b') /\ reals v' y /\ length y = n /\
    forall i q, INR i / f = INR q -> (i < length y)%nat -> (q < length x)%nat -> y !! i = x !! q.
Proof.
  intros h f c r addr s sched b v n0 n Hf Hr Hl Ht Hs x Hv Hx Hd Hh. destruct (C56_reals h f 0 c r addr s sched b v n0 Hf Hr Hl Ht Hs x Hv Hx) as (v' & b' & E & _ & K).
  eexists v', b', _. split; [exact E|]. split; [exact K|]. split; [by rewrite map_length, seq_length|]. intros i q Hi Hl' Hq. fold n in Hl' |- *. rewrite map_length, seq_length in Hl'.
  match goal with |- map ?ff ?l !! _ = _ => change (map ff l) with (ff <$> l) end. rewrite list_lookup_fmap, lookup_seq_lt by done. cbn [fmap option_fmap option_map Nat.add].
  by apply (weighted_kept 0 Rplus Rmult (fun y => y) (real_monoid R_exact) (fun y => Rmult_0_r y) eq_refl (fun y => Rmult_1_r y)).
Qed.
Print Assumptions C56_kept_reals.
Theorem C56_kept_complex : forall (h : response R R) f c r addr s sched b (v : dvec R) n0, let n := (n0 + n0 mod 2)%nat in
  0 < f -> Rround (INR (len v) * f) = INR n0 -> lends b v n -> (0 < n)%nat \/ no_threads_for_nothing Large s ->
  (202 < half_at_most (points v) c)%nat \/ (n < 2000)%nat \/ / 1000000 <= Rabs (Rround f - f) -> forall x, cplx v x -> x <> [] ->
  delta v <> 0 -> (forall z, r_calc h (IZR z) = if (z =? 0)%Z then 1 else 0) ->
  exists v' b' y, interpolatef h f 0 c r addr s sched b v = Done (v', b') /\ cplx v' y /\ length y = (n / 2)%nat /\
    forall i q, INR i / f = INR q -> (i < length y)%nat -> (q < length x)%nat -> y !! i = x !! q.
Proof.
  intros h f c r addr s sched b v n0 n Hf Hr Hl Ht Hs x Hv Hx Hd Hh. destruct (C56_complex h f 0 c r addr s sched b v n0 Hf Hr Hl Ht Hs x Hv Hx) as (v' & b' & E & _ & K).
  eexists v', b', _. split; [exact E|]. split; [exact K|]. split; [by rewrite map_length, seq_length|]. intros i q Hi Hl' Hq. fold n in Hl' |- *. rewrite map_length, seq_length in Hl'.
  match goal with |- map ?ff ?l !! _ = _ => change (map ff l) with (ff <$> l) end. rewrite list_lookup_fmap, lookup_seq_lt by done. cbn [fmap option_fmap option_map Nat.add].
  apply (weighted_kept (0, 0) complex_sum complex_product of_real); try done; [exact (complex_monoid R_exact) | |].
  - intros [a b0]. unfold complex_product. cbn. f_equal; ring.
  - intros [a b0]. unfold complex_product, of_real. cbn. f_equal; ring.
Qed.
Print Assumptions C56_kept_complex.
Definition hat : response R R := Response true (fun y => Rmax 0 (1 - Rabs y)).
Lemma hat_cardinal : forall z, r_calc hat (IZR z) = if (z =? 0)%Z then 1 else 0.
Proof.
  intros z. cbn [r_calc hat]. destruct (Z.eqb_spec z 0) as [->|Hz]; [rewrite Rabs_R0, Rmax_right; lra|]. apply Rmax_left.
  assert (z <= -1 \/ 1 <= z)%Z as [Hl|Hl] by lia; apply IZR_le in Hl; [rewrite Rabs_left by lra | rewrite Rabs_right by lra]; lra.
Qed.
(** 4 points become 10. *)
Example C56_example : exists v' b' y, interpolatef hat (5 / 2) 0 1 f64x2 48 one_core [] (SingleBuffer []) (ex_vec NReal DTime [1; 5; -2; 3]) = Done (v', b') /\ reals v' y /\ y !! 5%nat = Some (-2).
Proof.
  destruct (C56_kept_reals hat (5 / 2) 1 f64x2 48 one_core [] (SingleBuffer []) (ex_vec NReal DTime [1; 5; -2; 3]) 10) with (x := [1; 5; -2; 3]) as (v' & b' & y & E & K & Hy & Ky);
    [lra | | done | left; cbn; lia | right; left; cbn; lia | apply reals_ex | done | cbn; lra | exact hat_cardinal |].
  { change (len _) with 4%nat. apply Proof_Interp.Rround_unique; cbn; lra. }
  exists v', b', y. split; [exact E|]. split; [exact K|]. rewrite (Ky 5%nat 2%nat); [done | cbn; field | rewrite Hy; cbn; lia | cbn; lia].
Qed.

(** * C57 interpolatef gives the same result with and without SIMD registers *)
(** What it computes with SIMD registers, that is for an integer factor, at least 2000 elements and a [conv_len] of at most 202 *)
Theorem C57_simd_reals : forall (h : response R R) delay c0 k r addr s sched b (v : dvec R), (0 < k)%nat -> aligned_all r addr -> forall x, reals v x ->
  let c := half_at_most (length x) c0 in let m := (length x * k + (length x * k) mod 2)%nat in
  (c <= 202)%nat -> (2000 <= m)%nat -> (reg_len r <= c + 1)%nat -> (4 * c + 2 <= length x)%nat -> lends b v m -> (0 < m - 2 * ((2 * c + 1) * k))%nat \/ no_threads_for_nothing Large s ->
  exists v' b', interpolatef h (INR k) delay c0 r addr s sched b v = Done (v', b') /\ same_meta v v' /\
    reals v' (map (weighted_simd 0 Rplus Rmult (fun y => y) x (r_calc h) (delay / delta v) c k m) (seq 0 m)).
Proof. exact interpolatef_simd_reals. Qed.
Print Assumptions C57_simd_reals.
Theorem C57_simd_complex : forall (h : response R R) delay c0 k r addr s sched b (v : dvec R), (0 < k)%nat -> aligned_all r addr -> forall x, cplx v x ->
  let c := half_at_most (length x) c0 in let m := (length x * k)%nat in
  (c <= 202)%nat -> (1000 <= m)%nat -> (reg_len r / 2 <= c + 1)%nat -> (4 * c + 2 <= length x)%nat -> lends b v (2 * m) -> (0 < m - 2 * ((2 * c + 1) * k))%nat \/ no_threads_for_nothing Large s ->
  exists v' b', interpolatef h (INR k) delay c0 r addr s sched b v = Done (v', b') /\ same_meta v v' /\
    cplx v' (map (weighted_simd (0, 0) complex_sum complex_product of_real x (r_calc h) (delay / delta v) c k m) (seq 0 m)).
Proof. exact interpolatef_simd_cplx. Qed.
Print Assumptions C57_simd_complex.
(** Without a delay, for an even function which is 0 from [c] on, these are the same sums as in C56. *)
Theorem C57_same : forall {P} (zero : P) add mul (from : R -> P), comm_monoid add zero -> (forall x, mul x zero = zero) -> from 0 = zero ->
  forall h k c x m i, (0 < k)%nat -> even_function h -> reaches h c ->
  weighted_simd zero add mul from x h 0 c k m i = weighted zero add mul from x h (Int_part (INR i / INR k) - Z.of_nat c) c (INR i / INR k).
Proof. exact @weighted_same. Qed.
Print Assumptions C57_same.
(** Hence the result is the one of C56: *)
Theorem C57_same_reals : forall (h : response R R) c0 k r addr s sched b (v : dvec R), (0 < k)%nat -> aligned_all r addr -> forall x, reals v x ->
  let c := half_at_most (length x) c0 in let m := (length x * k + (length x * k) mod 2)%nat in
  (c <= 202)%nat -> (2000 <= m)%nat -> (reg_len r <= c + 1)%nat -> (4 * c + 2 <= length x)%nat -> lends b v m -> (0 < m - 2 * ((2 * c + 1) * k))%nat \/ no_threads_for_nothing Large s ->
  delta v <> 0 -> even_function (r_calc h) -> reaches (r_calc h) c ->
  exists v' b', interpolatef h (INR k) 0 c0 r addr s sched b v = Done (v', b') /\ same_meta v v' /\
    reals v' (map (fun i => weighted 0 Rplus Rmult (fun y => y) x (r_calc h) (Int_part (INR i / INR k) - Z.of_nat c) c (INR i / INR k)) (seq 0 m)).
Proof.
  intros h c0 k r addr s sched b v Hk Hal x Hv c m H1 H2 H3 H4 H5 H6 Hd He Hr.
  destruct (C57_simd_reals h 0 c0 k r addr s sched b v Hk Hal x Hv H1 H2 H3 H4 H5 H6) as (v' & b' & E & M & K). exists v', b'. split; [exact E|]. split; [exact M|].
  fold c in K. fold m in K. replace (0 / delta v) with 0 in K by (field; done). match type of K with reals _ ?aa => match goal with |- reals _ ?bb => replace bb with aa; [exact K|] end end.
  apply map_ext. intros i. by apply (C57_same 0 Rplus Rmult (fun y => y) (real_monoid R_exact) (fun y => Rmult_0_r y) eq_refl).
Qed.
Print Assumptions C57_same_reals.
Theorem C57_same_complex : forall (h : response R R) c0 k r addr s sched b (v : dvec R), (0 < k)%nat -> aligned_all r addr -> forall x, cplx v x ->
  let c := half_at_most (length x) c0 in let m := (length x * k)%nat in
  (c <= 202)%nat -> (1000 <= m)%nat -> (reg_len r / 2 <= c + 1)%nat -> (4 * c + 2 <= length x)%nat -> lends b v (2 * m) -> (0 < m - 2 * ((2 * c + 1) * k))%nat \/ no_threads_for_nothing Large s ->
  delta v <> 0 -> even_function (r_calc h) -> reaches (r_calc h) c ->
  exists v' b', interpolatef h (INR k) 0 c0 r addr s sched b v = Done (v', b') /\ same_meta v v' /\
    cplx v' (map (fun i => weighted (0, 0) complex_sum complex_product of_real x (r_calc h) (Int_part (INR i / INR k) - Z.of_nat c) c (INR i / INR k)) (seq 0 m)).
Proof.
  intros h c0 k r addr s sched b v Hk Hal x Hv c m H1 H2 H3 H4 H5 H6 Hd He Hr.
  destruct (C57_simd_complex h 0 c0 k r addr s sched b v Hk Hal x Hv H1 H2 H3 H4 H5 H6) as (v' & b' & E & M & K). exists v', b'. split; [exact E|]. split; [exact M|].
  fold c in K. fold m in K. replace (0 / delta v) with 0 in K by (field; done). match type of K with cplx _ ?aa => match goal with |- cplx _ ?bb => replace bb with aa; [exact K|] end end.
  apply map_ext. intros i. apply (C57_same (0, 0) complex_sum complex_product of_real (complex_monoid R_exact)); try done.
  intros [a b0]. unfold complex_product. cbn. f_equal; ring.
Qed.
Print Assumptions C57_same_complex.
(** With a delay, the points between the two ends are delayed in the opposite direction. *)
Theorem C57_delay_refuted : forall r addr s sched b (v : dvec R) x, aligned_all r addr -> (reg_len r <= 8)%nat -> reals v x -> (length x = 2 * 1000)%nat -> delta v = 1 -> lends b v (2 * 1000) ->
  exists v' b' y, interpolatef impulse 1 1 10 r addr s sched b v = Done (v', b') /\ reals v' y /\ y !! 0%nat = x !! (1000 + 999)%nat /\ y !! 1000%nat = x !! 1001%nat.
Proof. exact interpolatef_simd_delay. Qed.
Print Assumptions C57_delay_refuted.
(** If there are too few points for the two ends, it panics. *)
Theorem C57_short_refuted : forall (h : response R R) delay c0 k r addr s sched b (v : dvec R) x, (0 < k)%nat -> aligned_all r addr -> reals v x ->
  let c := half_at_most (length x) c0 in let m := (length x * k + (length x * k) mod 2)%nat in
  (c <= 202)%nat -> (2000 <= m)%nat -> (m < 2 * ((2 * c + 1) * k))%nat -> lends b v m ->
  interpolatef h (INR k) delay c0 r addr s sched b v = Panicked.
Proof. exact interpolatef_simd_panics. Qed.
Print Assumptions C57_short_refuted.
(** 1000 points, factor 2, the distance which the function reaches is 10 *)
Lemma thousand k : half_at_most (10 * (10 * 10)) k = Nat.min (5 * (10 * 10)) k.
Proof. unfold half_at_most. replace (10 * (10 * 10) / 2)%nat with (5 * (10 * 10))%nat; [done|]. replace (10 * (10 * 10))%nat with (5 * (10 * 10) * 2)%nat by lia. by rewrite Nat.div_mul. Qed.
Example C57_example : let x := replicate (10 * (10 * 10)) 1 in exists v' b' y, interpolatef hat (INR 2) 0 10 f64x2 48 one_core [] (SingleBuffer []) (ex_vec NReal DTime x) = Done (v', b') /\
  reals v' y /\ y !! 777%nat = Some (weighted 0 Rplus Rmult (fun y => y) x (r_calc hat) (Int_part (INR 777 / INR 2) - 10) 10 (INR 777 / INR 2)).
Proof.
  intros x. assert (Hl : length x = (10 * (10 * 10))%nat) by apply replicate_length. assert (Hc : half_at_most (length x) 10 = 10%nat) by (rewrite Hl, thousand; lia).
  assert (Hm : (length x * 2 + (length x * 2) mod 2)%nat = (10 * (10 * 10) * 2)%nat) by (rewrite Hl, Nat.mod_mul by lia; lia).
  destruct (C57_simd_reals hat 0 10 2 f64x2 48 one_core [] (SingleBuffer []) (ex_vec NReal DTime x)) with (x := x) as (v' & b' & E & _ & K); rewrite ?Hc, ?Hm;
    [lia | exact aligned_ex | apply reals_ex | lia | lia | cbn; lia | lia | done | left; lia |].
  rewrite Hc, Hm in K. eexists v', b', _. split; [exact E|]. split; [exact K|]. change (map ?ff ?l) with (ff <$> l). rewrite list_lookup_fmap, lookup_seq_lt by lia.
  cbn [fmap option_fmap option_map]. f_equal. change (delta _) with 1. replace (0 / 1) with 0 by field. change 10%Z with (Z.of_nat 10).
  rewrite (C57_same 0 Rplus Rmult (fun y => y) (real_monoid R_exact) (fun y => Rmult_0_r y) eq_refl (r_calc hat) 2 10); [done | lia | |].
  - intros y. cbn. by rewrite Rabs_Ropp.
  - intros y Hy. cbn [r_calc hat]. apply Rmax_left. assert (INR 10 = 10) by (cbn; lra). lra.
Qed.
(** 400 points, factor 5, conv_len 150 *)
Example C57_example_short : let x := replicate (4 * (10 * 10)) 1 in interpolatef hat (INR 5) 0 (15 * 10) f64x2 48 one_core [] (SingleBuffer []) (ex_vec NReal DTime x) = Panicked.
Proof.
  intros x. assert (Hl : length x = (4 * (10 * 10))%nat) by apply replicate_length.
  assert (Hc : half_at_most (length x) (15 * 10) = (15 * 10)%nat). { rewrite Hl. unfold half_at_most. replace (4 * (10 * 10))%nat with (2 * (10 * 10) * 2)%nat by lia. rewrite Nat.div_mul by lia. lia. }
  assert (Hm : (length x * 5 + (length x * 5) mod 2)%nat = (20 * (10 * 10))%nat). { rewrite Hl. replace (4 * (10 * 10) * 5)%nat with (10 * (10 * 10) * 2)%nat by lia. rewrite Nat.mod_mul by lia. lia. }
  apply (C57_short_refuted _ _ _ _ _ _ _ _ _ _ x); rewrite ?Hc, ?Hm; [lia | exact aligned_ex | apply reals_ex | lia | lia | lia | done].
Qed.
Example C57_example_delay : exists v' b' y, interpolatef impulse 1 1 10 f64x2 48 one_core [] (SingleBuffer []) (ex_vec NReal DTime (replicate (2 * 1000) 3)) = Done (v', b') /\ reals v' y /\ y !! 1000%nat = Some 3.
Proof.
  destruct (C57_delay_refuted f64x2 48 one_core [] (SingleBuffer []) (ex_vec NReal DTime (replicate (2 * 1000) 3)) (replicate (2 * 1000) 3)) as (v' & b' & y & ? & ? & _ & E);
    [exact aligned_ex | cbn; lia | apply reals_ex | apply replicate_length | done | done |].
  exists v', b', y. split; [done|]. split; [done|]. rewrite E. apply lookup_replicate_2. lia.
Qed.
