(** C58, C59: the values of the built in windows and convolution functions, in exact arithmetic. *)
From Verif Require Import Proof_Base Proof_WindowR Proof_Builtin NumsR NumsTrig Spec_Interp Spec_Interpolate Props_Window Props_Convolve Props_Interpolate.
Local Open Scope R_scope.

Definition triangular : window R := triangular_window.
Definition hamming : window R := hamming_default.
Definition blackman_harris : window R := blackman_harris_window.
Definition rectangular : window R := rectangular_window.
Definition built_in (w : window R) : Prop := w = triangular \/ w = hamming \/ w = blackman_harris \/ w = rectangular.

(** * C58 Windows *)
(** The windows in closed form; the constants are those of the literature. *)
Theorem C58_values : forall i n, let x := 2 * PI * INR i / (INR n - 1) in
  w_fun triangular i n = 1 - Rabs ((INR i - (INR n - 1) / 2) / (INR n / 2)) /\
  w_fun hamming i n = 54 / 100 - 46 / 100 * cos x /\
  w_fun blackman_harris i n = 35875 / 100000 - 48829 / 100000 * cos x + 14128 / 100000 * cos (2 * x) - 1168 / 100000 * cos (3 * x) /\
  w_fun rectangular i n = 1.
Proof. intros i n x. split; [apply triangular_value|]. split; [apply hamming_default_value|]. split; [apply blackman_value | done]. Qed.
Print Assumptions C58_values.
(** They are positive and at most 1. *)
Theorem C58_range : forall w i n, built_in w -> (i < n)%nat -> 0 < w_fun w i n <= 1.
Proof.
  intros w i n Hw Hi. assert (0 < INR n) by (apply lt_0_INR; lia). destruct Hw as [->|[->|[->| ->]]].
  - assert (K := triangular_range i n Hi). assert (0 < / INR n) by by apply Rinv_0_lt_compat. unfold triangular. lra.
  - assert (K := hamming_default_value i n). assert (K2 := COS_bound (2 * PI * INR i / (INR n - 1))). unfold hamming. rewrite K. lra.
  - assert (K := blackman_range i n). unfold blackman_harris. lra.
  - unfold rectangular, rectangular_window. cbn [w_fun]. cbn. lra.
Qed.
Print Assumptions C58_range.
(** The values at the two ends *)
Theorem C58_ends : forall n, (2 <= n)%nat -> forall i, i = 0%nat \/ i = (n - 1)%nat ->
  w_fun triangular i n = 1 / INR n /\ w_fun hamming i n = 8 / 100 /\ w_fun blackman_harris i n = 6 / 100000 /\ w_fun rectangular i n = 1.
Proof.
  intros n Hn i Hi. assert (H2 := INR_ge2 n Hn).
  assert (Hc : cos (2 * PI * INR i / (INR n - 1)) = 1).
  { destruct Hi as [->| ->]; [replace (2 * PI * INR 0 / (INR n - 1)) with 0 by (cbn; unfold Rdiv; ring); apply cos_0|].
    rewrite minus_INR by lia. change (INR 1) with 1. replace (2 * PI * (INR n - 1) / (INR n - 1)) with (2 * PI) by (field; lra). apply cos_2PI. }
  destruct (C58_values i n) as (E1 & E2 & E3 & E4). rewrite cos_double, cos_3a, Hc in E3. split; [|split; [|split]].
  - rewrite E1. destruct Hi as [->| ->].
    + replace ((INR 0 - (INR n - 1) / 2) / (INR n / 2)) with (- ((INR n - 1) / INR n)) by (cbn; field; lra). rewrite Rabs_Ropp, Rabs_right; [field; lra|]. apply Rle_ge, Rle_mult_inv_pos; lra.
    + rewrite minus_INR by lia. change (INR 1) with 1. replace ((INR n - 1 - (INR n - 1) / 2) / (INR n / 2)) with ((INR n - 1) / INR n) by (field; lra). rewrite Rabs_right; [field; lra|].
      apply Rle_ge, Rle_mult_inv_pos; lra.
  - rewrite E2, Hc. lra.
  - rewrite E3. lra.
  - exact E4.
Qed.
Print Assumptions C58_ends.
(** The value at the center of an odd number of points is 1. *)
Theorem C58_center : forall w k, built_in w -> (0 < k)%nat -> w_fun w k (2 * k + 1) = 1.
Proof.
  intros w k Hw Hk. destruct (C58_values k (2 * k + 1)) as (E1 & E2 & E3 & E4). cbv zeta in *. rewrite center_angle in * by done. rewrite cos_double, cos_3a in E3. rewrite cos_PI in *.
  destruct Hw as [->|[->|[->| ->]]].
  - rewrite E1. rewrite plus_INR, mult_INR. change (INR 2) with 2. change (INR 1) with 1. replace (INR k - (2 * INR k + 1 - 1) / 2) with 0 by field. unfold Rdiv at 1. rewrite Rmult_0_l, Rabs_R0. lra.
  - rewrite E2. lra.
  - rewrite E3. lra.
  - exact E4.
Qed.
Print Assumptions C58_center.
(** A general Hamming window has the parameter at the quarters, 1 at the center and its minimum at the ends. *)
Theorem C58_hamming : forall a i n, 1 / 2 <= a <= 1 -> 2 * a - 1 <= w_fun (hamming_window (A := R) a) i n <= 1.
Proof. exact hamming_range. Qed.
Print Assumptions C58_hamming.
(** Hence a window can be taken back. *)
Theorem C58_unapply : forall w s sched sched' (v : dvec R), built_in w -> wf v -> pairs_up s (points v) ->
  exists v1 v2, apply_window w s sched v = Done v1 /\ unapply_window w s sched' v1 = Done v2 /\ vdata v2 = vdata v /\ same_meta v v2 /\ same_rest v v2.
Proof.
  intros w s sched sched' v Hw Hv Hp. apply C26_unapply; [| | |done].
  - intros _. split; [|done]. destruct (C42_windows (points v) 0) as (K1 & _ & K2 & K3 & K4). by destruct Hw as [->|[->|[->| ->]]].
  - intros K. by destruct Hw as [->|[->|[->| ->]]].
  - intros i Hi. assert (K := C58_range w i (points v) Hw Hi). lra.
Qed.
Print Assumptions C58_unapply.
Example C58_example : exists v1 v2, let v := ex_vec NReal DTime [1; 2; 3] in apply_window hamming one_core [] v = Done v1 /\ unapply_window hamming one_core [] v1 = Done v2 /\ vdata v2 = vdata v.
Proof.
  destruct (C58_unapply hamming one_core [] [] (ex_vec NReal DTime [1; 2; 3])) as (v1 & v2 & ? & ? & ? & _ & _); [by right; left | | | by exists v1, v2].
  - unfold wf. vm_compute. split; [lia|done].
  - left. split; [done|]. vm_compute. lia.
Qed.
Example C58_example_center : w_fun blackman_harris 3 7 = 1.
Proof. apply (C58_center _ 3); [by right; right; left | lia]. Qed.

(** * C59 Convolution functions *)
Definition sinc : response R R := sinc_time.
Definition sinc_spectrum : response R R := sinc_freq.
Definition raised_cosine (rolloff : R) : response R R := raised_cosine_time rolloff.
Definition raised_cosine_spectrum (rolloff : R) : response R R := raised_cosine_freq rolloff.

Theorem C59_values : forall x, x <> 0 -> r_calc sinc x = sin (PI * x) / (PI * x) /\
  forall b, 0 < b -> 2 * b * x <> 1 -> 2 * b * x <> -1 -> r_calc (raised_cosine b) x = sin (PI * x) / (PI * x) * (cos (PI * b * x) / (1 - (2 * b * x) * (2 * b * x))).
Proof.
  intros x Hx. assert (HP := PI_RGT_0). split; [unfold sinc; rewrite sinc_value; by destruct (Req_EM_T x 0)|]. intros b Hb H1 H2. unfold raised_cosine. rewrite raised_value. destruct (Req_EM_T x 0) as [|_]; [done|].
  assert (HD : 1 - 2 * b * x * (2 * b * x) <> 0). { replace (1 - 2 * b * x * (2 * b * x)) with ((1 - 2 * b * x) * (1 + 2 * b * x)) by ring. apply Rmult_integral_contrapositive_currified; lra. }
  destruct (Req_EM_T _ _) as [K|_].
  - exfalso. assert (Hk : Rabs x * (2 * b) = 1) by (rewrite K; field; lra). unfold Rabs in Hk. destruct (Rcase_abs x); [apply H2 | apply H1]; lra.
  - replace (PI * b * x) with (PI * x * b) by ring. field. split_and!; lra.
Qed.
Print Assumptions C59_values.
(** The special cases of the code are the values which make the functions continuous. *)
Theorem C59_continuous : continuity (r_calc sinc) /\ forall b, 0 < b -> continuity (r_calc (raised_cosine b)).
Proof. split; [exact sinc_continuous | exact raised_continuous]. Qed.
Print Assumptions C59_continuous.
(** They are 1 at 0 and 0 at all other integers ... *)
Theorem C59_cardinal : forall z, r_calc sinc (IZR z) = (if (z =? 0)%Z then 1 else 0) /\ forall b, 0 < b -> r_calc (raised_cosine b) (IZR z) = if (z =? 0)%Z then 1 else 0.
Proof. intros z. split; [apply sinc_int | intros b; apply raised_int]. Qed.
Print Assumptions C59_cardinal.
(** ... so that [interpolatef] with one of them and without a delay keeps the points of a vector. *)
Theorem C59_interpolatef : forall h, (h = sinc \/ exists b, 0 < b /\ h = raised_cosine b) -> forall f c r addr s sched b (v : dvec R) n0, let n := (n0 + n0 mod 2)%nat in
  0 < f -> Rround (INR (len v) * f) = INR n0 -> lends b v n -> (0 < n)%nat \/ no_threads_for_nothing Large s ->
  (202 < half_at_most (points v) c)%nat \/ (n < 2000)%nat \/ / 1000000 <= Rabs (Rround f - f) -> forall x, reals v x -> x <> [] -> delta v <> 0 ->
  exists v' b' y, interpolatef h f 0 c r addr s sched b v = Done (v', b') /\ reals v' y /\ length y = n /\
    forall i q, INR i / f = INR q -> (i < length y)%nat -> (q < length x)%nat -> y !! i = x !! q.
Proof.
  intros h Hh f c r addr s sched b v n0 n H1 H2 H3 H4 H5 x H6 H7 H8. apply C56_kept_reals; try done.
  intros z. destruct (C59_cardinal z) as [K1 K2]. destruct Hh as [->|(a & Ha & ->)]; [exact K1 | exact (K2 a Ha)].
Qed.
Print Assumptions C59_interpolatef.
(** The frequency responses: 1 in the pass band, 0 in the stop band, and the response of the raised cosine satisfies the criterion of Nyquist. *)
Theorem C59_spectra : forall b x, 0 < b <= 1 ->
  (Rabs x <= 1 -> r_calc sinc_spectrum x = 1) /\ (1 < Rabs x -> r_calc sinc_spectrum x = 0) /\
  (Rabs x <= 1 - b -> r_calc (raised_cosine_spectrum b) x = 1) /\ (1 + b < Rabs x -> r_calc (raised_cosine_spectrum b) x = 0) /\
  0 <= r_calc (raised_cosine_spectrum b) x <= 1 /\
  (0 <= x <= 1 -> r_calc (raised_cosine_spectrum b) (1 - x) + r_calc (raised_cosine_spectrum b) (1 + x) = 1).
Proof.
  intros b x Hb. unfold sinc_spectrum, raised_cosine_spectrum. split; [|split; [|split; [|split; [|split]]]].
  - intros Hx. unfold sinc_freq. cbn [r_calc]. change (fleb (A := R)) with Rleb. change (fabs (A := R)) with Rabs. by rewrite (proj2 (Rleb_true _ _)).
  - intros Hx. unfold sinc_freq. cbn [r_calc]. change (fleb (A := R)) with Rleb. change (fabs (A := R)) with Rabs. unfold Rleb. change (n1 (A := R)) with 1. destruct (Rle_dec (Rabs x) 1); [lra | done].
  - intros Hx. rewrite raised_freq_value. by destruct (Rle_dec _ _).
  - intros Hx. rewrite raised_freq_value. destruct (Rle_dec _ _); [lra|]. destruct (Rle_dec _ _); [lra | done].
  - apply raised_freq_range.
  - intros Hx. by apply raised_freq_nyquist.
Qed.
Print Assumptions C59_spectra.
Example C59_example : r_calc (raised_cosine (1 / 2)) 1 = 0 /\ r_calc (raised_cosine (1 / 2)) 0 = 1 /\ r_calc (raised_cosine_spectrum (1 / 2)) 1 = 1 / 2.
Proof.
  split; [|split].
  - destruct (C59_cardinal 1) as [_ K]. apply (K (1 / 2)). lra.
  - destruct (C59_cardinal 0) as [_ K]. apply (K (1 / 2)). lra.
  - destruct (C59_spectra (1 / 2) 0) as (_ & _ & _ & _ & _ & K); [lra|]. replace (1 - 0) with 1 in K by lra. replace (1 + 0) with 1 in K by lra. assert (K1 := K ltac:(lra)). lra.
Qed.
Example C59_example_interpolatef : exists v' b' y, interpolatef (raised_cosine (35 / 100)) (5 / 2) 0 1 f64x2 48 one_core [] (SingleBuffer []) (ex_vec NReal DTime [1; 5; -2; 3]) = Done (v', b') /\ reals v' y /\ y !! 5%nat = Some (-2).
Proof.
  destruct (C59_interpolatef (raised_cosine (35 / 100))) with (f := 5 / 2) (c := 1%nat) (r := f64x2) (addr := 48%nat) (s := one_core) (sched := @nil nat) (b := SingleBuffer (@nil R))
    (v := ex_vec NReal DTime [1; 5; -2; 3]) (n0 := 10%nat) (x := [1; 5; -2; 3]) as (v' & b' & y & E & K & Hy & Ky);
    [right; exists (35 / 100); split; [lra | done] | lra | | done | left; cbn; lia | right; left; cbn; lia | apply reals_ex | done | cbn; lra |].
  { change (len _) with 4%nat. apply Proof_Interp.Rround_unique; cbn; lra. }
  exists v', b', y. split; [exact E|]. split; [exact K|]. rewrite (Ky 5%nat 2%nat); [done | cbn; field | rewrite Hy; cbn; lia | cbn; lia].
Qed.
