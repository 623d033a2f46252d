(** Values of the built in windows and convolution functions. *)
From Verif Require Import Proof_Base Proof_WindowR Proof_Interpolate NumsR NumsTrig Spec_Window.
Local Open Scope R_scope.

Lemma INR_ge2 n : (2 <= n)%nat -> 2 <= INR n.
Proof. intros Hn. apply le_INR in Hn. by cbn in Hn. Qed.
Lemma cos_double x : cos (2 * x) = 2 * (cos x * cos x) - 1.
Proof. rewrite cos_2a_cos. ring. Qed.
Lemma cos_3a x : cos (3 * x) = 4 * (cos x * cos x * cos x) - 3 * cos x.
Proof.
  replace (3 * x) with (2 * x + x) by ring. rewrite cos_plus, cos_double, sin_2a.
  replace (2 * sin x * cos x * sin x) with (2 * cos x * (sin x * sin x)) by ring.
  assert (E := sin2_cos2 x). unfold Rsqr in E. replace (sin x * sin x) with (1 - cos x * cos x) by lra. ring.
Qed.

(** ** Windows *)
Lemma triangular_value i n : w_fun (triangular_window (A := R)) i n = 1 - Rabs ((INR i - (INR n - 1) / 2) / (INR n / 2)).
Proof. unfold triangular_window. cbn [w_fun]. change (nofnat (A := R)) with INR. cbn -[INR]. change (INR 2) with (1 + 1). by replace (1 + 1) with 2 by lra. Qed.
Lemma hamming_value a i n : w_fun (hamming_window (A := R) a) i n = a - (1 - a) * cos (2 * PI * INR i / (INR n - 1)).
Proof. unfold hamming_window. cbn [w_fun]. change (nofnat (A := R)) with INR. cbn -[INR]. change (INR 2) with (1 + 1). by replace (1 + 1) with 2 by lra. Qed.
Lemma hamming_default_value i n : w_fun (hamming_default (A := R)) i n = 54 / 100 - 46 / 100 * cos (2 * PI * INR i / (INR n - 1)).
Proof.
  unfold hamming_default. rewrite hamming_value. change (nofnat (A := R)) with INR. change (ndiv (A := R)) with Rdiv. rewrite !INR_IZR_INZ.
  change (IZR (Z.of_nat 54)) with 54. change (IZR (Z.of_nat 100)) with 100. f_equal. f_equal. lra.
Qed.
Lemma blackman_value i n : w_fun (blackman_harris_window (A := R)) i n =
  let x := 2 * PI * INR i / (INR n - 1) in 35875 / 100000 - 48829 / 100000 * cos x + 14128 / 100000 * cos (2 * x) - 1168 / 100000 * cos (3 * x).
Proof.
  unfold blackman_harris_window, dec5. cbn [w_fun]. cbv zeta. change (nofnat (A := R)) with INR. change (ndiv (A := R)) with Rdiv. change (nmul (A := R)) with Rmult.
  change (nadd (A := R)) with Rplus. change (nsub (A := R)) with Rminus. change (n1 (A := R)) with 1. change (fcos (A := R)) with cos. change (fpi (A := R)) with PI.
  replace (INR 4 * PI * INR i / (INR n - 1)) with (2 * (2 * PI * INR i / (INR n - 1))) by (cbn; unfold Rdiv; ring).
  replace (INR 6 * PI * INR i / (INR n - 1)) with (3 * (2 * PI * INR i / (INR n - 1))) by (cbn; unfold Rdiv; ring).
  replace (INR 2 * PI * INR i / (INR n - 1)) with (2 * PI * INR i / (INR n - 1)) by (cbn; unfold Rdiv; ring).
  rewrite (INR_IZR_INZ 1000), (INR_IZR_INZ 100), (INR_IZR_INZ 35), (INR_IZR_INZ 875), (INR_IZR_INZ 48), (INR_IZR_INZ 829), (INR_IZR_INZ 14), (INR_IZR_INZ 128), (INR_IZR_INZ 1), (INR_IZR_INZ 168).
  change (IZR (Z.of_nat 1000)) with 1000. change (IZR (Z.of_nat 100)) with 100. change (IZR (Z.of_nat 35)) with 35. change (IZR (Z.of_nat 875)) with 875. change (IZR (Z.of_nat 48)) with 48.
  change (IZR (Z.of_nat 829)) with 829. change (IZR (Z.of_nat 14)) with 14. change (IZR (Z.of_nat 128)) with 128. change (IZR (Z.of_nat 1)) with 1. change (IZR (Z.of_nat 168)) with 168.
  f_equal; [f_equal; [f_equal|]|]; try lra; f_equal; lra.
Qed.
Lemma blackman_poly c : let p := 35875 / 100000 - 48829 / 100000 * c + 14128 / 100000 * (2 * (c * c) - 1) - 1168 / 100000 * (4 * (c * c * c) - 3 * c) in
  -1 <= c <= 1 -> 6 / 100000 <= p <= 1.
Proof.
  intros p Hc. unfold p. split.
  - assert (0 <= (1 - c) * (21741 / 100000 - 23584 / 100000 * c + 4672 / 100000 * (c * c))); [|lra]. apply Rmult_le_pos; [lra|]. nra.
  - assert (0 <= (1 + c) * (78253 / 100000 - 32928 / 100000 * c + 4672 / 100000 * (c * c))); [|lra]. apply Rmult_le_pos; [lra|]. nra.
Qed.
Lemma triangular_range i n : (i < n)%nat -> / INR n <= w_fun (triangular_window (A := R)) i n <= 1.
Proof.
  intros Hi. rewrite triangular_value. assert (Hn : INR i <= INR (n - 1)) by (apply le_INR; lia). rewrite minus_INR in Hn by lia. change (INR 1) with 1 in Hn.
  assert (H0 := pos_INR i). assert (Hp : 0 < INR n) by lra.
  assert (E : Rabs ((INR i - (INR n - 1) / 2) / (INR n / 2)) <= (INR n - 1) / INR n).
  { unfold Rdiv at 1. rewrite Rabs_mult, (Rabs_right (/ (INR n / 2))) by (apply Rle_ge, Rlt_le, Rinv_0_lt_compat; lra).
    replace ((INR n - 1) / INR n) with ((INR n - 1) / 2 * / (INR n / 2)) by (field; lra). apply Rmult_le_compat_r; [apply Rlt_le, Rinv_0_lt_compat; lra|].
    apply Rabs_le. lra. }
  replace ((INR n - 1) / INR n) with (1 - / INR n) in E by (field; lra). assert (K := Rabs_pos ((INR i - (INR n - 1) / 2) / (INR n / 2))). lra.
Qed.
Lemma hamming_range a i n : 1 / 2 <= a <= 1 -> 2 * a - 1 <= w_fun (hamming_window (A := R) a) i n <= 1.
Proof. intros Ha. rewrite hamming_value. assert (K := COS_bound (2 * PI * INR i / (INR n - 1))). nra. Qed.
Lemma blackman_range i n : 6 / 100000 <= w_fun (blackman_harris_window (A := R)) i n <= 1.
Proof. rewrite blackman_value. cbv zeta. rewrite cos_double, cos_3a. apply blackman_poly. apply COS_bound. Qed.

Lemma center_angle k : (0 < k)%nat -> 2 * PI * INR k / (INR (2 * k + 1) - 1) = PI.
Proof. intros Hk. assert (0 < INR k) by (apply lt_0_INR; lia). rewrite plus_INR, mult_INR. change (INR 2) with 2. change (INR 1) with 1. field. lra. Qed.

(** ** Convolution functions *)
Lemma sinc_value x : r_calc (sinc_time (A := R)) x = if Req_EM_T x 0 then 1 else sin (PI * x) / (PI * x).
Proof. unfold sinc_time. cbn [r_calc]. cbn -[PI]. unfold Reqb. by destruct (Req_EM_T x 0). Qed.
Lemma sin_PI_IZR z : sin (PI * IZR z) = 0.
Proof. apply sin_eq_0_1. exists z. ring. Qed.
Lemma sinc_int z : r_calc (sinc_time (A := R)) (IZR z) = if (z =? 0)%Z then 1 else 0.
Proof.
  rewrite sinc_value. destruct (Req_EM_T (IZR z) 0) as [E|E].
  - apply (eq_IZR _ 0) in E. by subst z.
  - destruct (Z.eqb_spec z 0) as [->|Hz]; [done|]. rewrite sin_PI_IZR. unfold Rdiv. ring.
Qed.
Lemma raised_value b x : r_calc (raised_cosine_time (A := R) b) x =
  if Req_EM_T x 0 then 1
  else if Req_EM_T (Rabs x) (1 / (2 * b)) then sin (PI / 2 / b) / (PI / 2 / b) * PI / 4
  else sin (PI * x) * cos (PI * x * b) / (PI * x) / (1 - 2 * b * x * (2 * b * x)).
Proof.
  unfold raised_cosine_time. cbn [r_calc]. cbn -[PI]. unfold Reqb. replace (1 + 1) with 2 by lra. replace (2 * 2) with 4 by lra.
  destruct (Req_EM_T x 0); [done|]. by destruct (Req_EM_T (Rabs x) (1 / (2 * b))).
Qed.
(** The part beside the sinc: [cos (pi b x) / (1 - (2 b x)^2)], in a form without a special case on the right *)
Lemma raised_factors b x : 0 < b -> b * x + 1 / 2 <> 0 ->
  r_calc (raised_cosine_time (A := R) b) x = r_calc (sinc_time (A := R)) x * (PI / 4 * r_calc (sinc_time (A := R)) (b * x - 1 / 2) / (b * x + 1 / 2)).
Proof.
  intros Hb Hx. assert (HP := PI_RGT_0). rewrite raised_value, !sinc_value. destruct (Req_EM_T x 0) as [->|H0].
  - destruct (Req_EM_T (b * 0 - 1 / 2) 0) as [K|_]; [lra|]. replace (PI * (b * 0 - 1 / 2)) with (- (PI / 2)) by field. rewrite sin_neg, sin_PI2. field. lra.
  - destruct (Req_EM_T (b * x - 1 / 2) 0) as [K|K].
    + assert (E : x = 1 / (2 * b)) by (apply (Rmult_eq_reg_l b); [|lra]; replace (b * (1 / (2 * b))) with (1 / 2) by (field; lra); lra).
      assert (0 < x) by (rewrite E; apply Rdiv_lt_0_compat; lra). destruct (Req_EM_T (Rabs x) (1 / (2 * b))) as [_|K1]; [|exfalso; apply K1; rewrite Rabs_right by lra; exact E].
      replace (PI / 2 / b) with (PI * x) by (rewrite E; field; lra). replace (b * x + 1 / 2) with 1 by lra. field. split; lra.
    + destruct (Req_EM_T (Rabs x) (1 / (2 * b))) as [K1|_].
      * exfalso. destruct (Rcase_abs x) as [Hn|Hn]; [rewrite Rabs_left in K1 by lra; apply Hx | rewrite Rabs_right in K1 by lra; apply K].
        { replace x with (- (1 / (2 * b))) by lra. field. lra. }
        { rewrite K1. field. lra. }
      * replace (PI * (b * x - 1 / 2)) with (- (PI / 2 - PI * x * b)) by field. rewrite sin_neg, sin_shift.
        replace (1 - 2 * b * x * (2 * b * x)) with (- (4 * (b * x - 1 / 2) * (b * x + 1 / 2))) by field. field. assert (2 * (b * x) - 1 <> 0) by lra. assert (2 * (b * x) + 1 <> 0) by lra. split_and!; try lra. replace (PI - PI * x * b * 2) with (PI * - (2 * (b * x) - 1)) by ring. apply Rmult_integral_contrapositive_currified; lra.
Qed.
Lemma raised_int b z : 0 < b -> r_calc (raised_cosine_time (A := R) b) (IZR z) = if (z =? 0)%Z then 1 else 0.
Proof.
  intros Hb. assert (E : forall z, b * IZR z + 1 / 2 <> 0 -> r_calc (raised_cosine_time (A := R) b) (IZR z) = if (z =? 0)%Z then 1 else 0).
  { intros y Hy. destruct (Z.eqb_spec y 0) as [->|Hz].
    - rewrite raised_value. by destruct (Req_EM_T 0 0).
    - rewrite raised_factors by done. rewrite sinc_int. rewrite (proj2 (Z.eqb_neq y 0)) by done. ring. }
  destruct (Req_EM_T (b * IZR z + 1 / 2) 0) as [K|K]; [|by apply E].
  assert (Ez := raised_cosine_time_even b (IZR z)). cbn [nopp Rnum] in Ez. rewrite <- Ez, <- opp_IZR. rewrite E; [|rewrite opp_IZR; lra].
  destruct (Z.eqb_spec (- z) 0), (Z.eqb_spec z 0); done || lia.
Qed.

(** Continuity *)
Lemma sinc_continuous : continuity (r_calc (sinc_time (A := R))).
Proof.
  assert (HP := PI_RGT_0). intros x. destruct (Req_EM_T x 0) as [->|Hx].
  - intros eps Heps. assert (D := derivable_pt_lim_sin_0). destruct (D eps Heps) as [del Hdel]. destruct del as [d Hd]. cbn in Hdel.
    exists (d / PI). split; [apply Rdiv_lt_0_compat; lra|]. intros y [[_ Hy] Hdist]. change (R_dist (r_calc (sinc_time (A := R)) y) (r_calc (sinc_time (A := R)) 0) < eps). change (R_dist y 0 < d / PI) in Hdist. unfold R_dist in *. rewrite !sinc_value.
    destruct (Req_EM_T 0 0) as [_|K]; [|done]. destruct (Req_EM_T y 0) as [->|Hy0]; [done|].
    assert (H1 := Hdel (PI * y)). rewrite sin_0, Rplus_0_l, Rminus_0_r in H1. apply H1; [intros K; apply Rmult_integral in K; lra|].
    rewrite Rminus_0_r in Hdist. rewrite Rabs_mult, (Rabs_right PI) by lra. apply (Rmult_lt_compat_l PI) in Hdist; [|lra]. by replace (PI * (d / PI)) with d in Hdist by (field; lra).
  - apply (continuity_pt_locally_ext (fun y => sin (PI * y) / (PI * y)) _ (Rabs x)); [by apply Rabs_pos_lt | |].
    + intros y Hy. rewrite sinc_value. destruct (Req_EM_T y 0) as [->|]; [|done]. exfalso. unfold R_dist in Hy. rewrite Rminus_0_l, Rabs_Ropp in Hy. lra.
    + apply (continuity_pt_div (fun y => sin (PI * y)) (fun y => PI * y)); [|reg|nra]. reg.
Qed.
Lemma raised_continuous b : 0 < b -> continuity (r_calc (raised_cosine_time (A := R) b)).
Proof.
  intros Hb. assert (E : forall x, b * x + 1 / 2 <> 0 -> continuity_pt (r_calc (raised_cosine_time (A := R) b)) x).
  { intros x Hx. set (s := r_calc (sinc_time (A := R))).
    apply (continuity_pt_locally_ext (fun y => s y * (PI / 4 * s (b * y - 1 / 2) / (b * y + 1 / 2))) _ (Rabs (b * x + 1 / 2) / b)).
    - apply Rdiv_lt_0_compat; [by apply Rabs_pos_lt | lra].
    - intros y Hy. symmetry. apply raised_factors; [done|]. intros K. unfold R_dist in Hy. replace (b * x + 1 / 2) with (b * (x - y)) in Hy by lra.
      rewrite Rabs_mult, (Rabs_right b) in Hy by lra. replace (b * Rabs (x - y) / b) with (Rabs (x - y)) in Hy by (field; lra). rewrite (Rabs_minus_sym y x) in Hy || idtac. lra.
    - assert (Hs : continuity s) by exact sinc_continuous.
      apply (continuity_pt_mult s (fun y => PI / 4 * s (b * y - 1 / 2) / (b * y + 1 / 2))); [apply Hs|].
      apply (continuity_pt_div (fun y => PI / 4 * s (b * y - 1 / 2)) (fun y => b * y + 1 / 2)); [|reg|done].
      apply (continuity_pt_mult (fun _ => PI / 4) (fun y => s (b * y - 1 / 2))); [reg|].
      apply (continuity_pt_comp (fun y => b * y - 1 / 2) s); [reg | apply Hs]. }
  intros x. destruct (Req_EM_T (b * x + 1 / 2) 0) as [K|K]; [|by apply E].
  assert (K' : b * - x + 1 / 2 <> 0) by lra. specialize (E (- x) K').
  apply (continuity_pt_locally_ext (fun y => r_calc (raised_cosine_time (A := R) b) (- y)) _ 1); [lra| |].
  - intros y _. apply (raised_cosine_time_even b y).
  - apply (continuity_pt_comp (fun y => - y) (r_calc (raised_cosine_time (A := R) b))); [reg | exact E].
Qed.

Lemma raised_freq_value b x : r_calc (raised_cosine_freq (A := R) b) x =
  if Rle_dec (Rabs x) (1 - b) then 1 else if Rle_dec (Rabs x) (1 + b) then 1 / 2 * (1 + cos (PI / b * (Rabs x - (1 - b)) / 2)) else 0.
Proof.
  unfold raised_cosine_freq. cbn [r_calc]. cbn -[PI]. unfold Rleb, Rltb. replace (1 + 1) with 2 by lra. destruct (Rle_dec (Rabs x) (1 - b)) as [|K]; [done|].
  destruct (Rlt_dec (1 - b) (Rabs x)); [|lra]. cbn [andb]. by destruct (Rle_dec (Rabs x) (1 + b)).
Qed.
Lemma raised_freq_range b x : 0 <= r_calc (raised_cosine_freq (A := R) b) x <= 1.
Proof. rewrite raised_freq_value. destruct (Rle_dec _ _); [lra|]. destruct (Rle_dec _ _); [|lra]. assert (K := COS_bound (PI / b * (Rabs x - (1 - b)) / 2)). lra. Qed.
Lemma raised_freq_nyquist b d : 0 < b <= 1 -> 0 <= d <= 1 -> r_calc (raised_cosine_freq (A := R) b) (1 - d) + r_calc (raised_cosine_freq (A := R) b) (1 + d) = 1.
Proof.
  intros Hb Hd. rewrite !raised_freq_value, !Rabs_right by lra. destruct (Rle_dec (1 + d) (1 - b)); [lra|]. destruct (Rle_dec (1 - d) (1 - b)) as [K|K].
  - destruct (Rle_dec (1 + d) (1 + b)); [|lra]. replace d with b by lra. replace (PI / b * (1 + b - (1 - b)) / 2) with PI by (field; lra). rewrite cos_PI. lra.
  - destruct (Rle_dec (1 - d) (1 + b)); [|lra]. destruct (Rle_dec (1 + d) (1 + b)); [|lra].
    replace (PI / b * (1 - d - (1 - b)) / 2) with (PI / 2 - PI * d / (2 * b)) by (field; lra). replace (PI / b * (1 + d - (1 - b)) / 2) with (PI - (PI / 2 - PI * d / (2 * b))) by (field; lra).
    replace (cos (PI - (PI / 2 - PI * d / (2 * b)))) with (- cos (PI / 2 - PI * d / (2 * b))); [lra|]. rewrite (cos_minus PI), cos_PI, sin_PI. ring.
Qed.
