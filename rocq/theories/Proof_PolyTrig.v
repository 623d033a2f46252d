(** The polynomials of sin and cos, and pi / 4. *)
From stdpp Require Import tactics.
From Coq Require Import QArith Qreals Reals Lra Lia List.
From Verif Require Import Proof_PolyCheck Proof_PolyNum.
Import ListNotations.
Local Open Scope R_scope.

(** ** Taylor polynomials *)
(** [f] is the next coefficient, [k] its power; every other one is left out *)
Fixpoint taylor_alt (n : nat) (f : Q) (k : Z) : list Q :=
  match n with O => [] | S n => f :: 0%Q :: taylor_alt n (Qred (- f / inject_Z ((k + 1) * (k + 2)))) (k + 2) end.

Fixpoint psum (t : nat -> R) (n : nat) : R := match n with O => 0 | S n => t O + psum (fun i => t (S i)) n end.

Lemma psum_ext t u n : (forall i, t i = u i) -> psum t n = psum u n.
Proof. revert t u. induction n as [|n IH]; intros t u E; cbn [psum]; [done|]. rewrite E. f_equal. apply IH. intros i. apply E. Qed.
Lemma psum_scal t c n : psum (fun i => c * t i) n = c * psum t n.
Proof. revert t. induction n as [|n IH]; intros t; cbn [psum]; [lra|]. rewrite IH. lra. Qed.
Lemma psum_last t n : psum t (S n) = psum t n + t n.
Proof. revert t. induction n as [|n IH]; intros t; [cbn; lra|]. cbn [psum] in *. rewrite (IH (fun i => t (S i))). lra. Qed.
Lemma psum_sum t n : sum_f_R0 t n = psum t (S n).
Proof. induction n as [|n IH]; [cbn; lra|]. cbn [sum_f_R0]. rewrite IH, (psum_last t (S n)). done. Qed.

(** The sum of a series with [t (i + 1) = - t i x x / ((k + 2 i + 1) (k + 2 i + 2))] *)
Lemma taylor_alt_sum n f k x t : (0 <= k)%Z -> t O = Q2R f ->
  (forall i, t (S i) = - t i * (x * x) / (IZR ((k + 2 * Z.of_nat i + 1) * (k + 2 * Z.of_nat i + 2)))) -> psum t n = peval (taylor_alt n f k) x.
Proof.
  revert f k t. induction n as [|n IH]; intros f k t Hk H0 HS; cbn [taylor_alt psum peval]; [done|].
  rewrite H0, Q2R_0. f_equal. rewrite Rplus_0_l, <- Rmult_assoc.
  destruct (Req_dec x 0) as [->|Hx].
  { replace (0 * 0) with 0 by lra. rewrite Rmult_0_l.
    assert (Z0 : forall i, t (S i) = 0) by (intros i; rewrite HS; unfold Rdiv; ring).
    clear -Z0. revert t Z0. induction n as [|n IH]; intros t Z0; cbn [psum]; [done|]. rewrite Z0, (IH (fun i => t (S i))) by (intros i; apply Z0). lra. }
  assert (Hxx : x * x <> 0) by nra.
  rewrite <- (IH _ (k + 2)%Z (fun i => t (S i) / (x * x))).
  - rewrite <- (psum_scal (fun i => t (S i) / (x * x)) (x * x) n). apply psum_ext. intros i. field. exact Hx.
  - lia.
  - rewrite (HS O), H0. rewrite Qred_R, Q2R_div, Q2R_opp.
    + replace (Q2R (inject_Z ((k + 1) * (k + 2)))) with (IZR ((k + 1) * (k + 2))) by (unfold Q2R, inject_Z; cbn [Qnum Qden]; lra).
      replace (k + 2 * Z.of_nat 0 + 1)%Z with (k + 1)%Z by lia. replace (k + 2 * Z.of_nat 0 + 2)%Z with (k + 2)%Z by lia.
      assert (IZR ((k + 1) * (k + 2)) <> 0) by (apply not_0_IZR; nia). field. split; assumption.
    + unfold Qeq, inject_Z. cbn [Qnum Qden]. nia.
  - intros i. rewrite (HS (S i)).
    replace (k + 2 * Z.of_nat (S i) + 1)%Z with (k + 2 + 2 * Z.of_nat i + 1)%Z by lia.
    replace (k + 2 * Z.of_nat (S i) + 2)%Z with (k + 2 + 2 * Z.of_nat i + 2)%Z by lia.
    assert (IZR ((k + 2 + 2 * Z.of_nat i + 1) * (k + 2 + 2 * Z.of_nat i + 2)) <> 0) by (apply not_0_IZR; nia). field. split; assumption.
Qed.

Lemma fact_step n : INR (fact (n + 2)) = INR (fact n) * IZR ((Z.of_nat n + 1) * (Z.of_nat n + 2)).
Proof.
  replace (n + 2)%nat with (S (S n)) by lia. rewrite !fact_simpl, !mult_INR, !INR_IZR_INZ, <- !mult_IZR. f_equal. lia.
Qed.

Lemma cos_taylor x n : cos_approx x n = peval (taylor_alt (S n) 1 0) x.
Proof.
  unfold cos_approx. rewrite psum_sum. apply taylor_alt_sum; [lia | |].
  - unfold cos_term. cbn. unfold Q2R. cbn. lra.
  - intros i. unfold cos_term. replace (2 * S i)%nat with (2 * i + 2)%nat by lia. rewrite fact_step, pow_add. cbn [pow].
    replace (0 + 2 * Z.of_nat i)%Z with (Z.of_nat (2 * i)) by lia.
    assert (INR (fact (2 * i)) <> 0) by apply INR_fact_neq_0.
    assert (IZR ((Z.of_nat (2 * i) + 1) * (Z.of_nat (2 * i) + 2)) <> 0) by (apply not_0_IZR; nia). field. split; assumption.
Qed.
Lemma sin_taylor x n : sin_approx x n = x * peval (taylor_alt (S n) 1 1) x.
Proof.
  unfold sin_approx. rewrite psum_sum, <- (taylor_alt_sum (S n) 1 1 x (fun i => (-1) ^ i * (x ^ (2 * i) / INR (fact (2 * i + 1))))).
  - rewrite <- psum_scal. apply psum_ext. intros i. unfold sin_term. rewrite pow_add. cbn [pow]. unfold Rdiv. ring.
  - lia.
  - cbn. unfold Q2R. cbn. lra.
  - intros i. replace (2 * S i)%nat with (2 * i + 2)%nat by lia. replace (2 * i + 2 + 1)%nat with (2 * i + 1 + 2)%nat by lia. rewrite fact_step, pow_add. cbn [pow].
    replace (1 + 2 * Z.of_nat i)%Z with (Z.of_nat (2 * i + 1)) by lia.
    assert (INR (fact (2 * i + 1)) <> 0) by apply INR_fact_neq_0.
    assert (IZR ((Z.of_nat (2 * i + 1) + 1) * (Z.of_nat (2 * i + 1) + 2)) <> 0) by (apply not_0_IZR; nia). field. split; assumption.
Qed.

(** ** The polynomials *)
(** sin x / x and cos x, as polynomials of x *)
Definition PSx : list Q :=
  [1; 0; -16666654611000 # 100000000000000; 0; 833216087360 # 100000000000000; 0; -19515295891 # 100000000000000]%Q.
Definition PC : list Q :=
  [1; 0; - (1 # 2); 0; 4166664568298827 # 100000000000000000; 0; -1388731625493765 # 1000000000000000000; 0; 2443315711809948 # 100000000000000000000]%Q.

Definition S_lo : list Q := Eval vm_compute in padd PSx (pscale (-1) (taylor_alt 7 1 1)).
Definition S_hi : list Q := Eval vm_compute in padd PSx (pscale (-1) (taylor_alt 6 1 1)).
Definition C_lo : list Q := Eval vm_compute in padd PC (pscale (-1) (taylor_alt 7 1 0)).
Definition C_hi : list Q := Eval vm_compute in padd PC (pscale (-1) (taylor_alt 6 1 0)).

Lemma S_lo_ok : between S_lo 0 (786 # 1000) (- (5 # 1000000000)) (5 # 1000000000) 16 = true.
Proof. vm_compute. reflexivity. Qed.
Lemma S_hi_ok : between S_hi 0 (786 # 1000) (- (5 # 1000000000)) (5 # 1000000000) 16 = true.
Proof. vm_compute. reflexivity. Qed.
Lemma C_lo_ok : between C_lo 0 (786 # 1000) (- (5 # 1000000000)) (5 # 1000000000) 16 = true.
Proof. vm_compute. reflexivity. Qed.
Lemma C_hi_ok : between C_hi 0 (786 # 1000) (- (5 # 1000000000)) (5 # 1000000000) 16 = true.
Proof. vm_compute. reflexivity. Qed.

Lemma peval_minus p q x : peval (padd p (pscale (-1) q)) x = peval p x - peval q x.
Proof. rewrite peval_padd, peval_pscale. replace (Q2R (-1)) with (-1) by q2r. lra. Qed.

Lemma sin_poly_pos x : 0 <= x <= 786 / 1000 -> Rabs (x * peval PSx x - sin x) <= 4 / 1000000000.
Proof.
  intros Hx. destruct (pre_sin_bound x 2 ltac:(lra) ltac:(lra)) as [HL HU]. rewrite sin_taylor in HL, HU.
  change (S (2 * 2 + 1)) with 6%nat in HL. change (S (2 * (2 + 1))) with 7%nat in HU.
  use_between S_lo_ok x. use_between S_hi_ok x.
  change S_lo with (padd PSx (pscale (-1) (taylor_alt 7 1 1))) in HB. change S_hi with (padd PSx (pscale (-1) (taylor_alt 6 1 1))) in HB0.
  rewrite peval_minus in HB, HB0. revert HL HU HB HB0. generalize (peval PSx x), (peval (taylor_alt 7 1 1) x), (peval (taylor_alt 6 1 1) x), (sin x).
  intros p a b s HL HU HB HB0. apply abs_iff.
  assert (x * p - x * a >= - (4 / 1000000000)).
  { replace (x * p - x * a) with (x * (p - a)) by ring. assert (x * - (5 / 1000000000) <= x * (p - a)) by (apply Rmult_le_compat_l; lra). lra. }
  assert (x * p - x * b <= 4 / 1000000000).
  { replace (x * p - x * b) with (x * (p - b)) by ring. assert (x * (p - b) <= x * (5 / 1000000000)) by (apply Rmult_le_compat_l; lra). lra. }
  lra.
Qed.

Lemma cos_poly_pos x : 0 <= x <= 786 / 1000 -> Rabs (peval PC x - cos x) <= 5 / 1000000000.
Proof.
  intros Hx. destruct (pre_cos_bound x 2 ltac:(lra) ltac:(lra)) as [HL HU]. rewrite cos_taylor in HL, HU.
  change (S (2 * 2 + 1)) with 6%nat in HL. change (S (2 * (2 + 1))) with 7%nat in HU.
  use_between C_lo_ok x. use_between C_hi_ok x.
  change C_lo with (padd PC (pscale (-1) (taylor_alt 7 1 0))) in HB. change C_hi with (padd PC (pscale (-1) (taylor_alt 6 1 0))) in HB0.
  rewrite peval_minus in HB, HB0. apply abs_iff. lra.
Qed.

Lemma PSx_even x : peval PSx (- x) = peval PSx x.
Proof. unfold PSx. cbn [peval]. rewrite Q2R_0. ring. Qed.
Lemma PC_even x : peval PC (- x) = peval PC x.
Proof. unfold PC. cbn [peval]. rewrite Q2R_0. ring. Qed.

Lemma sin_poly x : - (786 / 1000) <= x <= 786 / 1000 -> Rabs (x * peval PSx x - sin x) <= 4 / 1000000000.
Proof.
  intros Hx. destruct (Rle_dec 0 x); [apply sin_poly_pos; lra|].
  pose proof (sin_poly_pos (- x) ltac:(lra)) as H. rewrite PSx_even, sin_neg in H. rewrite <- Rabs_Ropp.
  replace (- (x * peval PSx x - sin x)) with (- x * peval PSx x - - sin x) by ring. exact H.
Qed.
Lemma cos_poly x : - (786 / 1000) <= x <= 786 / 1000 -> Rabs (peval PC x - cos x) <= 5 / 1000000000.
Proof.
  intros Hx. destruct (Rle_dec 0 x); [apply cos_poly_pos; lra|].
  pose proof (cos_poly_pos (- x) ltac:(lra)) as H. rewrite PC_even, cos_neg in H. exact H.
Qed.

(** ** pi / 4 *)
Definition K : Q := (78515625 # 100000000) + (24187564849853515625 # 100000000000000000000000) + (377489497744594108 # 10000000000000000000000000).

Definition pi_lo : list Q := Eval vm_compute in padd (taylor_alt 10 1 0) (pscale (-1) (0%Q :: taylor_alt 11 1 1)).
Definition pi_hi : list Q := Eval vm_compute in padd (taylor_alt 11 1 0) (pscale (-1) (0%Q :: taylor_alt 10 1 1)).
Lemma pi_lo_ok : between pi_lo K K (- (1 # 100000000000000000000)) (1 # 100000000000000000000) 1 = true.
Proof. vm_compute. reflexivity. Qed.
Lemma pi_hi_ok : between pi_hi K K (- (1 # 100000000000000000000)) (1 # 100000000000000000000) 1 = true.
Proof. vm_compute. reflexivity. Qed.

Lemma K_bounds : 7853 / 10000 <= Q2R K <= 7854 / 10000.
Proof. unfold K. rewrite !Q2R_plus, !Q2R_frac. lra. Qed.

Lemma sin_half d : 0 <= d <= 1 -> d / 2 <= sin d.
Proof.
  intros Hd. destruct (pre_sin_bound d 0 ltac:(lra) ltac:(lra)) as [HL _]. rewrite sin_taylor in HL. change (S (2 * 0 + 1)) with 2%nat in HL.
  assert (HP : between (taylor_alt 2 1 1) 0 1 (1 # 2) 1 6 = true) by (vm_compute; reflexivity). use_between HP d.
  assert (d * (1 / 2) <= d * peval (taylor_alt 2 1 1) d) by (apply Rmult_le_compat_l; lra). lra.
Qed.

Lemma pi4 : Rabs (PI / 4 - Q2R K) <= 2 / 100000000000000000000.
Proof.
  pose proof K_bounds as HK.
  destruct (pre_sin_bound (Q2R K) 4 ltac:(lra) ltac:(lra)) as [SL SU]. rewrite sin_taylor in SL, SU.
  destruct (pre_cos_bound (Q2R K) 4 ltac:(lra) ltac:(lra)) as [CL CU]. rewrite cos_taylor in CL, CU.
  change (S (2 * 4 + 1)) with 10%nat in SL, CL. change (S (2 * (4 + 1))) with 11%nat in SU, CU.
  pose proof (between_sound _ _ _ _ _ _ (Q2R K) pi_lo_ok (conj (Rle_refl _) (Rle_refl _))) as H1.
  pose proof (between_sound _ _ _ _ _ _ (Q2R K) pi_hi_ok (conj (Rle_refl _) (Rle_refl _))) as H2.
  change pi_lo with (padd (taylor_alt 10 1 0) (pscale (-1) (0%Q :: taylor_alt 11 1 1))) in H1.
  change pi_hi with (padd (taylor_alt 11 1 0) (pscale (-1) (0%Q :: taylor_alt 10 1 1))) in H2.
  rewrite peval_minus in H1, H2. 
  assert (E : forall l, peval (0%Q :: l) (Q2R K) = Q2R K * peval l (Q2R K)) by (intros l; cbn [peval]; rewrite Q2R_0; lra).
  rewrite E in H1, H2. rewrite Q2R_opp, Q2R_frac in H1, H2.
  set (d := PI / 4 - Q2R K) in *.
  assert (HS : sin d = / sqrt 2 * (cos (Q2R K) - sin (Q2R K))).
  { unfold d. rewrite sin_minus, sin_PI4, cos_PI4. unfold Rdiv. ring. }
  assert (Hs : 0 < / sqrt 2 <= 1).
  { split; [apply Rinv_0_lt_compat, sqrt_lt_R0; lra|]. rewrite <- Rinv_1. apply Rinv_le_contravar; [lra|]. rewrite <- sqrt_1. apply sqrt_le_1; lra. }
  assert (HR : Rabs (sin d) <= 1 / 100000000000000000000).
  { rewrite HS, Rabs_mult, (Rabs_pos_eq (/ sqrt 2)) by lra. assert (Hc : Rabs (cos (Q2R K) - sin (Q2R K)) <= 1 / 100000000000000000000) by (apply abs_iff; lra).
    pose proof (Rabs_pos (cos (Q2R K) - sin (Q2R K))).
    assert (/ sqrt 2 * Rabs (cos (Q2R K) - sin (Q2R K)) <= 1 * (1 / 100000000000000000000)) by (apply Rmult_le_compat; lra). lra. }
  assert (Hd : -1 <= d <= 1) by (unfold d; pose proof PI2_3_2; pose proof PI_4; lra).
  apply abs_iff in HR. apply abs_iff. destruct (Rle_dec 0 d).
  - pose proof (sin_half d ltac:(lra)). lra.
  - pose proof (sin_half (- d) ltac:(lra)) as H. rewrite sin_neg in H. lra.
Qed.
