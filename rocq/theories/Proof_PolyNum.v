(** Numerical facts about exp, ln, sin, cos and pi, proved with Proof_PolyCheck. *)
From stdpp Require Import tactics.
From Coq Require Import QArith Qreals Reals Lra Lia List.
From Verif Require Import Proof_PolyCheck.
Import ListNotations.
Local Open Scope R_scope.

Ltac q2r := unfold Q2R; cbn [Qnum Qden]; lra.

(** ** ln 2 *)
Fixpoint taylor_exp (n : nat) (f : Q) (k : Z) : list Q :=
  match n with O => [] | S n => f :: taylor_exp n (Qred (f / inject_Z (k + 1))) (k + 1) end.
Definition T18 : list Q := Eval vm_compute in taylor_exp 18 1 0.
Definition L0 : Q := 69314718056 # 100000000000.

Lemma T18_ode : between (padd (pderiv T18) (pscale (-1) T18)) 0 (7 # 10) (- (1 # 10000000000000000)) (1 # 10000000000000000) 4 = true.
Proof. vm_compute. reflexivity. Qed.
Lemma T18_L0 : (Qle_bool (2 * (1 - (1 # 2000000000000))) (Qred (fold_right (fun c y => c + L0 * y)%Q 0%Q T18)) &&
  Qle_bool (Qred (fold_right (fun c y => c + L0 * y)%Q 0%Q T18)) (2 * (1 + (1 # 2000000000000))))%bool = true.
Proof. vm_compute. reflexivity. Qed.

Lemma peval_Q p (q : Q) : peval p (Q2R q) = Q2R (fold_right (fun c y => c + q * y)%Q 0%Q p).
Proof. induction p as [|c p IH]; cbn [peval fold_right]; [by rewrite Q2R_0|]. by rewrite IH, Q2R_plus, Q2R_mult. Qed.

Lemma ln2_bound : Rabs (ln 2 - Q2R L0) <= 1 / 1000000000000.
Proof.
  assert (HL : 0 <= Q2R L0 <= 7 / 10) by (unfold L0; split; q2r).
  assert (HE : Rabs (peval T18 (Q2R L0) * exp (- Q2R L0) - 1) <= Rabs (Q2R L0) * (1 / 10000000000000000 * 1)).
  { apply (exp_poly T18 0 (7 / 10)); try lra.
    - unfold T18. cbn [peval]. q2r.
    - intros c Hc. pose proof (between_sound _ _ _ _ _ _ c T18_ode) as HB. rewrite Q2R_opp, Q2R_0 in HB.
      replace (Q2R (7 # 10)) with (7 / 10) in HB by q2r. replace (Q2R (1 # 10000000000000000)) with (1 / 10000000000000000) in HB by q2r.
      apply HB. exact Hc.
    - intros c Hc. rewrite <- exp_0. destruct (Req_dec c 0) as [->|]; [rewrite Ropp_0; lra|]. left. apply exp_increasing. lra. }
  rewrite (Rabs_pos_eq (Q2R L0)) in HE by lra.
  pose proof T18_L0 as HT. apply andb_prop in HT. destruct HT as [H1 H2]. apply Q2R_le in H1, H2. rewrite Qred_R, <- peval_Q in H1, H2.
  rewrite Q2R_mult in H1, H2. rewrite Q2R_minus in H1. rewrite Q2R_plus in H2.
  replace (Q2R 2) with 2 in * by q2r. replace (Q2R 1) with 1 in * by q2r. replace (Q2R (1 # 2000000000000)) with (1 / 2000000000000) in * by q2r.
  set (P := peval T18 (Q2R L0)) in *. set (l := Q2R L0) in *.
  assert (HQ : Rabs (2 * exp (- l) - 1) <= 8 / 10000000000000).
  { assert (E : 2 * exp (- l) - 1 = (P * exp (- l) - 1) + (2 - P) * exp (- l)) by ring. rewrite E.
    eapply Rle_trans; [apply Rabs_triang|]. rewrite Rabs_mult.
    assert (exp (- l) <= 1) by (rewrite <- exp_0; destruct (Req_dec l 0) as [->|]; [rewrite Ropp_0; lra | left; apply exp_increasing; lra]).
    pose proof (exp_pos (- l)). rewrite (Rabs_pos_eq (exp (- l))) by lra.
    assert (Rabs (2 - P) <= 1 / 1000000000000) by (apply Rabs_le; lra).
    assert (Hl2 : exp (- l) <= 6 / 10).
    { replace (- l) with (- (l / 2) + - (l / 2)) by lra. rewrite exp_plus. 
      assert (Hx : exp (- (l / 2)) <= 75 / 100).
      { assert (0.34 < l / 2) by (unfold l, L0; q2r). pose proof (exp_ineq1_le (l / 2)). rewrite exp_Ropp.
        apply Rle_trans with (/ (134 / 100)); [apply Rinv_le_contravar; lra | lra]. }
      pose proof (exp_pos (- (l / 2))). assert (exp (- (l / 2)) * exp (- (l / 2)) <= 75 / 100 * (75 / 100)) by (apply Rmult_le_compat; lra). lra. }
    assert (Rabs (2 - P) * exp (- l) <= 1 / 1000000000000 * (6 / 10)) by (apply Rmult_le_compat; try lra; apply Rabs_pos). lra. }
  assert (HX : exp (ln 2 - l) = 2 * exp (- l)) by (unfold Rminus; rewrite exp_plus, exp_ln by lra; reflexivity).
  rewrite <- HX in HQ. set (d := ln 2 - l) in *.
  assert (Hd : 1 + d <= exp d) by apply exp_ineq1_le. assert (Hd' : 1 - d <= exp (- d)) by apply exp_neg_lower.
  assert (exp d * exp (- d) = 1) by (rewrite <- exp_plus, Rplus_opp_r; apply exp_0).
  pose proof (exp_pos d). pose proof (exp_pos (- d)).
  assert (HA : - (8 / 10000000000000) <= exp d - 1 <= 8 / 10000000000000) by (unfold Rabs in HQ; destruct (Rcase_abs (exp d - 1)); lra).
  apply Rabs_le. split; [|lra].
  assert (exp (- d) <= 1 + 9 / 10000000000000).
  { assert (E : exp (- d) = / exp d) by (apply exp_Ropp). rewrite E. apply Rle_trans with (/ (1 - 8 / 10000000000000)); [apply Rinv_le_contravar; lra | lra]. }
  lra.
Qed.

(** ** The polynomial of exp *)
Definition PE : list Q :=
  [1; 1; 50000001201000 # 100000000000000; 16666665459000 # 100000000000000; 4166579589400 # 100000000000000; 833345190730 # 100000000000000;
   139819995070 # 100000000000000; 19875691500 # 100000000000000]%Q.
Lemma PE_ode : between (padd (pderiv PE) (pscale (-1) PE)) (- (3466 # 10000)) (3466 # 10000) (- (3 # 100000000)) (3 # 100000000) 8 = true.
Proof. vm_compute. reflexivity. Qed.

Lemma exp_K c : - (3466 / 10000) <= c -> exp (- c) <= 154 / 100.
Proof.
  intros Hc. apply Rle_trans with (exp (3466 / 10000)); [destruct (Req_dec c (- (3466 / 10000))) as [->|]; [rewrite Ropp_involutive; lra | left; apply exp_increasing; lra]|].
  pose proof (exp_neg_lower (3466 / 10000)). pose proof (exp_pos (3466 / 10000)).
  replace (exp (3466 / 10000)) with (/ exp (- (3466 / 10000))) by (rewrite exp_Ropp; apply Rinv_inv).
  apply Rle_trans with (/ (1 - 3466 / 10000)); [apply Rinv_le_contravar; lra | lra].
Qed.

Lemma PE_bound g : - (3466 / 10000) <= g <= 3466 / 10000 -> Rabs (peval PE g * exp (- g) - 1) <= 17 / 1000000000.
Proof.
  intros Hg. eapply Rle_trans.
  - apply (exp_poly PE (- (3466 / 10000)) (3466 / 10000) (3 / 100000000) (154 / 100)); try lra.
    + unfold PE. cbn [peval]. q2r.
    + intros c Hc. pose proof (between_sound _ _ _ _ _ _ c PE_ode) as HB. rewrite !Q2R_opp in HB.
      replace (Q2R (3466 # 10000)) with (3466 / 10000) in HB by q2r. replace (Q2R (3 # 100000000)) with (3 / 100000000) in HB by q2r. by apply HB.
    + intros c Hc. apply exp_K. lra.
  - assert (Rabs g <= 3466 / 10000) by (apply Rabs_le; lra). pose proof (Rabs_pos g). nra.
Qed.

(** ** The polynomial of ln *)
Definition PL : list Q :=
  [0; 1; - (1 # 2); 333333311740 # 1000000000000; -249999939930 # 1000000000000; 200007147650 # 1000000000000; -166680576650 # 1000000000000;
   142493227870 # 1000000000000; -124201408460 # 1000000000000; 116769987400 # 1000000000000; -115146103100 # 1000000000000;
   70376836292 # 1000000000000]%Q.
(** [(1 + t) PL'(t) - 1] *)
Definition QL : list Q := Eval vm_compute in padd (padd (pderiv PL) (0%Q :: pderiv PL)) [(-1)%Q].
Definition DL (t : R) : R := peval PL t - ln (1 + t).

Lemma QL_eq t : peval QL t = (1 + t) * peval (pderiv PL) t - 1.
Proof.
  change QL with (padd (padd (pderiv PL) (0%Q :: pderiv PL)) [(-1)%Q]). rewrite !peval_padd. cbn [peval]. rewrite Q2R_0.
  replace (Q2R (-1)) with (-1) by q2r. ring.
Qed.

Lemma DL_deriv k t : 0 <= t -> derivable_pt_lim (fun t => peval PL t - k * ln (1 + t)) t ((peval QL t - (k - 1)) / (1 + t)).
Proof.
  intros Ht. replace ((peval QL t - (k - 1)) / (1 + t)) with (peval (pderiv PL) t - k * (/ (1 + t) * (0 + 1))) by (rewrite QL_eq; field; lra).
  apply derivable_pt_lim_minus; [apply peval_deriv|]. apply derivable_pt_lim_scal.
  apply (derivable_pt_lim_comp (fun t => 1 + t) ln).
  - apply (derivable_pt_lim_plus (fun _ => 1) (fun t => t)); [apply derivable_pt_lim_const | apply derivable_pt_lim_id].
  - apply derivable_pt_lim_ln. lra.
Qed.

Lemma DL_lip k t0 t1 m : 0 <= t0 <= t1 -> 0 <= m -> (forall c, t0 <= c <= t1 -> - m <= peval QL c - (k - 1) <= m) ->
  Rabs ((peval PL t1 - k * ln (1 + t1)) - (peval PL t0 - k * ln (1 + t0))) <= m * (t1 - t0).
Proof.
  intros Ht Hm Hb. apply Rabs_le.
  pose proof (mvt_bound (fun t => peval PL t - k * ln (1 + t)) (fun t => (peval QL t - (k - 1)) / (1 + t)) t0 t1 (- m) m ltac:(lra)
    ltac:(intros; apply DL_deriv; lra)) as HM.
  assert (HB : forall c, t0 <= c <= t1 -> - m <= (peval QL c - (k - 1)) / (1 + c) <= m).
  { intros c Hc. specialize (Hb c Hc). set (d := peval QL c - (k - 1)) in *. assert (1 <= 1 + c) by lra.
    assert (Rabs (d / (1 + c)) <= m).
    { unfold Rdiv. rewrite Rabs_mult. rewrite (Rabs_pos_eq (/ (1 + c))) by (left; apply Rinv_0_lt_compat; lra).
      assert (/ (1 + c) <= 1) by (rewrite <- Rinv_1; apply Rinv_le_contravar; lra). assert (0 < / (1 + c)) by (apply Rinv_0_lt_compat; lra).
      assert (Rabs d <= m) by (apply Rabs_le; lra). pose proof (Rabs_pos d). nra. }
    revert H0. generalize (d / (1 + c)). intros a H0. unfold Rabs in H0. destruct (Rcase_abs a); lra. }
  specialize (HM HB). cbv beta in HM. lra.
Qed.

Lemma DL_mono k t0 t1 : 0 <= t0 <= t1 -> (forall c, t0 <= c <= t1 -> 0 <= peval QL c - (k - 1)) ->
  peval PL t0 - k * ln (1 + t0) <= peval PL t1 - k * ln (1 + t1).
Proof.
  intros Ht Hb. destruct (Req_dec t0 t1) as [->|]; [lra|].
  destruct (MVT_cor2 (fun t => peval PL t - k * ln (1 + t)) (fun t => (peval QL t - (k - 1)) / (1 + t)) t0 t1) as (c & E & Hc);
    [lra | intros; apply DL_deriv; lra|]. cbv beta in E. specialize (Hb c ltac:(lra)).
  assert (0 <= (peval QL c - (k - 1)) / (1 + c)). { apply Rmult_le_pos; [lra | left; apply Rinv_0_lt_compat; lra]. }
  assert (0 <= (peval QL c - (k - 1)) / (1 + c) * (t1 - t0)) by (apply Rmult_le_pos; lra). lra.
Qed.

Lemma QL_first : between QL 0 (1 # 2) (- (1 # 10000)) (1 # 10000) 6 = true.
Proof. vm_compute. reflexivity. Qed.
Lemma QL_small : between QL 0 (4143 # 10000) (- (1 # 1000000)) (1 # 1000000) 12 = true.
Proof. vm_compute. reflexivity. Qed.
Lemma QL_pos : between QL (1 # 2) 1 0 10 8 = true.
Proof. vm_compute. reflexivity. Qed.
Lemma QL_pos2 : between QL (7 # 8) 1 (1 # 100) 10 8 = true.
Proof. vm_compute. reflexivity. Qed.

Lemma Q2R_frac a b : Q2R (a # b) = IZR a / IZR (Zpos b).
Proof. reflexivity. Qed.
Ltac use_between H c := let HB := fresh "HB" in pose proof (between_sound _ _ _ _ _ _ c H) as HB; rewrite ?Q2R_opp, ?Q2R_frac in HB; specialize (HB ltac:(lra)).

Ltac at_point p q lo hi := let H := fresh "HP" in assert (H : between p q q lo hi 1 = true) by (vm_compute; reflexivity);
  use_between H (Q2R q); rewrite ?Q2R_frac in *.

Lemma PL_0 : peval PL 0 = 0.
Proof. unfold PL. cbn [peval]. q2r. Qed.
Lemma DL_0 : DL 0 = 0.
Proof. unfold DL. rewrite PL_0, Rplus_0_r, ln_1. lra. Qed.

Lemma DL_first t : 0 <= t <= 1 / 2 -> Rabs (DL t) <= 1 / 10000 * t.
Proof.
  intros Ht. pose proof (DL_lip 1 0 t (1 / 10000) ltac:(lra) ltac:(lra)) as HL.
  rewrite PL_0, Rplus_0_r, ln_1 in HL. unfold DL. replace (peval PL t - ln (1 + t)) with (peval PL t - 1 * ln (1 + t) - (0 - 1 * 0)) by lra.
  eapply Rle_trans; [apply HL | lra]. intros c Hc. use_between QL_first c. lra.
Qed.
Lemma DL_small t : 0 <= t <= 4143 / 10000 -> Rabs (DL t) <= 1 / 1000000 * t.
Proof.
  intros Ht. pose proof (DL_lip 1 0 t (1 / 1000000) ltac:(lra) ltac:(lra)) as HL.
  rewrite PL_0, Rplus_0_r, ln_1 in HL. unfold DL. replace (peval PL t - ln (1 + t)) with (peval PL t - 1 * ln (1 + t) - (0 - 1 * 0)) by lra.
  eapply Rle_trans; [apply HL | lra]. intros c Hc. use_between QL_small c. lra.
Qed.
Lemma DL_up t0 t1 : 1 / 2 <= t0 -> t0 <= t1 <= 1 -> DL t0 <= DL t1.
Proof.
  intros H0 H1. unfold DL. pose proof (DL_mono 1 t0 t1 ltac:(lra)) as HM. rewrite !Rmult_1_l in HM. apply HM.
  intros c Hc. use_between QL_pos c. lra.
Qed.
Lemma DL_up2 t0 t1 : 7 / 8 <= t0 -> t0 <= t1 <= 1 -> DL t0 - ln (1 + t0) / 100 <= DL t1 - ln (1 + t1) / 100.
Proof.
  intros H0 H1. unfold DL. pose proof (DL_mono (101 / 100) t0 t1 ltac:(lra)) as HM.
  assert (HH : forall c, t0 <= c <= t1 -> 0 <= peval QL c - (101 / 100 - 1)) by (intros c Hc; use_between QL_pos2 c; lra).
  specialize (HM HH). lra.
Qed.

Lemma abs_iff a b : Rabs a <= b <-> - b <= a <= b.
Proof. unfold Rabs. destruct (Rcase_abs a); lra. Qed.

Lemma ln2_bounds : 693147180559 / 1000000000000 <= ln 2 <= 693147180561 / 1000000000000.
Proof.
  pose proof ln2_bound as H. apply abs_iff in H. replace (Q2R L0) with (69314718056 / 100000000000) in H by (unfold L0; q2r). lra.
Qed.

(** The logarithm of [1 + q] for a small rational [q] *)
Lemma ln_near t p : 0 <= t <= 4143 / 10000 -> p - 1 / 1000000 <= peval PL t <= p + 1 / 1000000 -> p - 2 / 1000000 <= ln (1 + t) <= p + 2 / 1000000.
Proof. intros Ht Hp. pose proof (DL_small t Ht) as HD. apply abs_iff in HD. unfold DL in HD. lra. Qed.

Lemma ln_16_15 : 64536 / 1000000 <= ln (1 + 1 / 15) <= 64542 / 1000000.
Proof.
  pose proof (ln_near (1 / 15) (64539 / 1000000) ltac:(lra)) as H.
  assert (64539 / 1000000 - 1 / 1000000 <= peval PL (1 / 15) <= 64539 / 1000000 + 1 / 1000000); [|specialize (H H0); lra].
  at_point PL (1 # 15) (64538 # 1000000) (64540 # 1000000). lra.
Qed.
Lemma ln_40_39 : 25315 / 1000000 <= ln (1 + 1 / 39) <= 25320 / 1000000.
Proof.
  pose proof (ln_near (1 / 39) (253178 / 10000000) ltac:(lra)) as H.
  assert (253178 / 10000000 - 1 / 1000000 <= peval PL (1 / 39) <= 253178 / 10000000 + 1 / 1000000); [|specialize (H H0); lra].
  at_point PL (1 # 39) (253168 # 10000000) (253188 # 10000000). lra.
Qed.

Lemma ln_quot a b : 0 < a -> 0 < b -> ln (a / b) = ln a - ln b.
Proof. intros Ha Hb. unfold Rdiv. rewrite ln_mult, ln_Rinv; try lra. by apply Rinv_0_lt_compat. Qed.

Lemma DL_1 : 13805 / 1000000 <= DL 1 <= 13806 / 1000000.
Proof.
  unfold DL. replace (1 + 1) with 2 by lra. pose proof ln2_bounds. 
  assert (7069523 / 10000000 <= peval PL 1 <= 706953 / 1000000); [|lra].
  at_point PL 1%Q (7069523 # 10000000) (706953 # 1000000). replace (1 / 1) with 1 in * by lra. lra.
Qed.
Lemma DL_78 : 240 / 100000 <= DL (7 / 8) <= 243 / 100000.
Proof.
  unfold DL. replace (ln (1 + 7 / 8)) with (ln 2 - ln (1 + 1 / 15)).
  2: { rewrite <- ln_quot by lra. f_equal. lra. }
  pose proof ln2_bounds. pose proof ln_16_15.
  assert (631024 / 1000000 <= peval PL (7 / 8) <= 631026 / 1000000); [|lra].
  at_point PL (7 # 8) (631024 # 1000000) (631026 # 1000000). lra.
Qed.
Lemma DL_95 : 710 / 100000 <= DL (95 / 100) <= 712 / 100000.
Proof.
  unfold DL. replace (ln (1 + 95 / 100)) with (ln 2 - ln (1 + 1 / 39)).
  2: { rewrite <- ln_quot by lra. f_equal. lra. }
  pose proof ln2_bounds. pose proof ln_40_39.
  assert (674943 / 1000000 <= peval PL (95 / 100) <= 674945 / 1000000); [|lra].
  at_point PL (95 # 100) (674943 # 1000000) (674945 # 1000000). lra.
Qed.

(** All of the interval *)
Lemma DL_all t : 0 <= t <= 1 -> - (1 / 10000) <= DL t <= 13806 / 1000000.
Proof.
  intros Ht. destruct (Rle_dec t (1 / 2)) as [H|H].
  - pose proof (DL_first t ltac:(lra)) as HD. apply abs_iff in HD. lra.
  - pose proof (DL_up (1 / 2) t ltac:(lra) ltac:(lra)). pose proof (DL_up t 1 ltac:(lra) ltac:(lra)). pose proof DL_1.
    pose proof (DL_first (1 / 2) ltac:(lra)) as HD. apply abs_iff in HD. lra.
Qed.

Lemma ln_lower y : 0 < y -> 1 - 1 / y <= ln y.
Proof.
  intros Hy. assert (Hi : 0 < / y) by (by apply Rinv_0_lt_compat). pose proof (exp_ineq1_le (ln (/ y))) as H. rewrite exp_ln in H by done.
  rewrite ln_Rinv in H by done. unfold Rdiv. lra.
Qed.

(** Below [15 / 8] *)
Lemma DL_rel t : 0 <= t <= 7 / 8 -> Rabs (DL t) <= ln (1 + t) / 100.
Proof.
  intros Ht. apply abs_iff. destruct (Rle_dec t (1 / 2)) as [H|H].
  - pose proof (DL_first t ltac:(lra)) as HD. apply abs_iff in HD.
    assert (t / 2 <= ln (1 + t)); [|lra].
    pose proof (ln_lower (1 + t) ltac:(lra)) as HL. assert (t / 2 <= 1 - 1 / (1 + t)); [|lra].
    replace (1 - 1 / (1 + t)) with (t * / (1 + t)) by (field; lra). unfold Rdiv. apply Rmult_le_compat_l; [lra|]. apply Rinv_le_contravar; lra.
  - pose proof (DL_up (1 / 2) t ltac:(lra) ltac:(lra)). pose proof (DL_up t (7 / 8) ltac:(lra) ltac:(lra)). pose proof DL_78.
    pose proof (DL_first (1 / 2) ltac:(lra)) as HD. apply abs_iff in HD.
    assert (1 / 3 <= ln (1 + t)); [|lra].
    pose proof (ln_lower (1 + 1 / 2) ltac:(lra)). assert (ln (1 + 1 / 2) < ln (1 + t)) by (apply ln_increasing; lra). lra.
Qed.

(** In every other octave than the first one *)
Lemma DL_rel2 t (n : R) : 1 <= n <= 2000 -> 0 <= t <= 1 -> Rabs (DL t) + n / 1000000000000 <= (n * ln 2 + ln (1 + t)) / 100.
Proof.
  intros Hn Ht. pose proof ln2_bounds as H2.
  assert (Hn2 : 693147180559 / 1000000000000 * n <= n * ln 2) by (rewrite Rmult_comm; apply Rmult_le_compat_l; lra).
  assert (H0 : 0 <= ln (1 + t)). { destruct (Req_dec t 0) as [->|]; [rewrite Rplus_0_r, ln_1; lra|]. rewrite <- ln_1. left. apply ln_increasing; lra. }
  destruct (Rle_dec t (7 / 8)) as [H|H].
  - assert (Rabs (DL t) <= 243 / 100000); [|lra]. apply abs_iff. destruct (Rle_dec t (1 / 2)) as [H'|H'].
    + pose proof (DL_first t ltac:(lra)) as HD. apply abs_iff in HD. lra.
    + pose proof (DL_up (1 / 2) t ltac:(lra) ltac:(lra)). pose proof (DL_up t (7 / 8) ltac:(lra) ltac:(lra)). pose proof DL_78.
      pose proof (DL_first (1 / 2) ltac:(lra)) as HD. apply abs_iff in HD. lra.
  - pose proof (DL_up2 t 1 ltac:(lra) ltac:(lra)) as HU. pose proof DL_1. replace (1 + 1) with 2 in HU by lra.
    pose proof (DL_up (7 / 8) t ltac:(lra) ltac:(lra)). pose proof DL_78.
    rewrite (Rabs_pos_eq (DL t)) by lra. lra.
Qed.
