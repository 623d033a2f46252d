(** The polynomial approximations in exact arithmetic *)
From Verif Require Import Proof_Elem Proof_ElemOps Proof_ComplexMath Proof_Approx Proof_SimdMixed Proof_PolyCheck Proof_PolyNum Proof_PolyTrig.
From Verif Require Import NumsTrig.
From Verif Require Export Spec_Poly.
From Coq Require Import Reals Lra Lia ZArith QArith Qreals.
Local Open Scope R_scope.

Ltac pow10 := repeat match goal with |- context [Pos.pow 10 ?n] => let v := eval vm_compute in (Pos.pow 10 n) in change (Pos.pow 10 n) with v end.

(** ** The logarithm *)
Lemma ln2_pos : 0 < ln 2.
Proof. rewrite <- ln_1. apply ln_increasing; lra. Qed.

Lemma pow2_exp n : powerRZ 2 n = exp (IZR n * ln 2).
Proof. rewrite powerRZ_Rpower by lra. reflexivity. Qed.
Lemma pow2_pos n : 0 < powerRZ 2 n.
Proof. apply powerRZ_lt. lra. Qed.
Lemma ln_pow2 n : ln (powerRZ 2 n) = IZR n * ln 2.
Proof. rewrite pow2_exp. apply ln_exp. Qed.
Lemma pow2_add n m : powerRZ 2 (n + m) = powerRZ 2 n * powerRZ 2 m.
Proof. apply powerRZ_add. lra. Qed.

Lemma ln_le_mono x y : 0 < x -> x <= y -> ln x <= ln y.
Proof. intros Hx [Hlt| ->]; [left; by apply ln_increasing | lra]. Qed.

Lemma exponent_spec x : 0 < x -> powerRZ 2 (exponent x) <= x < powerRZ 2 (exponent x + 1).
Proof.
  intros Hx. pose proof ln2_pos. unfold exponent. destruct (base_Int_part (ln x / ln 2)) as [H1 H2]. set (e := Int_part (ln x / ln 2)) in *.
  assert (E : ln x / ln 2 * ln 2 = ln x) by (field; lra).
  assert (L : IZR e * ln 2 <= ln x). { rewrite <- E. apply Rmult_le_compat_r; lra. }
  assert (U : ln x < (IZR e + 1) * ln 2). { rewrite <- E. apply Rmult_lt_compat_r; lra. }
  split.
  - rewrite pow2_exp. rewrite <- (exp_ln x Hx). destruct L as [L|L]; [left; by apply exp_increasing | rewrite L; lra].
  - rewrite pow2_exp, plus_IZR. rewrite <- (exp_ln x Hx) at 1. by apply exp_increasing.
Qed.

Lemma pow2_lt_inv n m : powerRZ 2 n < powerRZ 2 m -> (n < m)%Z.
Proof.
  intros Hl. destruct (Z_lt_ge_dec n m) as [|Hge]; [done|]. exfalso. rewrite !pow2_exp in Hl. apply exp_lt_inv in Hl.
  pose proof ln2_pos. assert (IZR m <= IZR n) by (apply IZR_le; lia). assert (IZR m * ln 2 <= IZR n * ln 2) by (apply Rmult_le_compat_r; lra). lra.
Qed.

Lemma exponent_unique x e : 0 < x -> powerRZ 2 e <= x < powerRZ 2 (e + 1) -> exponent x = e.
Proof.
  intros Hx He. pose proof (exponent_spec x Hx) as Hs.
  assert (exponent x < e + 1)%Z by (apply pow2_lt_inv; lra). assert (e < exponent x + 1)%Z by (apply pow2_lt_inv; lra). lia.
Qed.

Section ln.
Context (b : Z).
Local Instance bits_ln : Bits R := Rbits b.

(** The number behind the point *)
Definition fraction (x : R) : R := x / powerRZ 2 (exponent x) - 1.
Lemma fraction_range x : 0 < x -> 0 <= fraction x < 1.
Proof.
  intros Hx. pose proof (exponent_spec x Hx) as [H1 H2]. pose proof (pow2_pos (exponent x)) as Hp. rewrite pow2_add in H2. change (powerRZ 2 1) with (2 * 1) in H2.
  unfold fraction. set (p := powerRZ 2 (exponent x)) in *. split.
  - assert (1 <= x / p); [|lra]. apply (Rmult_le_reg_r p); [done|]. unfold Rdiv. rewrite Rmult_assoc, Rinv_l by lra. lra.
  - assert (x / p < 2); [|lra]. apply (Rmult_lt_reg_r p); [done|]. unfold Rdiv. rewrite Rmult_assoc, Rinv_l by lra. lra.
Qed.
Lemma ln_split x : 0 < x -> ln x = IZR (exponent x) * ln 2 + ln (1 + fraction x).
Proof.
  intros Hx. pose proof (pow2_pos (exponent x)) as Hp. rewrite <- ln_pow2, <- ln_mult; [|done | pose proof (fraction_range x Hx); lra].
  f_equal. unfold fraction. field. lra.
Qed.

Lemma sqrt2_big : 1 < sqrt 2.
Proof. rewrite <- sqrt_1. apply sqrt_lt_1; lra. Qed.

Lemma ln_lane_eq x : powerRZ 2 (1 - b) <= x -> ln_lane x = peval PL (fraction x) + IZR (exponent x) * Q2R L0.
Proof.
  intros Hx. pose proof (pow2_pos (1 - b)) as Hp0. assert (H0 : 0 < x) by lra. unfold ln_lane.
  assert (Hinv : nltb n0 x = true) by (apply Rltb_true; exact H0). rewrite Hinv. cbn [negb].
  assert (Ex : (if nltb min_norm x then x else min_norm) = x).
  { destruct (nltb min_norm x) eqn:E; [done|]. apply Rltb_false in E. cbn in *. lra. }
  cbv zeta. rewrite Ex. 
  pose proof (exponent_spec x H0) as [H1 H2]. pose proof (fraction_range x H0) as Hf.
  assert (Hh : half_mantissa x = (1 + fraction x) / 2).
  { cbn. unfold fraction. rewrite pow2_add. change (powerRZ 2 1) with (2 * 1). pose proof (pow2_pos (exponent x)). field. lra. }
  rewrite Hh. assert (Hm : nltb ((1 + fraction x) / 2) (fsqrt (lit 2 1)) = true).
  { apply Rltb_true. cbn. replace (2 / 1) with 2 by lra. pose proof sqrt2_big. lra. }
  rewrite Hm. set (t := fraction x) in *. clearbody t. clear Ex Hh Hm Hinv H1 H2 Hx.
  unfold horner, dec. cbn [fold_left lit nadd nmul nsub n1 n0 Rnum bits_ln Rbits of_int exponent_bits bias].
  replace (exponent x + b - b)%Z with (exponent x) by lia. generalize (IZR (exponent x)). intros e.
  unfold PL, L0. cbn [peval]. rewrite ?Q2R_opp, ?Q2R_frac. pow10. field.
Qed.

Lemma exponent_range x : normalised b x -> (1 - b <= exponent x <= b)%Z.
Proof.
  intros [H1 H2]. pose proof (pow2_pos (1 - b)). pose proof (exponent_spec x ltac:(lra)) as [H3 H4].
  assert (1 - b < exponent x + 1)%Z by (apply pow2_lt_inv; lra). assert (exponent x < b + 1)%Z by (apply pow2_lt_inv; lra). lia.
Qed.

Lemma L0_bounds : - (1 / 1000000000000) <= Q2R L0 - ln 2 <= 1 / 1000000000000.
Proof. pose proof ln2_bound as H. apply abs_iff in H. lra. Qed.

Lemma ln_lane_error x : normalised b x -> ln_lane x - ln x = DL (fraction x) + IZR (exponent x) * (Q2R L0 - ln 2).
Proof.
  intros Hx. pose proof (pow2_pos (1 - b)). destruct Hx as [H1 H2]. rewrite (ln_lane_eq x H1), (ln_split x ltac:(lra)). unfold DL. ring.
Qed.
Lemma ln_lane_small x : (1 <= b <= 1023)%Z -> normalised b x -> - (2 / 1000000000) <= IZR (exponent x) * (Q2R L0 - ln 2) <= 2 / 1000000000.
Proof.
  intros Hb Hx. pose proof (exponent_range x Hx) as He. pose proof L0_bounds as HL.
  assert (Rabs (IZR (exponent x) * (Q2R L0 - ln 2)) <= 1023 * (1 / 1000000000000)); [|apply abs_iff in H; lra].
  rewrite Rabs_mult. apply Rmult_le_compat; try apply Rabs_pos; apply abs_iff; [|lra].
  split; [change (-(1023)) with (IZR (-1023)) || replace (- (1023)) with (IZR (-1023)) by (rewrite opp_IZR; lra) | ]; apply IZR_le; lia.
Qed.

Lemma ln_lane_abs x : (1 <= b <= 1023)%Z -> normalised b x -> off_by (139 / 10000) (ln x) (ln_lane x).
Proof.
  intros Hb Hx. unfold off_by. rewrite (ln_lane_error x Hx). pose proof (ln_lane_small x Hb Hx).
  assert (H0 : 0 < x) by (pose proof (pow2_pos (1 - b)); destruct Hx; lra). pose proof (fraction_range x H0).
  pose proof (DL_all (fraction x) ltac:(lra)). apply abs_iff. lra.
Qed.

Lemma ln_lane_fine x e t : (1 <= b <= 1023)%Z -> normalised b x -> x = powerRZ 2 e * (1 + t) -> 0 <= t <= 4142 / 10000 ->
  off_by (5 / 10000000) (ln x) (ln_lane x).
Proof.
  intros Hb Hx Ex Ht. unfold off_by. rewrite (ln_lane_error x Hx). pose proof (ln_lane_small x Hb Hx).
  assert (H0 : 0 < x) by (pose proof (pow2_pos (1 - b)); destruct Hx; lra). pose proof (pow2_pos e) as Hp.
  assert (Ee : exponent x = e).
  { apply exponent_unique; [done|]. rewrite pow2_add. change (powerRZ 2 1) with (2 * 1). rewrite Ex. set (p := powerRZ 2 e) in *.
    split; [assert (p * 1 <= p * (1 + t)) by (apply Rmult_le_compat_l; lra); lra | apply Rmult_lt_compat_l; lra]. }
  assert (Ef : fraction x = t). { unfold fraction. rewrite Ee, Ex. field. lra. }
  pose proof (DL_small t ltac:(lra)) as HD. apply abs_iff in HD. rewrite Ef. apply abs_iff. lra.
Qed.

Lemma ln_lane_rel x : (1 <= b <= 1023)%Z -> normalised b x -> 1 <= x -> (x <= 15 / 8 \/ 2 <= x) -> off_by_rel (1 / 100) (ln x) (ln_lane x).
Proof.
  intros Hb Hx H1 Hr. unfold off_by_rel. rewrite (ln_lane_error x Hx). assert (H0 : 0 < x) by lra.
  pose proof (fraction_range x H0) as Hf. pose proof (exponent_range x Hx) as He. pose proof (exponent_spec x H0) as [E1 E2].
  assert (Hl : 0 <= ln x) by (rewrite <- ln_1; apply ln_le_mono; lra). rewrite (Rabs_pos_eq (ln x)) by done.
  assert (He0 : (0 <= exponent x)%Z). { assert (0 < exponent x + 1)%Z; [|lia]. apply pow2_lt_inv. change (powerRZ 2 0) with 1. lra. }
  destruct (Z.eq_dec (exponent x) 0) as [E|E].
  - rewrite E, Rmult_0_l, Rplus_0_r. pose proof (ln_split x H0) as Hs. rewrite E, Rmult_0_l, Rplus_0_l in Hs. rewrite Hs.
    assert (Hx2 : x < 2). { rewrite E in E2. change (powerRZ 2 (0 + 1)) with (2 * 1) in E2. lra. }
    assert (Ef : fraction x = x - 1). { unfold fraction. rewrite E. change (powerRZ 2 0) with 1. field. }
    pose proof (DL_rel (fraction x) ltac:(lra)). lra.
  - pose proof L0_bounds as HL. eapply Rle_trans; [apply Rabs_triang|]. rewrite Rabs_mult.
    assert (HE : 1 <= IZR (exponent x) <= 2000) by (split; apply IZR_le; lia).
    rewrite (Rabs_pos_eq (IZR (exponent x))) by lra.
    assert (Rabs (Q2R L0 - ln 2) <= 1 / 1000000000000) by (apply abs_iff; lra).
    assert (IZR (exponent x) * Rabs (Q2R L0 - ln 2) <= IZR (exponent x) * (1 / 1000000000000)) by (apply Rmult_le_compat_l; lra).
    pose proof (DL_rel2 (fraction x) (IZR (exponent x)) HE ltac:(lra)) as HR. rewrite (ln_split x H0). lra.
Qed.

(** ** Where the error is larger *)
Lemma ln_lane_bad x : (1 <= b <= 1023)%Z -> 195 / 100 <= x < 2 -> ln_lane x - ln x > 1 / 100 * Rabs (ln x).
Proof.
  intros Hb Hx. assert (H0 : 0 < x) by lra.
  assert (Hn : normalised b x).
  { split.
    - apply Rle_trans with 1; [|lra]. rewrite pow2_exp, <- exp_0.
      assert (IZR (1 - b) <= 0) by (apply IZR_le; lia). pose proof ln2_pos.
      assert (Hz : IZR (1 - b) * ln 2 <= 0) by nra. destruct Hz as [Hz|Hz]; [left; by apply exp_increasing | rewrite Hz; lra].
    - rewrite pow2_add. change (powerRZ 2 1) with (2 * 1). assert (1 <= powerRZ 2 b); [|lra].
      rewrite pow2_exp, <- exp_0. assert (0 < IZR b) by (apply IZR_lt; lia). pose proof ln2_pos. left. apply exp_increasing. nra. }
  assert (E : exponent x = 0%Z) by (apply exponent_unique; [done|]; change (powerRZ 2 0) with 1; change (powerRZ 2 (0 + 1)) with (2 * 1); lra).
  rewrite (ln_lane_error x Hn), E, Rmult_0_l, Rplus_0_r.
  assert (Ef : fraction x = x - 1). { unfold fraction. rewrite E. change (powerRZ 2 0) with 1. field. }
  rewrite Ef. assert (Hl : 0 <= ln x) by (rewrite <- ln_1; apply ln_le_mono; lra). rewrite (Rabs_pos_eq (ln x)) by done.
  pose proof (DL_up (95 / 100) (x - 1) ltac:(lra) ltac:(lra)). pose proof DL_95.
  assert (ln x <= ln 2) by (apply ln_le_mono; lra). pose proof ln2_bounds. lra.
Qed.
End ln.

(** ** The exponential function *)
Lemma Int_part_unique r z : IZR z <= r < IZR z + 1 -> Int_part r = z.
Proof.
  intros Hz. destruct (base_Int_part r) as [H1 H2].
  assert (Int_part r < z + 1)%Z by (apply lt_IZR; rewrite plus_IZR; lra). assert (z < Int_part r + 1)%Z by (apply lt_IZR; rewrite plus_IZR; lra). lia.
Qed.
Lemma Rtrunc_IZR z : Rtrunc (IZR z) = z.
Proof.
  unfold Rtrunc. destruct (Rlt_dec (IZR z) 0) as [H|H].
  - rewrite <- opp_IZR. rewrite (Int_part_unique (IZR (- z)) (- z)) by lra. lia.
  - apply Int_part_unique. lra.
Qed.
(** Truncating and correcting rounds down *)
Lemma floor_by_trunc y : IZR (Rtrunc y) - (if Rltb y (IZR (Rtrunc y)) then 1 else 0) = IZR (Int_part y).
Proof.
  destruct (base_Int_part y) as [H1 H2]. unfold Rtrunc. destruct (Rlt_dec y 0) as [Hy|Hy].
  - destruct (base_Int_part (- y)) as [H3 H4]. rewrite opp_IZR. destruct (Rltb y (- IZR (Int_part (- y)))) eqn:E.
    + apply Rltb_true in E. replace (Int_part y) with (- Int_part (- y) - 1)%Z; [rewrite minus_IZR, opp_IZR; lra|].
      symmetry. apply Int_part_unique. rewrite minus_IZR, opp_IZR. lra.
    + apply Rltb_false in E. replace (Int_part y) with (- Int_part (- y))%Z; [rewrite opp_IZR; lra|].
      symmetry. apply Int_part_unique. rewrite opp_IZR. lra.
  - destruct (Rltb y (IZR (Int_part y))) eqn:E; [apply Rltb_true in E; lra | lra].
Qed.

Definition log2e : R := 144269504088896341 / 100000000000000000.
Definition exp_hi : R := 883762626647949 / 10000000000000.

Section exp.
Context (b : Z).
Local Instance bits_exp : Bits R := Rbits b.

Definition turns (x : R) : Z := Int_part (x * log2e + 1 / 2).

Lemma exp_lane_eq x : - exp_hi <= x <= exp_hi -> (- b < turns x < b + 1)%Z ->
  exp_lane x = peval PE (x - IZR (turns x) * Q2R L0) * powerRZ 2 (turns x).
Proof.
  intros Hx Hb. unfold exp_lane. cbv zeta.
  assert (E1 : (if nltb x (dec 883762626647949 13) then x else dec 883762626647949 13) = x).
  { destruct (nltb x (dec 883762626647949 13)) eqn:E; [done|]. apply Rltb_false in E. unfold dec in *. cbn [lit bits_exp Rbits] in *. revert E. pow10. intros E. unfold exp_hi in Hx. lra. }
  rewrite E1.
  assert (E2 : (if nltb (dec (-883762626647949) 13) x then x else dec (-883762626647949) 13) = x).
  { destruct (nltb (dec (-883762626647949) 13) x) eqn:E; [done|]. apply Rltb_false in E. unfold dec in *. cbn [lit bits_exp Rbits] in *. revert E. pow10. intros E. unfold exp_hi in Hx. lra. }
  rewrite E2. clear E1 E2.
  assert (Ef : (x * dec 144269504088896341 17 + dec 5 1)%num = x * log2e + 1 / 2).
  { unfold dec, log2e. cbn [lit bits_exp Rbits nmul nadd Rnum]. pow10. lra. }
  rewrite Ef. cbn [nltb nsub n1 n0 Rnum trunc of_int bits_exp Rbits]. rewrite floor_by_trunc. fold (turns x). rewrite Rtrunc_IZR.
  cbn [from_exponent bias bits_exp Rbits]. replace (turns x + b - b)%Z with (turns x) by lia.
  assert (Hc : ((0 <? turns x + b) && (turns x + b <? 2 * b + 1))%Z = true) by (apply andb_true_intro; split; apply Z.ltb_lt; lia).
  rewrite Hc. cbn [nmul Rnum]. f_equal.
  unfold horner, dec. cbn [fold_left lit nadd nmul nsub n1 n0 Rnum bits_exp Rbits]. pow10. generalize (IZR (turns x)). intros n.
  unfold PE, L0. cbn [peval]. rewrite ?Q2R_frac.
  replace (x - n * (693359375 / 1000000000) - n * (-21219444 / 100000000000)) with (x - n * (69314718056 / 100000000000)) by lra.
  replace (1 / 1) with 1 by lra. generalize (x - n * (69314718056 / 100000000000)), (19875691500 / 100000000000000), (139819995070 / 100000000000000), (833345190730 / 100000000000000),
    (4166579589400 / 100000000000000), (16666665459000 / 100000000000000), (50000001201000 / 100000000000000). intros. ring.
Qed.

Lemma turns_spec x : - exp_hi <= x <= exp_hi -> - (3466 / 10000) <= x - IZR (turns x) * Q2R L0 <= 3466 / 10000 /\ (-128 <= turns x <= 128)%Z.
Proof.
  intros Hx. unfold exp_hi in Hx. destruct (base_Int_part (x * log2e + 1 / 2)) as [H1 H2]. fold (turns x) in H1, H2.
  assert (HL : Q2R L0 = 69314718056 / 100000000000) by reflexivity.
  set (n := IZR (turns x)) in *. unfold log2e in *. split.
  - rewrite HL. lra.
  - unfold n in *. split.
    + assert (-128 < turns x + 1)%Z; [|lia]. apply lt_IZR. rewrite plus_IZR. lra.
    + assert (turns x < 129)%Z; [|lia]. apply lt_IZR. lra.
Qed.

Lemma exp_small d : - (1 / 1000000) <= d <= 1 / 1000000 -> Rabs (exp d - 1) <= Rabs d * (1000002 / 1000000).
Proof.
  intros Hd. pose proof (exp_ineq1_le d). pose proof (exp_neg_lower d). assert (exp d * exp (- d) = 1) by (rewrite <- exp_plus, Rplus_opp_r; apply exp_0).
  pose proof (exp_pos d). pose proof (exp_pos (- d)).
  assert (HU : exp d * (1 - d) <= 1). { rewrite <- H1. apply Rmult_le_compat_l; lra. }
  assert (HU2 : exp d <= / (1 - d)). { apply (Rmult_le_reg_r (1 - d)); [lra|]. rewrite Rinv_l by lra. exact HU. }
  assert (HU3 : / (1 - d) <= 1 + d + d * d * (1000002 / 1000000)).
  { apply (Rmult_le_reg_r (1 - d)); [lra|]. rewrite Rinv_l by lra.
    replace ((1 + d + d * d * (1000002 / 1000000)) * (1 - d)) with (1 + d * d * (2 / 1000000 - d * (1000002 / 1000000))) by field.
    assert (0 <= d * d) by nra. assert (0 <= d * d * (2 / 1000000 - d * (1000002 / 1000000))); [apply Rmult_le_pos; lra | lra]. }
  assert (HQ : d * d * (1000002 / 1000000) <= Rabs d * (2 / 1000000)).
  { replace (d * d) with (Rabs d * Rabs d) by (rewrite <- Rabs_mult; apply Rabs_pos_eq; nra).
    assert (Rabs d <= 1 / 1000000) by (apply abs_iff; lra). pose proof (Rabs_pos d).
    replace (Rabs d * Rabs d * (1000002 / 1000000)) with (Rabs d * (Rabs d * (1000002 / 1000000))) by ring. apply Rmult_le_compat_l; lra. }
  apply abs_iff. pose proof (Rle_abs d). pose proof (Rle_abs (- d)) as HA. rewrite Rabs_Ropp in HA. lra.
Qed.

Lemma exp_lane_rel x : - exp_hi <= x <= exp_hi -> (- b < turns x < b + 1)%Z -> off_by_rel (2 / 100000000) (exp x) (exp_lane x).
Proof.
  intros Hx Hb. unfold off_by_rel. rewrite (exp_lane_eq x Hx Hb). destruct (turns_spec x Hx) as [Hg Hn].
  set (n := IZR (turns x)) in *. set (g := x - n * Q2R L0) in *. pose proof (PE_bound g Hg) as HP. pose proof (exp_pos x) as Hex.
  rewrite (Rabs_pos_eq (exp x)) by lra.
  set (d := n * (ln 2 - Q2R L0)).
  assert (Hd : Rabs d <= 128 / 1000000000000).
  { unfold d. rewrite Rabs_mult. replace (128 / 1000000000000) with (128 * (1 / 1000000000000)) by lra.
    apply Rmult_le_compat; try apply Rabs_pos; [|exact ln2_bound]. apply abs_iff. unfold n. split.
    - replace (- (128)) with (IZR (-128)) by (rewrite <- opp_IZR; reflexivity). apply IZR_le. lia.
    - apply IZR_le. lia. }
  assert (E : peval PE g * powerRZ 2 (turns x) = exp x * (peval PE g * exp (- g) * exp d)).
  { rewrite pow2_exp. fold n. replace (n * ln 2) with (x + (- g) + d) by (unfold d, g; ring). rewrite !exp_plus. ring. }
  rewrite E. replace (exp x * (peval PE g * exp (- g) * exp d) - exp x) with (exp x * (peval PE g * exp (- g) * exp d - 1)) by ring.
  rewrite Rabs_mult, (Rabs_pos_eq (exp x)), (Rmult_comm (exp x)) by lra. apply Rmult_le_compat_r; [lra|].
  apply abs_iff in Hd. pose proof (exp_small d ltac:(lra)) as Hs. assert (Hd' : Rabs d <= 128 / 1000000000000) by (apply abs_iff; lra).
  set (q := peval PE g * exp (- g)) in *. set (w := exp d) in *.
  replace (q * w - 1) with ((q - 1) * w + (w - 1)) by ring. eapply Rle_trans; [apply Rabs_triang|]. rewrite Rabs_mult.
  assert (Hw : Rabs (w - 1) <= 1 / 1000000000) by lra. assert (Hw1 : Rabs w <= 1 + 1 / 1000000000) by (apply abs_iff in Hw; apply abs_iff; lra).
  assert (Rabs (q - 1) * Rabs w <= 17 / 1000000000 * (1 + 1 / 1000000000)) by (apply Rmult_le_compat; try apply Rabs_pos; lra). lra.
Qed.

(** The argument is limited *)
Lemma exp_lane_limit x : exp_hi <= x -> exp_lane x = exp_lane exp_hi.
Proof.
  intros Hx. assert (Eh : dec 883762626647949 13 = exp_hi) by (unfold dec, exp_hi; cbn [lit bits_exp Rbits]; pow10; reflexivity).
  unfold exp_lane. cbv zeta. rewrite Eh.
  assert (E1 : (if nltb x exp_hi then x else exp_hi) = exp_hi) by (destruct (nltb x exp_hi) eqn:E; [apply Rltb_true in E; lra | done]).
  assert (E2 : (if nltb exp_hi exp_hi then exp_hi else exp_hi) = exp_hi) by (by destruct (nltb exp_hi exp_hi)).
  rewrite E1, E2. reflexivity.
Qed.
Lemma exp_lane_bad x : (129 <= b)%Z -> 90 <= x -> 0 < exp_lane x <= exp x / 2.
Proof.
  intros Hb Hx. assert (Hh : 88 <= exp_hi <= 884 / 10) by (unfold exp_hi; lra). rewrite (exp_lane_limit x) by lra.
  destruct (turns_spec exp_hi ltac:(lra)) as [_ Ht]. pose proof (exp_lane_rel exp_hi ltac:(lra) ltac:(lia)) as Hr. unfold off_by_rel in Hr.
  pose proof (exp_pos exp_hi). rewrite (Rabs_pos_eq (exp exp_hi)) in Hr by lra. apply abs_iff in Hr. split; [lra|].
  replace x with (exp_hi + (x - exp_hi)) by lra. rewrite exp_plus. pose proof (exp_ineq1_le (x - exp_hi)).
  assert (exp exp_hi * (25 / 10) <= exp exp_hi * exp (x - exp_hi)) by (apply Rmult_le_compat_l; lra). lra.
Qed.
End exp.

Lemma turns_87 x : - (87) <= x <= 87 -> (-126 <= turns x <= 126)%Z.
Proof.
  intros Hx. destruct (base_Int_part (x * log2e + 1 / 2)) as [H1 H2]. fold (turns x) in H1, H2. unfold log2e in *. split.
  - assert (-127 < turns x)%Z; [|lia]. apply lt_IZR. lra.
  - assert (turns x < 127)%Z; [|lia]. apply lt_IZR. lra.
Qed.

(** ** Sine and cosine *)
Lemma land_even a : Z.land a (Z.lnot 1) = (2 * (a / 2))%Z.
Proof.
  rewrite <- Z.ldiff_land. change 1%Z with (Z.ones 1). rewrite Z.ldiff_ones_r by lia. rewrite Z.shiftl_mul_pow2, Z.shiftr_div_pow2 by lia.
  change (2 ^ 1)%Z with 2%Z. lia.
Qed.

Lemma bits8 k c n : (0 <= n < 3)%Z -> Z.testbit (8 * k + c) n = Z.testbit c n.
Proof.
  intros Hn. rewrite !Z.testbit_eqb by lia. f_equal.
  assert (n = 0 \/ n = 1 \/ n = 2)%Z as [->|[->| ->]] by lia.
  - change (2 ^ 0)%Z with 1%Z. Z.div_mod_to_equations; lia.
  - change (2 ^ 1)%Z with 2%Z. Z.div_mod_to_equations; lia.
  - change (2 ^ 2)%Z with 4%Z. Z.div_mod_to_equations; lia.
Qed.

Definition fopi : R := 127323954473516 / 100000000000000.
(** The number of quarter turns, and what is left *)
Definition quarters (x : R) : Z := ((Rtrunc (x * fopi) + 1) / 2)%Z.
Definition left_over (x : R) : R := x - IZR (2 * quarters x) * Q2R K.

Definition quadrant_sin (i : Z) (r : R) : R := match i with 0%Z => r * peval PSx r | 1%Z => peval PC r | 2%Z => - (r * peval PSx r) | _ => - peval PC r end.
Definition quadrant_cos (i : Z) (r : R) : R := match i with 0%Z => peval PC r | 1%Z => - (r * peval PSx r) | 2%Z => - peval PC r | _ => r * peval PSx r end.

Section trig.
Context (b : Z).
Local Instance bits_trig : Bits R := Rbits b.

Lemma sin_cos_lane_eq (is_sin : bool) x k i : quarters (Rabs x) = (4 * k + i)%Z -> (0 <= i < 4)%Z ->
  sin_cos_lane is_sin x = (if is_sin then (if Rltb x 0 then - quadrant_sin i (left_over (Rabs x)) else quadrant_sin i (left_over (Rabs x)))
                           else quadrant_cos i (left_over (Rabs x))).
Proof.
  intros Hq Hi. unfold sin_cos_lane. cbv zeta. cbn [negative bits_trig Rbits].
  assert (Ea : (if Rltb x 0 then nopp x else x) = Rabs x).
  { destruct (Rltb x 0) eqn:E; [apply Rltb_true in E; rewrite Rabs_left by lra; reflexivity | apply Rltb_false in E; rewrite Rabs_right by lra; reflexivity]. }
  rewrite Ea. set (a := Rabs x) in *. clearbody a.
  assert (Ef : dec 127323954473516 14 = fopi) by (unfold dec, fopi; cbn [lit bits_trig Rbits]; pow10; reflexivity).
  rewrite Ef. cbn [trunc of_int nmul Rnum bits_trig Rbits]. rewrite land_even. fold (quarters a).
  set (r := left_over a).
  match goal with |- context [horner (?u * ?v) _ _] => assert (Er : u = r); [|rewrite Er] end.
  { unfold r, left_over, K, dec. cbn [lit nadd nmul Rnum bits_trig Rbits]. rewrite !Q2R_plus, !Q2R_frac. pow10. generalize (IZR (2 * quarters a)). intros q. field. }
  rewrite Hq. clearbody r. clear Er Ef Ea Hq a.
  assert (EC : (horner (r * r) (dec 2443315711809948 20) [dec (-1388731625493765) 18; dec 4166664568298827 17] * (r * r) * (r * r) - r * r * dec 5 1 + n1)%num = peval PC r).
  { unfold horner, dec, PC. cbn [fold_left lit nadd nmul nsub n1 n0 Rnum bits_trig Rbits peval]. pow10. rewrite ?Q2R_opp, ?Q2R_frac. field. }
  assert (ES : (horner (r * r) (dec (-19515295891) 14) [dec 833216087360 14; dec (-16666654611000) 14] * (r * r) * r + r)%num = r * peval PSx r).
  { unfold horner, dec, PSx. cbn [fold_left lit nadd nmul nsub n1 n0 Rnum bits_trig Rbits peval]. pow10. rewrite ?Q2R_frac. field. }
  cbn [nmul Rnum] in EC, ES |- *. rewrite EC, ES.
  assert (E2 : (2 * (4 * k + i) = 8 * k + 2 * i)%Z) by lia. rewrite E2.
  replace (8 * k + 2 * i - 2)%Z with (8 * k + (2 * i - 2))%Z by lia.
  rewrite (Z.lnot_spec _ 2) by lia. destruct is_sin; rewrite !bits8 by lia;
    (assert (i = 0 \/ i = 1 \/ i = 2 \/ i = 3)%Z as [->|[->|[->| ->]]] by lia); cbn -[peval PC PSx Rltb]; destruct (Rltb x 0); cbn -[peval PC PSx];
    rewrite ?Ropp_involutive; reflexivity.
Qed.

Lemma trunc_pos y : 0 <= y -> (0 <= Rtrunc y)%Z /\ IZR (Rtrunc y) <= y < IZR (Rtrunc y) + 1.
Proof.
  intros Hy. unfold Rtrunc. destruct (Rlt_dec y 0); [lra|]. destruct (base_Int_part y). split; [|lra].
  assert (-1 < Int_part y)%Z; [|lia]. apply lt_IZR. lra.
Qed.

Lemma left_over_spec x : 0 <= x <= 1000000000 ->
  (0 <= quarters x)%Z /\ - (786 / 1000) <= left_over x <= 786 / 1000 /\ Rabs (left_over x - (x - IZR (quarters x) * (PI / 2))) <= 1 / 1000000000.
Proof.
  intros Hx. unfold left_over, quarters. destruct (trunc_pos (x * fopi)) as [Ht [H1 H2]]; [unfold fopi; lra|].
  set (t := Rtrunc (x * fopi)) in *. set (m := ((t + 1) / 2)%Z).
  assert (Hm : (0 <= m)%Z) by (unfold m; Z.div_mod_to_equations; lia).
  assert (Hm2 : (2 * m = t \/ 2 * m = t + 1)%Z) by (unfold m; Z.div_mod_to_equations; lia).
  assert (HK : Q2R K = 78515625 / 100000000 + 24187564849853515625 / 100000000000000000000000 + 377489497744594108 / 10000000000000000000000000)
    by (unfold K; rewrite !Q2R_plus, !Q2R_frac; reflexivity).
  assert (HT : IZR t <= 1280000000) by (unfold fopi in H1; lra). assert (HT0 : 0 <= IZR t) by (apply IZR_le; exact Ht).
  split; [exact Hm|]. split.
  - unfold fopi in *. rewrite HK. destruct Hm2 as [-> | ->]; [|rewrite plus_IZR]; lra.
  - pose proof pi4 as HP. replace (x - IZR (2 * m) * Q2R K - (x - IZR m * (PI / 2))) with (IZR (2 * m) * (PI / 4 - Q2R K)) by (rewrite mult_IZR; field).
    rewrite Rabs_mult. assert (HM : 0 <= IZR (2 * m) <= 1280000001) by (destruct Hm2 as [-> | ->]; [|rewrite plus_IZR]; lra).
    rewrite (Rabs_pos_eq (IZR (2 * m))) by lra.
    assert (IZR (2 * m) * Rabs (PI / 4 - Q2R K) <= 1280000001 * (2 / 100000000000000000000)) by (apply Rmult_le_compat; try apply Rabs_pos; lra). lra.
Qed.

Lemma sin_lip a c : Rabs (sin a - sin c) <= Rabs (a - c).
Proof.
  assert (HW : forall u v, u < v -> Rabs (sin v - sin u) <= v - u).
  { intros u v Huv. destruct (MVT_cor2 sin cos u v Huv) as (w & E & _); [intros; apply derivable_pt_lim_sin|]. rewrite E, Rabs_mult, (Rabs_pos_eq (v - u)) by lra.
    assert (Rabs (cos w) <= 1) by (apply abs_iff; pose proof (COS_bound w); lra). assert (Rabs (cos w) * (v - u) <= 1 * (v - u)) by (apply Rmult_le_compat_r; lra). lra. }
  destruct (Rtotal_order a c) as [Hl|[->|Hl]].
  - rewrite Rabs_minus_sym, (Rabs_minus_sym a). rewrite (Rabs_pos_eq (c - a)) by lra. by apply HW.
  - replace (sin c - sin c) with 0 by lra. rewrite Rabs_R0. apply Rabs_pos.
  - rewrite (Rabs_pos_eq (a - c)) by lra. by apply HW.
Qed.
Lemma cos_lip a c : Rabs (cos a - cos c) <= Rabs (a - c).
Proof. rewrite !cos_sin. replace (a - c) with ((PI / 2 + a) - (PI / 2 + c)) by ring. apply sin_lip. Qed.

Lemma quadrants (k : nat) i r : (0 <= i < 4)%Z ->
  sin (r + IZR (4 * Z.of_nat k + i) * (PI / 2)) = match i with 0%Z => sin r | 1%Z => cos r | 2%Z => - sin r | _ => - cos r end /\
  cos (r + IZR (4 * Z.of_nat k + i) * (PI / 2)) = match i with 0%Z => cos r | 1%Z => - sin r | 2%Z => - cos r | _ => sin r end.
Proof.
  intros Hi. rewrite plus_IZR, mult_IZR, <- INR_IZR_INZ.
  replace (r + (4 * INR k + IZR i) * (PI / 2)) with (r + IZR i * (PI / 2) + 2 * INR k * PI) by field. rewrite sin_period, cos_period.
  assert (i = 0 \/ i = 1 \/ i = 2 \/ i = 3)%Z as [->|[->|[->| ->]]] by lia.
  - replace (r + 0 * (PI / 2)) with r by lra. done.
  - replace (r + 1 * (PI / 2)) with (PI / 2 + r) by lra. rewrite <- (cos_sin r). rewrite cos_plus, cos_PI2, sin_PI2. split; [done|lra].
  - replace (r + 2 * (PI / 2)) with (r + PI) by lra. rewrite neg_sin, neg_cos. done.
  - replace (r + 3 * (PI / 2)) with (PI / 2 + (r + PI)) by lra. rewrite <- (cos_sin (r + PI)), neg_cos. rewrite cos_plus, cos_PI2, sin_PI2, neg_sin. split; [done|lra].
Qed.

Lemma sin_near r r' : - (786 / 1000) <= r <= 786 / 1000 -> Rabs (r - r') <= 1 / 1000000000 -> Rabs (r * peval PSx r - sin r') <= 1 / 100000000.
Proof.
  intros Hr Hd. pose proof (sin_poly r Hr). pose proof (sin_lip r r').
  replace (r * peval PSx r - sin r') with ((r * peval PSx r - sin r) + (sin r - sin r')) by ring. eapply Rle_trans; [apply Rabs_triang|]. lra.
Qed.
Lemma cos_near r r' : - (786 / 1000) <= r <= 786 / 1000 -> Rabs (r - r') <= 1 / 1000000000 -> Rabs (peval PC r - cos r') <= 1 / 100000000.
Proof.
  intros Hr Hd. pose proof (cos_poly r Hr). pose proof (cos_lip r r').
  replace (peval PC r - cos r') with ((peval PC r - cos r) + (cos r - cos r')) by ring. eapply Rle_trans; [apply Rabs_triang|]. lra.
Qed.
Lemma abs_opp_diff u v : Rabs (- u - - v) = Rabs (u - v).
Proof. rewrite <- Rabs_Ropp. f_equal. lra. Qed.

Lemma quadrant_near x : 0 <= x <= 1000000000 -> exists k i, quarters x = (4 * k + i)%Z /\ (0 <= i < 4)%Z /\
  Rabs (quadrant_sin i (left_over x) - sin x) <= 1 / 100000000 /\ Rabs (quadrant_cos i (left_over x) - cos x) <= 1 / 100000000.
Proof.
  intros Hx. destruct (left_over_spec x Hx) as (Hq & Hr & Hd). set (q := quarters x) in *. set (r := left_over x) in *.
  exists (Z.of_nat (Z.to_nat (q / 4))), (q mod 4)%Z.
  assert (E : q = (4 * Z.of_nat (Z.to_nat (q / 4)) + q mod 4)%Z). { rewrite Z2Nat.id by (apply Z.div_pos; lia). apply Z.div_mod. lia. }
  assert (Hi : (0 <= q mod 4 < 4)%Z) by (apply Z.mod_pos_bound; lia). split; [exact E|]. split; [exact Hi|].
  set (r' := x - IZR q * (PI / 2)) in *. destruct (quadrants (Z.to_nat (q / 4)) (q mod 4) r' Hi) as [HS HC]. rewrite <- E in HS, HC.
  replace (r' + IZR q * (PI / 2)) with x in HS, HC by (unfold r'; ring). rewrite HS, HC.
  pose proof (sin_near r r' Hr Hd). pose proof (cos_near r r' Hr Hd).
  assert ((q mod 4 = 0 \/ q mod 4 = 1 \/ q mod 4 = 2 \/ q mod 4 = 3)%Z) as [-> | [-> | [-> | ->]]] by lia; cbn [quadrant_sin quadrant_cos];
    rewrite ?abs_opp_diff; split; assumption.
Qed.

Lemma sin_lane_abs x : Rabs x <= 1000000000 -> off_by (1 / 100000000) (sin x) (sin_cos_lane true x).
Proof.
  intros Hx. pose proof (Rabs_pos x). destruct (quadrant_near (Rabs x) ltac:(lra)) as (k & i & Hq & Hi & HS & _).
  unfold off_by. rewrite (sin_cos_lane_eq true x k i Hq Hi). destruct (Rltb x 0) eqn:E.
  - apply Rltb_true in E. rewrite (Rabs_left x) in * by lra. rewrite sin_neg in HS. rewrite <- abs_opp_diff, Ropp_involutive. exact HS.
  - apply Rltb_false in E. rewrite (Rabs_right x) in * by lra. exact HS.
Qed.
Lemma cos_lane_abs x : Rabs x <= 1000000000 -> off_by (1 / 100000000) (cos x) (sin_cos_lane false x).
Proof.
  intros Hx. pose proof (Rabs_pos x). destruct (quadrant_near (Rabs x) ltac:(lra)) as (k & i & Hq & Hi & _ & HC).
  unfold off_by. rewrite (sin_cos_lane_eq false x k i Hq Hi).
  replace (cos x) with (cos (Rabs x)); [exact HC|]. unfold Rabs. destruct (Rcase_abs x); [apply cos_neg | reflexivity].
Qed.
End trig.
