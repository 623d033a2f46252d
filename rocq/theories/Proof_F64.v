From Verif Require Import Model_F64 Model_Chunk.
From Flocq Require Import Relative.
From Coq Require Import Lra Lia.
Local Open Scope R_scope.

Lemma f64_int z : (Z.abs z <= 2 ^ 53)%Z -> f64_round (IZR z) = IZR z.
Proof.
  intros H. apply round_generic; [apply valid_rnd_N|].
  destruct (Z.eq_dec (Z.abs z) (2 ^ 53)%Z) as [E|E].
  - assert (Hg : generic_format radix2 f64_exp (bpow radix2 53)).
    { apply generic_format_bpow. unfold f64_exp, FLT_exp. lia. }
    change (bpow radix2 53) with (IZR (2 ^ 53)) in Hg.
    destruct (Z.abs_spec z) as [[_ Ha]|[_ Ha]].
    + rewrite <- Ha, E. exact Hg.
    + replace z with (- (2 ^ 53))%Z by lia. rewrite opp_IZR. by apply generic_format_opp.
  - apply generic_format_FLT. exists (Float radix2 z 0).
    + unfold F2R. simpl. ring.
    + simpl. lia.
    + simpl. lia.
Qed.

Lemma f64_chunk_size_ceil a n : (0 <= a < 2 ^ 53)%Z -> (0 < n < 2 ^ 53)%Z -> f64_chunk_size a n = ((a + (n - 1)) / n)%Z.
Proof.
  intros Ha Hn. unfold f64_chunk_size. rewrite !f64_int by lia.
  assert (Hn' : 0 < IZR n) by (apply IZR_lt; lia).
  pose proof (Z.div_mod a n ltac:(lia)) as Hdm. pose proof (Z.mod_pos_bound a n ltac:(lia)) as Hb.
  set (q := (a / n)%Z) in *. set (r := (a mod n)%Z) in *.
  assert (Hq : (0 <= q <= a)%Z). { split; [apply Z.div_pos; lia | apply Z.div_le_upper_bound; nia]. }
  assert (Hx : IZR a / IZR n = IZR q + IZR r / IZR n).
  { rewrite Hdm at 1. rewrite plus_IZR, mult_IZR. field. lra. }
  clearbody q r.
  destruct (Z.eq_dec r 0%Z) as [E|E].
  - rewrite Hx, E. replace (IZR q + 0 / IZR n) with (IZR q) by (field; lra).
    rewrite f64_int by lia. rewrite Zceil_IZR.
    rewrite Hdm, E, Z.add_0_r.
    replace (n * q + (n - 1))%Z with (n - 1 + q * n)%Z by ring. rewrite Z.div_add by lia.
    rewrite Z.div_small by lia. lia.
  - assert (Hres : ((a + (n - 1)) / n = q + 1)%Z).
    { symmetry. apply Z.div_unique_pos with (r - 1)%Z; lia. }
    rewrite Hres.
    assert (Hr1 : 1 <= IZR r) by (apply IZR_le; lia).
    assert (Hrn : IZR r < IZR n) by (apply IZR_lt; lia).
    assert (Hrq : / IZR n <= IZR r / IZR n).
    { unfold Rdiv. rewrite <- (Rmult_1_l (/ IZR n)) at 1. apply Rmult_le_compat_r; [|lra].
      left. by apply Rinv_0_lt_compat. }
    assert (Hrq1 : IZR r / IZR n < 1).
    { apply (Rmult_lt_reg_r (IZR n)); [lra|]. unfold Rdiv. rewrite Rmult_assoc, Rinv_l by lra. lra. }
    assert (Hq0 : 0 <= IZR q) by (apply IZR_le; lia).
    set (x := IZR a / IZR n) in *.
    assert (Hinv : bpow radix2 (-53) <= / IZR n).
    { change (-53)%Z with (- (53))%Z; rewrite (bpow_opp radix2 53). apply Rinv_le; [lra|]. change (bpow radix2 53) with (IZR (2 ^ 53)). apply IZR_le. lia. }
    assert (Hxpos : bpow radix2 (-53) <= x) by lra.
    assert (Hupper : f64_round x <= IZR (q + 1)).
    { rewrite <- (f64_int (q + 1)) by nia. apply round_le; [apply FLT_exp_valid; done | apply valid_rnd_N |].
      rewrite plus_IZR. lra. }
    assert (Herr : Rabs (f64_round x - x) <= / 2 * bpow radix2 (-53 + 1) * Rabs x).
    { apply relative_error_N_FLT; [done|]. rewrite Rabs_pos_eq.
      - apply Rle_trans with (2 := Hxpos). apply bpow_le. lia.
      - apply Rle_trans with (2 := Hxpos). apply bpow_ge_0. }
    assert (Hbx : / 2 * bpow radix2 (-53 + 1) * Rabs x < / IZR n).
    { rewrite bpow_plus. change (bpow radix2 1) with 2.
      replace (/ 2 * (bpow radix2 (-53) * 2) * Rabs x) with (bpow radix2 (-53) * Rabs x) by field.
      rewrite Rabs_pos_eq by (apply Rle_trans with (2 := Hxpos); apply bpow_ge_0).
      subst x. unfold Rdiv. rewrite <- Rmult_assoc.
      apply (Rmult_lt_reg_r (IZR n)); [lra|]. rewrite Rmult_assoc, !Rinv_l by lra. rewrite Rmult_1_r.
      change (-53)%Z with (- (53))%Z; rewrite (bpow_opp radix2 53). change (bpow radix2 53) with (IZR (2 ^ 53)).
      apply (Rmult_lt_reg_l (IZR (2 ^ 53))); [apply IZR_lt; lia|].
      rewrite <- Rmult_assoc, Rinv_r, Rmult_1_l, Rmult_1_r; [apply IZR_lt; lia|]. apply not_0_IZR. lia. }
    apply Zceil_imp. split; [|done].
    replace (q + 1 - 1)%Z with q by lia.
    apply Rabs_le_inv in Herr. lra.
Qed.

(** The model of the chunk size is what the code computes. *)
Lemma f64_chunk_size_nat a n : (Z.of_nat a < 2 ^ 53)%Z -> (0 < Z.of_nat n < 2 ^ 53)%Z ->
  f64_chunk_size (Z.of_nat a) (Z.of_nat n) = Z.of_nat (ceil_div a n).
Proof.
  intros Ha Hn. rewrite f64_chunk_size_ceil by lia. unfold ceil_div.
  rewrite Nat2Z.inj_div, Nat2Z.inj_add, Nat2Z.inj_sub by lia. done.
Qed.

(** The bound matters: with 2^53 + 1 elements the conversion already loses the last element. *)
Lemma f64_chunk_size_bound : f64_chunk_size (2 ^ 53 + 1) 1 = (2 ^ 53)%Z.
Proof.
  unfold f64_chunk_size. rewrite (f64_int 1) by lia.
  assert (H : f64_round (IZR (2 ^ 53 + 1)) = IZR (2 ^ 53)).
  { unfold f64_round, round, scaled_mantissa, cexp.
    assert (Hm : mag radix2 (IZR (2 ^ 53 + 1)) = 54%Z :> Z).
    { apply mag_unique. rewrite Rabs_pos_eq by (apply IZR_le; lia).
      change (bpow radix2 (54 - 1)) with (IZR (2 ^ 53)). change (bpow radix2 54) with (IZR (2 ^ 54)).
      split; [apply IZR_le; lia | apply IZR_lt; lia]. }
    rewrite Hm. change (f64_exp 54) with 1%Z. 
    replace (IZR (2 ^ 53 + 1) * bpow radix2 (- (1))) with (IZR (2 ^ 52) + / 2).
    2: { change (bpow radix2 (-(1))) with (/ 2). replace (2 ^ 53 + 1)%Z with (2 ^ 52 * 2 + 1)%Z by lia.
         rewrite plus_IZR, mult_IZR. field. }
    unfold ZnearestE.
    assert (Hf : Zfloor (IZR (2 ^ 52) + / 2) = (2 ^ 52)%Z).
    { apply Zfloor_imp. rewrite plus_IZR. lra. }
    
    unfold Znearest. rewrite Hf.
    rewrite Rcompare_Eq by lra. change (negb (Z.even (2 ^ 52))) with false. cbv iota.
    unfold F2R. simpl Fnum. simpl Fexp. change (bpow radix2 1) with 2. rewrite <- mult_IZR. f_equal. }
  rewrite H. unfold Rdiv. rewrite Rinv_1, Rmult_1_r, f64_int by lia. apply Zceil_IZR.
Qed.
