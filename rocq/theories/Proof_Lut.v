(** Lookup tables. *)
From stdpp Require Import list_numbers.
From Verif Require Export Proof_Interp.
Local Open Scope R_scope.

Lemma tolerance_num : ((n1 : R) / (nofnat 10 * nofnat 10 * nofnat 10 * nofnat 10 * nofnat 10 * nofnat 10))%num = tolerance.
Proof. cbn [n1 ndiv nmul nofnat Rnum]. unfold tolerance. replace (INR 10) with 10 by (cbn; lra). field. Qed.
Lemma tolerance_small : 0 < tolerance < / 4.
Proof. unfold tolerance. lra. Qed.

Lemma Rround_ge x n : INR n - / 2 <= x -> 0 <= x -> (n <= as_usize (Rround x))%nat.
Proof.
  intros Hn Hx. destruct (Rround_nat x Hx) as (m & -> & Hm). rewrite as_usize_INR. apply INR_le. destruct (le_lt_dec n m) as [|Hlt]; [by apply le_INR|].
  apply le_INR in Hlt. rewrite S_INR in Hlt. lra.
Qed.
Lemma Rround_neg x : x < 0 -> as_usize (Rround x) = 0%nat.
Proof.
  intros Hx. unfold Rround. destruct (Rlt_dec x 0); [|lra]. destruct (Rfloor_nat (- x + / 2)) as (b & -> & Hb); [lra|].
  cbn [as_usize Rrounding]. unfold Rtrunc. pose proof (pos_INR b). destruct (Rlt_dec (- INR b) 0) as [Hn|Hn].
  - rewrite Ropp_involutive, Int_part_INR. lia.
  - assert (INR b = 0) as -> by lra. rewrite Ropp_0. change 0 with (INR 0). by rewrite Int_part_INR.
Qed.
Lemma of_int_IZR z : of_int z = IZR z.
Proof.
  unfold of_int. destruct (z <? 0)%Z eqn:E; cbn [nopp nofnat Rnum]; rewrite INR_IZR_INZ.
  - apply Z.ltb_lt in E. rewrite Z2Nat.id, opp_IZR by lia. lra.
  - apply Z.ltb_ge in E. by rewrite Z2Nat.id by lia.
Qed.
Lemma place_bracket p n : (1 <= n)%nat -> 0 <= p <= INR n -> exists k, (k + 1 <= n)%nat /\ INR k <= p <= INR (k + 1).
Proof.
  intros Hn Hp. destruct (Rfloor_nat p) as (k & _ & Hk); [lra|]. destruct (decide (k + 1 <= n)%nat) as [Hle|Hgt].
  - exists k. split; [done|]. rewrite INR_1_add. lra.
  - exists (n - 1)%nat. split; [lia|]. replace (n - 1 + 1)%nat with n by lia. split; [|lra].
    assert (INR n <= INR k) by (apply le_INR; lia). assert (INR (n - 1) <= INR n) by (apply le_INR; lia). lra.
Qed.

Lemma of_function_length {P} (f : R -> P) sym d L : length (lut_table (lut_of_function f sym d L)) = (2 * L + 1)%nat.
Proof. cbn [lut_table lut_of_function]. by rewrite map_length, seq_length. Qed.
Lemma of_function_lookup {P} (f : R -> P) sym d L k : (k < 2 * L + 1)%nat -> lut_table (lut_of_function f sym d L) !! k = Some (f (IZR (Z.of_nat k - Z.of_nat L) * d)).
Proof.
  intros Hk. cbn [lut_table lut_of_function]. change (map ?g ?l) with (g <$> l). rewrite list_lookup_fmap, lookup_seq_lt by done. cbn [fmap option_fmap option_map]. rewrite of_int_IZR. done.
Qed.
Lemma of_function_place {P} (f : R -> P) sym d L x : place (lut_of_function f sym d L) x = x / d + INR L.
Proof. unfold place. rewrite of_function_length. cbn [lut_delta lut_of_function]. do 2 f_equal. lia. Qed.

Lemma between_points_unique {P} (line : P -> P -> R -> P) y0 y1 s y y' : between_points line y0 y1 s y -> between_points line y0 y1 s y' -> y = y'.
Proof.
  intros (A1 & A2 & A3) (B1 & B2 & B3). destruct (Rlt_dec s tolerance); [by rewrite A1, B1|]. destruct (Rlt_dec (1 - tolerance) s); [by rewrite A2, B2|].
  rewrite A3, B3 by lra. done.
Qed.

Section lut.
Context {P : Type} (zero : P) (add sub : P -> P -> P) (scale : P -> R -> P).
Notation calc := (lut_calc zero add sub scale).

Lemma calc_place (t : lut R P) x : calc t x =
  (let p := place t x in let r := as_usize (Rround p) in
   if length (lut_table t) <=? r then Done zero
   else if Rltb (Rabs (p - Rround p)) tolerance then rd (lut_table t) r
   else linear_interpolation_between_bins add sub scale p r (lut_table t)).
Proof. unfold lut_calc. rewrite tolerance_num. reflexivity. Qed.

Lemma calc_at (t : lut R P) x k y : lut_table t !! k = Some y -> place t x = INR k -> calc t x = Done y.
Proof using.
  intros H0 Hp. rewrite calc_place. cbv zeta. rewrite Hp, Rround_INR, as_usize_INR. pose proof (lookup_lt_Some _ _ _ H0). rewrite (proj2 (Nat.leb_gt _ _)) by lia.
  rewrite Rminus_diag_eq, Rabs_R0 by done. destruct (Rltb 0 tolerance) eqn:E; [by apply rd_Done|]. apply Rltb_false in E. pose proof tolerance_small. lra.
Qed.
Lemma calc_right (t : lut R P) x : INR (length (lut_table t)) - / 2 <= place t x -> 0 <= place t x -> calc t x = Done zero.
Proof using.
  intros Hp H0. rewrite calc_place. cbv zeta. rewrite (proj2 (Nat.leb_le _ _)); [done|]. by apply Rround_ge.
Qed.
Lemma calc_last (t : lut R P) x y : lut_table t !! (length (lut_table t) - 1)%nat = Some y ->
  INR (length (lut_table t) - 1) <= place t x < INR (length (lut_table t) - 1) + / 2 -> calc t x = Done y.
Proof using.
  intros Hy Hp. pose proof (lookup_lt_Some _ _ _ Hy) as Hl. set (n := (length (lut_table t) - 1)%nat) in *. pose proof (pos_INR n).
  rewrite calc_place. cbv zeta. rewrite (Rround_unique _ n), as_usize_INR by lra. rewrite (proj2 (Nat.leb_gt _ _)) by lia.
  destruct (Rltb _ tolerance) eqn:E; [by apply rd_Done|]. apply Rltb_false in E. unfold linear_interpolation_between_bins. cbn [nltb nofnat Rnum].
  destruct (Rltb (INR n) (place t x)) eqn:E2.
  - rewrite (proj2 (Nat.leb_le _ _)) by lia. by apply rd_Done.
  - apply Rltb_false in E2. assert (Hz : place t x - INR n = 0) by lra. rewrite Hz, Rabs_R0 in E. pose proof tolerance_small. lra.
Qed.
Lemma calc_left (t : lut R P) x y : lut_table t !! 0%nat = Some y -> place t x < 0 -> calc t x = Done y.
Proof using.
  intros Hy Hp. rewrite calc_place. cbv zeta. pose proof (lookup_lt_Some _ _ _ Hy). rewrite Rround_neg by done. rewrite (proj2 (Nat.leb_gt _ _)) by lia.
  destruct (Rltb _ tolerance); [by apply rd_Done|]. unfold linear_interpolation_between_bins. cbn [nltb nofnat Rnum INR].
  destruct (Rltb 0 (place t x)) eqn:E2; [apply Rltb_true in E2; lra|]. cbn [Nat.eqb]. by apply rd_Done.
Qed.

(** *** Tables of a function *)
Lemma of_function_at (f : R -> P) sym d L j : d <> 0 -> (- Z.of_nat L <= j <= Z.of_nat L)%Z -> calc (lut_of_function f sym d L) (IZR j * d) = Done (f (IZR j * d)).
Proof using.
  intros Hd Hj. apply (calc_at _ _ (Z.to_nat (j + Z.of_nat L))).
  - rewrite of_function_lookup by lia. do 3 f_equal. rewrite Z2Nat.id by lia. f_equal. lia.
  - rewrite of_function_place, (INR_IZR_INZ (Z.to_nat _)), Z2Nat.id, plus_IZR, <- INR_IZR_INZ by lia. field. done.
Qed.

(** Each place inside of the table lies between two of its points. *)
Context (line : P -> P -> R -> P).
Hypothesis Hup : forall y0 y1 s, add y0 (scale (sub y1 y0) s) = line y0 y1 s.
Hypothesis Hdown : forall y0 y1 s, add y1 (scale (sub y0 y1) (1 - s)) = line y0 y1 s.
Lemma calc_between (t : lut R P) x k y0 y1 : lut_table t !! k = Some y0 -> lut_table t !! (k + 1)%nat = Some y1 -> INR k <= place t x <= INR (k + 1) ->
  exists y, calc t x = Done y /\ between_points line y0 y1 (place t x - INR k) y.
Proof using Hup Hdown.
  intros H0 H1 Hp. rewrite calc_place. cbv zeta. set (p := place t x) in *. pose proof (lookup_lt_Some _ _ _ H1) as Hlen. pose proof (pos_INR k) as Hk. pose proof tolerance_small as Ht. rewrite INR_1_add in Hp.
  assert (Hp0 : 0 <= p) by lra. destruct (Rlt_dec (p - INR k) (/ 2)) as [Hlow|Hhigh].
  - rewrite (Rround_unique p k), as_usize_INR by lra. rewrite (proj2 (Nat.leb_gt _ _)) by lia. rewrite (Rabs_right (p - INR k)) by lra.
    destruct (Rltb (p - INR k) tolerance) eqn:E.
    + apply Rltb_true in E. exists y0. split; [by apply rd_Done|]. unfold between_points. split_and!; intros; try lra; done.
    + apply Rltb_false in E. unfold linear_interpolation_between_bins. cbn [nltb nofnat Rnum nsub]. destruct (Rltb (INR k) p) eqn:E2; [|apply Rltb_false in E2; lra].
      rewrite (proj2 (Nat.leb_gt _ _)) by lia. rewrite (proj2 (rd_Done _ _ _) H0), bind_Done, (proj2 (rd_Done _ _ _) H1), bind_Done. eexists. split; [done|]. unfold between_points. split_and!; intros; try lra. by rewrite Hup.
  - rewrite (Rround_unique p (k + 1)), as_usize_INR by (rewrite ?INR_1_add; lra). rewrite (proj2 (Nat.leb_gt _ _)) by lia. rewrite INR_1_add. rewrite (Rabs_left1 (p - (INR k + 1))) by lra.
    destruct (Rltb (- (p - (INR k + 1))) tolerance) eqn:E.
    + apply Rltb_true in E. exists y1. split; [by apply rd_Done|]. unfold between_points. split_and!; intros; try lra; done.
    + apply Rltb_false in E. unfold linear_interpolation_between_bins. cbn [nltb nofnat Rnum nsub]. rewrite INR_1_add. destruct (Rltb (INR k + 1) p) eqn:E2; [apply Rltb_true in E2; lra|].
      rewrite (proj2 (Nat.eqb_neq _ _)) by lia. rewrite (proj2 (rd_Done _ _ _) H1), bind_Done. replace (k + 1 - 1)%nat with k by lia. rewrite (proj2 (rd_Done _ _ _) H0), bind_Done. eexists. split; [done|]. unfold between_points. split_and!; intros; try lra.
      rewrite <- Hdown. do 2 f_equal. lra.
Qed.
Lemma of_function_symmetric (f : R -> P) sym d L x : (forall y, f (- y) = f y) -> d <> 0 -> (1 <= L)%nat -> - INR L <= x / d <= INR L ->
  calc (lut_of_function f sym d L) (- x) = calc (lut_of_function f sym d L) x.
Proof using Hup Hdown.
  intros Hf Hd HL Hx. set (t := lut_of_function f sym d L).
  assert (Ep : place t x = x / d + INR L) by apply of_function_place. assert (Em : place t (- x) = - (x / d) + INR L) by (unfold t; rewrite of_function_place; field; done).
  assert (E2 : INR (2 * L) = 2 * INR L) by (rewrite mult_INR; cbn; lra).
  destruct (place_bracket (place t x) (2 * L)) as (k & Hk & Hb); [lia | lra |].
  assert (Hy : forall q, (q <= 2 * L)%nat -> lut_table t !! q = Some (f (IZR (Z.of_nat q - Z.of_nat L) * d))) by (intros q Hq; apply of_function_lookup; lia).
  destruct (calc_between t x k _ _ (Hy k ltac:(lia)) (Hy (k + 1)%nat ltac:(lia)) Hb) as (y & -> & Hbp).
  set (k' := (2 * L - 1 - k)%nat). assert (Ek : INR k' = 2 * INR L - 1 - INR k).
  { unfold k'. rewrite !minus_INR, E2 by lia. cbn. lra. }
  destruct (calc_between t (- x) k' _ _ (Hy k' ltac:(lia)) (Hy (k' + 1)%nat ltac:(lia))) as (y' & -> & Hbp').
  { rewrite INR_1_add, Ek, Em. rewrite INR_1_add, Ep in Hb. lra. }
  f_equal. symmetry. refine (between_points_unique line _ _ _ _ _ Hbp _).
  assert (F1 : f (IZR (Z.of_nat k' - Z.of_nat L) * d) = f (IZR (Z.of_nat (k + 1) - Z.of_nat L) * d)).
  { rewrite <- Hf. f_equal. rewrite Ropp_mult_distr_l, <- opp_IZR. do 2 f_equal. lia. }
  assert (F2 : f (IZR (Z.of_nat (k' + 1) - Z.of_nat L) * d) = f (IZR (Z.of_nat k - Z.of_nat L) * d)).
  { rewrite <- Hf. f_equal. rewrite Ropp_mult_distr_l, <- opp_IZR. do 2 f_equal. lia. }
  rewrite F1, F2 in Hbp'. replace (place t (- x) - INR k') with (1 - (place t x - INR k)) in Hbp' by (rewrite Em, Ep, Ek; lra).
  set (s := place t x - INR k) in *. destruct Hbp' as (A1 & A2 & A3). pose proof tolerance_small. split_and!; intros; [apply A2; lra | apply A1; lra |].
  rewrite A3 by lra. rewrite <- Hup, <- Hdown. done.
Qed.
End lut.

(** *** Instances *)
Lemma lerp_up y0 y1 s : (y0 + (y1 - y0) * s)%num = lerp y0 y1 s.
Proof. cbn. unfold lerp. ring. Qed.
Lemma lerp_down y0 y1 s : (y1 + (y0 - y1) * (1 - s)%R)%num = lerp y0 y1 s.
Proof. cbn. unfold lerp. ring. Qed.
Lemma clerp_up (y0 y1 : R * R) s : cadd y0 ((fun c x => (fst c * x, snd c * x)%num) (csub y1 y0) s) = clerp y0 y1 s.
Proof. destruct y0, y1. unfold clerp, lerp, cadd, csub. cbn. f_equal; ring. Qed.
Lemma clerp_down (y0 y1 : R * R) s : cadd y1 ((fun c x => (fst c * x, snd c * x)%num) (csub y0 y1) (1 - s)) = clerp y0 y1 s.
Proof. destruct y0, y1. unfold clerp, lerp, cadd, csub. cbn. f_equal; ring. Qed.

(** Values between two points are between their values. *)
Lemma between_points_range y0 y1 s y : 0 <= s <= 1 -> between_points lerp y0 y1 s y -> Rmin y0 y1 <= y <= Rmax y0 y1 /\ Rabs (y - lerp y0 y1 s) <= tolerance * Rabs (y1 - y0).
Proof.
  intros Hs (A1 & A2 & A3). pose proof tolerance_small as Ht. pose proof (Rabs_pos (y1 - y0)) as Hpos.
  pose proof (Rmin_l y0 y1). pose proof (Rmin_r y0 y1). pose proof (Rmax_l y0 y1). pose proof (Rmax_r y0 y1).
  destruct (Rlt_dec s tolerance) as [K1|K1].
  - rewrite (A1 K1). split; [lra|]. unfold lerp. replace (y0 - ((1 - s) * y0 + s * y1)) with (- (s * (y1 - y0))) by ring. rewrite Rabs_Ropp, Rabs_mult, (Rabs_right s) by lra. apply Rmult_le_compat_r; lra.
  - destruct (Rlt_dec (1 - tolerance) s) as [K2|K2].
    + rewrite (A2 K2). split; [lra|]. unfold lerp. replace (y1 - ((1 - s) * y0 + s * y1)) with ((1 - s) * (y1 - y0)) by ring. rewrite Rabs_mult, (Rabs_right (1 - s)) by lra. apply Rmult_le_compat_r; lra.
    + rewrite A3 by lra. replace (lerp y0 y1 s - lerp y0 y1 s) with 0 by ring. rewrite Rabs_R0. split; [|nra]. unfold lerp. split; nra.
Qed.
