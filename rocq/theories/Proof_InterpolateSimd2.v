(** Interpolation with an impulse response and SIMD registers: real and complex vectors, and the comparison with the other algorithm. *)
From Verif Require Import Proof_Base Proof_Vec Proof_PadB Proof_Frame Proof_Window Proof_Convolve Proof_ConvSimd Proof_ConvSimdOps Proof_Interp Proof_Interpolatef Proof_InterpolateSimd Proof_SimdOps Proof_Complex Proof_Dot.
From Verif Require Import Spec_Interpolate Spec_Fft NumsR.
From stdpp Require Import list_numbers.
Local Open Scope R_scope.
Local Notation C := (R * R)%type.

Lemma all_done_ex {Q U} (f : Q -> run U) (K : Q -> U -> Prop) l : (forall x, x ∈ l -> exists u, f x = Done u /\ K x u) -> exists us, all_done (map f l) = Done us /\ Forall2 K l us.
Proof.
  induction l as [|x l IH]; intros Hf; [exists []; done|]. destruct (Hf x) as (u & E & Hu); [left|]. destruct IH as (us & E' & Hus); [intros; apply Hf; by right|].
  exists (u :: us). cbn [map all_done]. rewrite E, bind_Done, E', bind_Done. split; [done | by constructor].
Qed.

Section sums.
Context {P : Type} (zero : P) (add mul : P -> P -> P) (from : R -> P) (M : comm_monoid add zero) (Hm0 : forall x, mul x zero = zero) (Hf0 : from 0 = zero).
Lemma foldl_foldr l : foldl add zero l = foldr add zero l.
Proof using M.
  clear Hm0 Hf0. destruct M as (HA & HC & HZ). assert (K : forall l z, foldl add z l = add z (foldr add zero l)); [|by rewrite K, HC, HZ].
  clear l. induction l as [|x l IH]; intros z; cbn; [by rewrite HZ | by rewrite IH, HA].
Qed.
Lemma series_ext n f g : (forall k, (k < n)%nat -> f k = g k) -> series zero add n f = series zero add n g.
Proof using. clear. intros E. unfold series. f_equal. apply map_ext_in. intros k Hk%in_seq. apply E. lia. Qed.
Lemma series_S n f : series zero add (S n) f = add (series zero add n f) (f n).
Proof using. clear. unfold series. rewrite seq_S, map_app, foldl_app. done. Qed.
Lemma series_first n f : series zero add (S n) f = add (f 0%nat) (series zero add n (fun k => f (S k))).
Proof using M. clear Hm0 Hf0. unfold series. rewrite !foldl_foldr. cbn [seq map foldr]. f_equal. f_equal. rewrite <- seq_shift, map_map. done. Qed.
Lemma series_rev n f : series zero add n f = series zero add n (fun k => f (n - 1 - k)%nat).
Proof using M.
  clear mul from Hm0 Hf0. destruct M as (HA & HC & HZ). revert f. induction n as [|n IH]; intros f; [done|]. rewrite series_S, series_first.
  rewrite HC. f_equal; [f_equal; lia|]. rewrite IH. apply series_ext. intros k Hk. f_equal. lia.
Qed.
(** A window which is moved by one point, if both ends do not count *)
Lemma weighted_next x (h : R -> R) lo c t : h (IZR lo - t) = 0 -> h (IZR (lo + Z.of_nat (2 * c + 1)) - t) = 0 ->
  weighted zero add mul from x h lo c t = weighted zero add mul from x h (lo + 1) c t.
Proof using M Hm0 Hf0.
  intros E1 E2. destruct M as (HA & HC & HZ). unfold weighted. replace (2 * c + 1)%nat with (S (2 * c)) in * by lia. rewrite series_first. rewrite series_S.
  replace (lo + Z.of_nat 0)%Z with lo by lia. rewrite E1, Hf0, Hm0, HC, HZ. replace (lo + 1 + Z.of_nat (2 * c))%Z with (lo + Z.of_nat (S (2 * c)))%Z by lia.
  rewrite E2, Hf0, Hm0, HZ. apply series_ext. intros k Hk. by replace (lo + 1 + Z.of_nat k)%Z with (lo + Z.of_nat (S k))%Z by lia.
Qed.

Lemma Int_part_div i K : (0 < K)%nat -> Int_part (INR i / INR K) = Z.of_nat (i / K) /\ INR i / INR K = INR (i / K) + INR (i mod K) / INR K.
Proof using.
  clear. intros HK. pose proof (Proof_Dft.INR_pos K HK) as Hp. pose proof (Nat.div_mod i K ltac:(lia)) as E. pose proof (Nat.mod_upper_bound i K ltac:(lia)) as Hm.
  assert (E2 : INR i / INR K = INR (i / K) + INR (i mod K) / INR K). { rewrite E at 1. rewrite plus_INR, mult_INR. field. lra. }
  split; [|done]. apply Proof_Interp.Int_part_unique. rewrite E2, <- INR_IZR_INZ. assert (H0 : 0 <= INR (i mod K) / INR K) by (apply Rle_mult_inv_pos; [apply pos_INR | done]).
  assert (H1 : INR (i mod K) / INR K < 1). { apply (Rmult_lt_reg_r (INR K)); [done|]. unfold Rdiv. rewrite Rmult_assoc, Rinv_l, Rmult_1_r, Rmult_1_l by lra. by apply lt_INR. }
  lra.
Qed.
Lemma Rceil_div i K : (0 < K)%nat -> Rceil (INR i / INR K) = Z.of_nat ((i + K - 1) / K) /\ INR ((i + K - 1) / K) - INR i / INR K = INR ((K - i mod K) mod K) / INR K.
Proof using.
  clear. intros HK. pose proof (Proof_Dft.INR_pos K HK) as Hp. pose proof (Nat.div_mod i K ltac:(lia)) as E. pose proof (Nat.mod_upper_bound i K ltac:(lia)) as Hm.
  destruct (Int_part_div i K HK) as [_ Et]. destruct (decide (i mod K = 0)%nat) as [Em|Em].
  - assert (Eq : ((i + K - 1) / K = i / K)%nat). { symmetry. apply (Nat.div_unique _ K _ (K - 1)); lia. }
    rewrite Eq, Em, Nat.sub_0_r, Nat.mod_same by lia. cbn [INR]. rewrite Et, Em. cbn [INR]. split; [|unfold Rdiv; ring].
    unfold Rceil. replace (- (INR (i / K) + 0 / INR K)) with (IZR (- Z.of_nat (i / K))) by (rewrite opp_IZR, <- INR_IZR_INZ; unfold Rdiv; ring).
    rewrite (Proof_Interp.Int_part_unique _ (- Z.of_nat (i / K))) by lra. lia.
  - assert (Eq : ((i + K - 1) / K = i / K + 1)%nat). { symmetry. apply (Nat.div_unique _ K _ (i mod K - 1)); lia. }
    rewrite Eq. rewrite (Nat.mod_small (K - i mod K)) by lia. rewrite Et, plus_INR, minus_INR by lia. cbn [INR]. split; [|field; lra].
    unfold Rceil. rewrite (Proof_Interp.Int_part_unique _ (- Z.of_nat (i / K + 1))); [lia|]. rewrite opp_IZR, <- INR_IZR_INZ, plus_INR. cbn [INR].
    assert (0 < INR (i mod K) / INR K) by (apply Rlt_mult_inv_pos; [apply Proof_Dft.INR_pos; lia | done]).
    assert (INR (i mod K) / INR K <= 1). { apply (Rmult_le_reg_r (INR K)); [done|]. unfold Rdiv. rewrite Rmult_assoc, Rinv_l, Rmult_1_r, Rmult_1_l by lra. apply le_INR. lia. }
    lra.
Qed.

Lemma simd_value_weighted h K c d (x : list P) m i : (0 < K)%nat ->
  simd_value zero add mul from h K c d x m i = weighted_simd zero add mul from x h d c K m i.
Proof using M.
  clear Hm0 Hf0. intros HK. unfold simd_value, weighted_simd. cbv zeta. destruct (Int_part_div i K HK) as [Ei Et]. destruct (Rceil_div i K HK) as [Ec Eo]. destruct (_ || _).
  - unfold edge_value, weighted. apply series_ext. intros k Hk. rewrite Ei. f_equal. f_equal. unfold tap. f_equal.
    rewrite Et. rewrite !plus_IZR, minus_IZR, <- !INR_IZR_INZ. ring.
  - unfold middle_value, weighted. rewrite series_rev. apply series_ext. intros k Hk. rewrite Ec. f_equal; [f_equal; lia|]. f_equal. unfold tap. f_equal.
    rewrite <- Eo. rewrite !plus_IZR, !minus_IZR, <- !INR_IZR_INZ. replace (2 * c + 1 - 1 - k)%nat with (2 * c - k)%nat by lia. rewrite minus_INR, mult_INR by lia. cbn [INR]. ring.
Qed.

(** Without a delay, for an even function which is 0 from [c] on, all of these sums are the same. *)
Theorem weighted_same h K c (x : list P) m i : (0 < K)%nat -> even_function h -> reaches h c ->
  weighted_simd zero add mul from x h 0 c K m i =
  weighted zero add mul from x h (Int_part (INR i / INR K) - Z.of_nat c) c (INR i / INR K).
Proof using M Hm0 Hf0.
  intros HK He Hr. unfold weighted_simd. cbv zeta. destruct (Int_part_div i K HK) as [Ei Et]. destruct (Rceil_div i K HK) as [Ec Eo]. set (t := INR i / INR K) in *.
  assert (H0 : 0 <= INR (i mod K) / INR K) by (apply Rle_mult_inv_pos; [apply pos_INR | by apply Proof_Dft.INR_pos]).
  assert (Hfl : 0 <= t - IZR (Int_part t) < 1). { pose proof (base_Int_part t). lra. }
  assert (Ew : forall g lo, (forall y, g y = h y) -> weighted zero add mul from x g lo c t = weighted zero add mul from x h lo c t).
  { intros g lo Eg. unfold weighted. apply series_ext. intros k Hk. by rewrite Eg. }
  destruct (_ || _).
  - rewrite Ew by (intros; f_equal; ring). symmetry. apply weighted_next.
    + apply Hr. rewrite minus_IZR, <- INR_IZR_INZ. rewrite Rabs_left1; pose proof (pos_INR c); lra.
    + apply Hr. rewrite plus_IZR, minus_IZR, <- !INR_IZR_INZ, plus_INR, mult_INR. cbn [INR]. rewrite Rabs_right; pose proof (pos_INR c); lra.
  - rewrite Ew by (intros y; replace (0 - y) with (- y) by ring; apply He). rewrite Ec, Ei.
    destruct (decide (i mod K = 0)%nat) as [Em|Em].
    + assert (Eq : ((i + K - 1) / K = i / K)%nat). { symmetry. pose proof (Nat.div_mod i K ltac:(lia)). apply (Nat.div_unique _ K _ (K - 1)); lia. }
      rewrite Eq. rewrite Em in Et. cbn [INR] in Et. assert (Et' : t = INR (i / K)) by (rewrite Et; unfold Rdiv; ring).
      rewrite (weighted_next x h (Z.of_nat (i / K) - Z.of_nat c - 1)); [f_equal; lia | |]; apply Hr; rewrite ?plus_IZR, !minus_IZR, <- !INR_IZR_INZ, Et'; pose proof (pos_INR c).
      * rewrite Rabs_left1; lra.
      * rewrite plus_INR, mult_INR. cbn [INR]. rewrite Rabs_right; lra.
    + assert (Eq : ((i + K - 1) / K = i / K + 1)%nat).
      { symmetry. pose proof (Nat.div_mod i K ltac:(lia)). pose proof (Nat.mod_upper_bound i K ltac:(lia)). apply (Nat.div_unique _ K _ (i mod K - 1)); lia. }
      rewrite Eq. f_equal. lia.
Qed.
End sums.

Lemma limited' n c : (if (n / 2 <? c)%nat then (n / 2)%nat else c) = half_at_most n c.
Proof. unfold half_at_most. destruct (Nat.ltb_spec (n / 2) c); lia. Qed.
Lemma millionth_R' : millionth = / 1000000.
Proof. unfold millionth. cbn [ndiv nmul nofnat n1 Rnum]. replace (INR 10) with 10 by (cbn; lra). field. Qed.
(** ** The method *)
Section methods.
Context (h : response R R) (delay : R) (c0 K : nat) (r : reg_type) (addr : nat) (s : settings) (sched : list nat) (b : buffer R) (v : dvec R).
Lemma interpolatef_simd_chosen N : (0 < K)%nat -> (len v * K = N)%nat -> (half_at_most (points v) c0 <= 202)%nat -> (2000 <= N + N mod 2)%nat ->
  interpolatef h (INR K) delay c0 r addr s sched b v =
  if is_complex v then
    interpolate_simd (n0, n0) cadd cmul (fun x => (x, n0)) as_complex complex_to_array (reg_cbin cmul) reg_sum_complex
      (r_calc h) K (delay / delta v) (half_at_most (points v) c0) (N + N mod 2) r addr s sched b v
  else interpolate_simd n0 nadd nmul (fun x => x) as_reals (fun x => x) (reg_bin nmul) reg_sum_real
      (r_calc h) K (delay / delta v) (half_at_most (points v) c0) (N + N mod 2) r addr s sched b v.
Proof.
  intros HK HN Hc H2. unfold interpolatef. cbv zeta. cbn [nofnat nmul Rnum fround Rrounding].
  assert (Er : Rround (INR (len v) * INR K) = INR N). { rewrite <- mult_INR, HN. apply Rround_unique; pose proof (pos_INR N); lra. }
  assert (Ek : Rround (INR K) = INR K) by (apply Rround_unique; pose proof (pos_INR K); lra).
  rewrite Er, to_usize_INR. cbn [unwrapped]. rewrite bind_Done. rewrite limited', Ek, millionth_R'. cbn [nltb nsub fabs Rnum Rrem]. change (10 * (10 * (10 * 2)))%nat with 2000%nat.
  rewrite (proj2 (Nat.leb_le _ 202)) by done. rewrite (proj2 (Nat.leb_le 2000 _)) by done. cbn [andb].
  assert (Hlt : Rltb (Rabs (INR K - INR K)) (/ 1000000) = true). { apply Rltb_true. rewrite Rminus_diag_eq, Rabs_R0 by done. lra. }
  rewrite Hlt. rewrite to_usize_INR. cbn [unwrapped]. rewrite bind_Done. done.
Qed.

Context (HK : (0 < K)%nat) (Hal : aligned_all r addr).
Theorem interpolatef_simd_reals x : reals v x -> let c := half_at_most (length x) c0 in let M := (length x * K + (length x * K) mod 2)%nat in
  (c <= 202)%nat -> (2000 <= M)%nat -> (reg_len r <= c + 1)%nat -> (4 * c + 2 <= length x)%nat -> lends b v M ->
  (0 < M - 2 * ((2 * c + 1) * K))%nat \/ no_threads_for_nothing Large s ->
  exists v' b', interpolatef h (INR K) delay c0 r addr s sched b v = Done (v', b') /\ same_meta v v' /\
    reals v' (map (weighted_simd 0 Rplus Rmult (fun y => y) x (r_calc h) (delay / delta v) c K M) (seq 0 M)).
Proof using HK Hal.
  intros Hv c M Hc H2 Hr Hsz Hb Hthr. destruct Hal as (Hro & Ha & Hh & _).
  rewrite (interpolatef_simd_chosen (length x * K)); [|done|by rewrite (reals_len _ _ (proj2 Hv))|by rewrite (points_reals v x Hv)|done].
  rewrite (proj1 Hv), (points_reals v x Hv). fold c M. set (d := delay / delta v). set (g := r_calc h).
  destruct (all_done_ex (fun shift => function_to_vector g c false (INR shift / INR K) d) (fun j u => reals u (map (tap g c (INR j / INR K) d) (seq 0 (2 * c + 1)))) (seq 0 K)) as (vectors & Evec & Hvec).
  { intros j _. apply function_to_vector_real. }
  destruct (all_done_ex (create_shifted_copies r) (fun u cs => exists t, reals u t /\ good_shifts 0 (reg_len r) r (fun l => l) t cs) vectors) as (copies & Ecop & Hcop).
  { intros u [j Hj]%elem_of_list_lookup. destruct (Forall2_lookup_r _ _ _ _ _ Hvec Hj) as (q & _ & Hu).
    destruct (shifts_real r u _ ltac:(apply Hro) Hu) as (cs & E & Hg). exists cs. split; [done|]. by eexists. }
  pose proof (Forall2_length _ _ _ Hvec) as HlK. rewrite seq_length in HlK. pose proof (Forall2_length _ _ _ Hcop) as HlC.
  assert (Hu : forall j, (j < K)%nat -> exists u, vectors !! j = Some u /\ reals u (map (tap g c (INR j / INR K) d) (seq 0 (2 * c + 1)))).
  { intros j Hj. destruct (Forall2_lookup_l _ _ _ j j Hvec) as (u & ? & ?); [by apply lookup_seq_lt|]. by exists u. }
  assert (Emod : (M = length x * K + (length x * K) mod 2)%nat) by done. pose proof (Nat.mod_upper_bound (length x * K) 2 ltac:(lia)).
  destruct (interpolate_simd_spec 0 Rplus Rmult (fun y => y) 1 (reg_len r) r (fun l => l) (reg_bin nmul) reg_sum_real as_reals (fun l => l)
     (real_view R_exact r ltac:(apply Hro)) g K c d addr s sched b v x x vectors copies (fun j => map (tap g c (INR j / INR K) d) (seq 0 (2 * c + 1))) M) as (v' & b' & E & Hv' & Hm).
  - done.
  - done.
  - done.
  - done.
  - by left.
  - by rewrite (proj1 Hv).
  - apply Hv.
  - done.
  - lia.
  - done.
  - intros t Ht. exists t. split; [done | lia].
  - intros y. lia.
  - rewrite (proj1 Hv). exact Evec.
  - done.
  - intros j Hj. destruct (Hu j Hj) as (u & E & Hu'). exists u. split; [done|]. rewrite (points_reals u _ Hu'), map_length, seq_length, (proj1 Hu'). split; [done|]. split; [done|]. split; [apply Hu'|].
    intros k Hk. rewrite Nat.mul_1_r. change (map ?ff ?l) with (ff <$> l). by rewrite list_lookup_fmap, lookup_seq_lt.
  - exact Ecop.
  - lia.
  - intros j cs Hj. destruct (Forall2_lookup_r _ _ _ _ _ Hcop Hj) as (u & Hj' & t & Ht & Hg). destruct (Hu j) as (u' & E & Hu'); [apply lookup_lt_Some in Hj; lia|].
    rewrite Hj' in E. injection E as ->. assert (Et : t = map (tap g c (INR j / INR K) d) (seq 0 (2 * c + 1))). { destruct Ht as [_ Ht], Hu' as [_ Hu']. rewrite Ht in Hu'. by injection Hu'. }
    rewrite Et in Hg. exact Hg.
  - done.
  - done.
  - lia.
  - by rewrite Nat.mul_1_l.
  - done.
  - rewrite Nat.mul_1_l in E. exists v', b'. split; [exact E|]. split; [done|]. split.
    + destruct Hm as (_ & _ & Hm). unfold is_complex. rewrite Hm. exact (proj1 Hv).
    + rewrite Hv'. f_equal. apply map_ext. intros i. apply simd_value_weighted; [|done]. apply (real_monoid R_exact).
Qed.

Theorem interpolatef_simd_cplx x : cplx v x -> let c := half_at_most (length x) c0 in let M := (length x * K)%nat in
  (c <= 202)%nat -> (1000 <= M)%nat -> (reg_len r / 2 <= c + 1)%nat -> (4 * c + 2 <= length x)%nat -> lends b v (2 * M) ->
  (0 < M - 2 * ((2 * c + 1) * K))%nat \/ no_threads_for_nothing Large s ->
  exists v' b', interpolatef h (INR K) delay c0 r addr s sched b v = Done (v', b') /\ same_meta v v' /\
    cplx v' (map (weighted_simd (0, 0) complex_sum complex_product of_real x (r_calc h) (delay / delta v) c K M) (seq 0 M)).
Proof using HK Hal.
  intros Hv c M Hc H2 Hr Hsz Hb Hthr. destruct Hal as (Hro & Ha & Hh & Hpa). destruct Hro as (Hr1 & Hr2 & Hev) eqn:Ero. clear Ero.
  assert (Emod : ((2 * M) mod 2 = 0)%nat) by (rewrite Nat.mul_comm; apply Nat.mod_mul; lia).
  rewrite (interpolatef_simd_chosen (2 * M)); [|done|rewrite (reals_len _ _ (proj2 Hv)), complex_to_array_length; unfold M; lia|by rewrite (points_cplx v x Hv)|rewrite Emod; lia].
  rewrite (proj1 Hv), (points_cplx v x Hv). fold c. rewrite Emod, Nat.add_0_r. set (d := delay / delta v). set (g := r_calc h).
  destruct (all_done_ex (fun shift => function_to_vector g c true (INR shift / INR K) d) (fun j u => cplx u (map (fun k => of_real (tap g c (INR j / INR K) d k)) (seq 0 (2 * c + 1)))) (seq 0 K)) as (vectors & Evec & Hvec).
  { intros j _. apply function_to_vector_complex. }
  destruct (all_done_ex (create_shifted_copies r) (fun u cs => exists t, cplx u t /\ good_shifts (0, 0) (reg_len r / 2) r pairs_of t cs) vectors) as (copies & Ecop & Hcop).
  { intros u [j Hj]%elem_of_list_lookup. destruct (Forall2_lookup_r _ _ _ _ _ Hvec Hj) as (q & _ & Hu).
    destruct (shifts_complex r u _ Hr2 Hev Hu) as (cs & E & Hg). exists cs. split; [done|]. by eexists. }
  pose proof (Forall2_length _ _ _ Hvec) as HlK. rewrite seq_length in HlK. pose proof (Forall2_length _ _ _ Hcop) as HlC.
  assert (Hu : forall j, (j < K)%nat -> exists u, vectors !! j = Some u /\ cplx u (map (fun k => of_real (tap g c (INR j / INR K) d k)) (seq 0 (2 * c + 1)))).
  { intros j Hj. destruct (Forall2_lookup_l _ _ _ j j Hvec) as (u & ? & ?); [by apply lookup_seq_lt|]. by exists u. }
  destruct (interpolate_simd_spec (0, 0) complex_sum complex_product of_real 2 (reg_len r / 2) r pairs_of (reg_cbin cmul) reg_sum_complex as_complex complex_to_array
     (complex_view R_exact r Hr2 Hev) g K c d addr s sched b v (complex_to_array x) x vectors copies (fun j => complex_to_array (map (fun k => of_real (tap g c (INR j / INR K) d k)) (seq 0 (2 * c + 1)))) M) as (v' & b' & E & Hv' & Hm).
  - done.
  - done.
  - done.
  - done.
  - by right.
  - by rewrite (proj1 Hv).
  - apply Hv.
  - apply pairs_of_complex_to_array.
  - rewrite complex_to_array_length. lia.
  - apply array_to_complex_Done.
  - intros t Ht. exists (pairs_of t). split; [|rewrite pairs_of_length, Ht; apply Proof_SimdOps.div2_double].
    assert (Et : t = complex_to_array (pairs_of t)) by (rewrite complex_to_array_pairs_of; [done|]; rewrite Ht; apply even_double). rewrite Et at 1. apply array_to_complex_Done.
  - intros y. rewrite complex_to_array_length. lia.
  - rewrite (proj1 Hv). exact Evec.
  - done.
  - intros j Hj. destruct (Hu j Hj) as (u & E & Hu'). exists u. split; [done|]. rewrite (points_cplx u _ Hu'), map_length, seq_length, (proj1 Hu'). split; [done|]. split; [done|]. split; [apply Hu'|].
    intros k Hk. rewrite (Nat.mul_comm k 2). rewrite (proj1 (complex_to_array_lookup _ _)). change (map ?ff ?l) with (ff <$> l). by rewrite list_lookup_fmap, lookup_seq_lt.
  - exact Ecop.
  - lia.
  - intros j cs Hj. destruct (Forall2_lookup_r _ _ _ _ _ Hcop Hj) as (u & Hj' & t & Ht & Hg). destruct (Hu j) as (u' & E & Hu'); [apply lookup_lt_Some in Hj; lia|].
    rewrite Hj' in E. injection E as ->. assert (Et : t = map (fun k => of_real (tap g c (INR j / INR K) d k)) (seq 0 (2 * c + 1))).
    { destruct Ht as [_ Ht], Hu' as [_ Hu']. rewrite Ht in Hu'. injection Hu' as Eq. rewrite <- (pairs_of_complex_to_array t), Eq. apply pairs_of_complex_to_array. }
    rewrite Et in Hg. exact Hg.
  - done.
  - done.
  - fold M. lia.
  - done.
  - done.
  - exists v', b'. split; [exact E|]. split; [done|]. split.
    + destruct Hm as (_ & _ & Hm). unfold is_complex. rewrite Hm. exact (proj1 Hv).
    + rewrite Hv'. do 2 f_equal. apply map_ext. intros i. apply simd_value_weighted; [|done]. apply (complex_monoid R_exact).
Qed.
End methods.
