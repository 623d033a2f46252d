(** What [sifft] makes of the result of [sfft] (C49). *)
From Verif Require Export Proof_SfftR Proof_FftMore Proof_Outside.
Local Open Scope R_scope.
Local Notation C := (R * R)%type.

Section real.
Context `{F : Fft R} (HF : computes_dft).
Let Hli : forall c, length (fft_inverse c) = length c. Proof. intros c. destruct HF as (_ & -> & _). apply dft_length. Qed.

Theorem sifft_of_sfft r addr s sched sched' b (v : dvec R) l b2 : aligned_all r addr ->
  reals v l -> number_space v = NReal -> domain v = DTime -> Nat.odd (length l) = true -> (length l <> 1)%nat ->
  lends b v (4 * length l) -> spare b (2 * fft_inplace_scratch_len (2 * length l)) ->
  let p := ((length l + 1) / 2)%nat in
  exists v1 b1 half, sfft b v = Done (v1, b1, Ok tt) /\
    rotated_by (p - p / 2) (map (fun x => cmul x (1 / INR p, 0)) (take p (dft (-1) (map (fun x => (x, 0)) l)))) half /\
    forall x, half !! 0%nat = Some x ->
    (tolerance < Rabs (snd x) -> exists v2, sifft r addr s sched sched' b2 v1 = Done (v2, b2, Err InputMustBeConjSymmetric) /\ poisoned v2) /\
    (Rabs (snd x) <= tolerance -> lends b2 v1 (2 * length l) -> spare b2 (2 * fft_inplace_scratch_len (length l)) ->
     exists v2 b3 full, sifft r addr s sched sched' b2 v1 = Done (v2, b3, Ok tt) /\ conj_mirrored half full /\ reals v2 (map fst (dft 1 full))).
Proof using HF.
  intros (Hr & Ha & Hh & Hp) Hv Hns Hdm Ho Hn1 Hb Hb2 p. destruct (sfft_half HF b v l Hv Hns Hdm Ho Hb Hb2) as (v1 & b1 & E1 & Hv1 & K1 & K2 & _).
  fold p in Hv1. apply Nat.odd_spec in Ho. destruct Ho as [m Hm]. assert (Hpm : p = (m + 1)%nat) by (unfold p; lia).
  set (half0 := take p _) in *. assert (Hl0 : length half0 = p). { unfold half0. rewrite take_length, dft_length, map_length. lia. }
  destruct (scale_complex_spec r addr s sched (n1 / nofnat p, n0)%num v1 _ Hr Ha ltac:(left; split; [done|]; by intros _) Hv1) as (v2 & Es & Hv2 & (M1 & M2 & M3) & R2).
  destruct (ifft_shift_cplx v2 _ Hv2 ltac:(rewrite map_length; lia)) as (v3 & half & Ei & Hv3 & Rot & (N1 & N2 & N3) & R3).
  rewrite map_length, Hl0 in Rot. exists v1, b1, half. split; [done|]. split; [exact Rot|].
  destruct Rot as [HlX _]. rewrite map_length, Hl0 in HlX. intros x Hx.
  assert (Estep : forall b, sifft r addr s sched sched' b v1 = plain_sifft s sched' b v3).
  { intros b0. unfold sifft. rewrite (points_cplx v1 _ Hv1), Hl0, Es, bind_Done, Ei, bind_Done. done. }
  assert (Hd3 : vdomain v3 = Frequency) by (unfold vdomain; by rewrite N2, M2, K2). split.
  - intros Ht. destruct (plain_sifft_asymmetric s sched' b2 v3 half x Hv3 Hd3 Hx) as (v4 & E4 & P4).
    { cbn [nltb fabs Rnum Rrem]. apply Rltb_true. lra. }
    exists v4. by rewrite Estep.
  - intros Ht Hbb Hbs. assert (E21 : (2 * length half - 1 = length l)%nat) by lia.
    destruct (plain_sifft_static Hli s sched' b2 v3 half x Hv3) as (v4 & b4 & E4 & Hv4 & _ & _).
    { by rewrite N3, M3. } { by rewrite N2, M2. } { done. }
    { cbn [nltb fabs Rnum Rrem]. apply Rltb_false. lra. }
    { rewrite E21. assert (Hal : alloc_len v3 = alloc_len v1).
      { transitivity (alloc_len v2); apply alloc_rest; try done; eapply vdata_fits; [apply Hv2 | apply Hv3 | apply Hv1 | apply Hv2]. }
      destruct b2; try done. cbn in *. rewrite Hal. done. }
    { by rewrite E21. }
    exists v4, b4, (half ++ rev (map conj1 (tail half))). rewrite Estep. split; [done|]. split; [apply mirrored_app; by intros -> |].
    destruct HF as (_ & HF2 & _). by rewrite HF2 in Hv4.
Qed.

Theorem sifft_of_sfft_single r addr s sched sched' b (v : dvec R) x b2 : aligned_all r addr ->
  reals v [x] -> number_space v = NReal -> domain v = DTime -> lends b v 4 -> spare b (2 * fft_inplace_scratch_len 2) ->
  exists v1 b1, sfft b v = Done (v1, b1, Ok tt) /\ sifft r addr s sched sched' b2 v1 = Panicked.
Proof using HF.
  intros (Hr & Ha & Hh & Hp) Hv Hns Hdm Hb Hb2. destruct (sfft_half HF b v [x] Hv Hns Hdm eq_refl Hb Hb2) as (v1 & b1 & E1 & Hv1 & K1 & K2 & _).
  exists v1, b1. split; [done|]. unfold sifft. rewrite (points_cplx v1 _ Hv1).
  destruct (scale_complex_spec r addr s sched (n1 / nofnat 1, n0)%num v1 _ Hr Ha ltac:(left; split; [done|]; by intros _) Hv1) as (v2 & Es & Hv2 & _).
  change (length _) with 1%nat. rewrite Es, bind_Done.
  assert (Ei : ifft_shift v2 = Panicked); [|by rewrite Ei]. apply ifft_shift_single.
  - pose proof (vdata_fits v2 _ (proj2 Hv2)). pose proof (reals_len v2 _ (proj2 Hv2)) as Hl2. split; [lia|]. intros _. by rewrite Hl2, complex_to_array_length, even_double.
  - by rewrite (points_cplx v2 _ Hv2).
Qed.
End real.
