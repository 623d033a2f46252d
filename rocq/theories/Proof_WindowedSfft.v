(** [windowed_sfft] of statically typed vectors *)
From Verif Require Import Proof_Window Proof_SfftR Proof_FftR Proof_Dft Proof_Corr Proof_PadB Proof_ComplexSet.
From Verif Require Import Spec_Window Spec_Fft.
From stdpp Require Import list list_numbers tactics.
Local Open Scope R_scope.
Local Notation C := (R * R)%type.

Lemma windowed_interleaved (f : nat -> nat -> R) l l' : windowed Rmult f (interleaved 0 2 l) l' ->
  exists lw, windowed Rmult (fun i n => f (2 * i)%nat (2 * n)%nat) l lw /\ l' = interleaved 0 2 lw.
Proof.
  intros [L W]. set (n := length l). assert (Hl : length (interleaved 0 2 l) = (2 * n)%nat) by (rewrite interleaved_length; lia). rewrite Hl in *.
  set (lw := imap (fun i x => x * f (2 * i)%nat (2 * n)%nat) l). exists lw.
  assert (Hlw : length lw = n) by apply imap_length.
  split.
  - split; [exact Hlw|]. intros i x E. unfold lw. rewrite list_lookup_imap, E. reflexivity.
  - apply list_eq. intros i. destruct (decide (i < 2 * n)%nat) as [Hi|Hi].
    2:{ rewrite !lookup_ge_None_2; [done | rewrite interleaved_length by lia; rewrite Hlw; lia | rewrite L; lia]. }
    assert (Hi1 : (i < length l * 2)%nat) by (unfold n in *; lia). assert (Hi2 : (i < length lw * 2)%nat) by lia.
    pose proof (interleaved_lookup 0 2 l i ltac:(lia) Hi1) as Ei. pose proof (interleaved_lookup 0 2 lw i ltac:(lia) Hi2) as Ew. rewrite Ew.
    assert (Hd : (i / 2 < n)%nat) by (apply Nat.div_lt_upper_bound; lia).
    destruct (lookup_lt_is_Some_2 l (i / 2)) as [x Ex]; [exact Hd|].
    assert (Exw : lw !! (i / 2)%nat = Some (x * f (2 * (i / 2))%nat (2 * n)%nat)) by (unfold lw; rewrite list_lookup_imap, Ex; reflexivity).
    destruct (i mod 2 =? 0)%nat eqn:Hm.
    + rewrite Ex in Ei. rewrite Exw, (W i x Ei). apply Nat.eqb_eq in Hm.
      assert (Hii : (2 * (i / 2) = i)%nat) by (pose proof (Nat.div_mod_eq i 2); lia). by rewrite Hii.
    + rewrite (W i 0 Ei). f_equal. lra.
Qed.

Section transforms.
Context `{F : Fft R} (HF : computes_dft).
Let Hlf : forall c, length (fft_forward c) = length c. Proof. intros c. destruct HF as (-> & _). apply dft_length. Qed.

Theorem windowed_sfft_static w s sched b (v : dvec R) l : reals v l -> number_space v = NReal -> domain v = DTime -> Nat.odd (length l) = true ->
  (w_symmetric w = true -> mirrored (w_fun w) (2 * length l) /\ pairs_up s (2 * length l)) ->
  lends b v (4 * length l) -> spare b (2 * fft_inplace_scratch_len (2 * length l)) ->
  exists v' b' lw, windowed_sfft w s sched b v = Done (v', b', Ok tt) /\
    windowed Rmult (fun i n => w_fun w (2 * i)%nat (2 * n)%nat) l lw /\
    cplx v' (take ((length l + 1) / 2) (dft (-1) (map (fun x => (x, 0)) lw))) /\
    number_space v' = NComplex /\ domain v' = DFreq /\ still_spare b b'.
Proof using HF.
  intros Hv Hns Hdm Hodd Hw Hb Hb2. assert (Hne : l <> []) by (by destruct l).
  unfold windowed_sfft, symmetric_fft. unfold vdomain. rewrite Hdm, (proj1 Hv). cbn [dm_domain ddomain_eqb negb orb].
  rewrite (points_reals v l Hv). assert (Hm : (length l mod 2 = 1)%nat). { apply Nat.odd_spec in Hodd. destruct Hodd as [k ->]. rewrite Nat.add_comm, Nat.mul_comm. by rewrite Nat.mod_add. }
  rewrite Hm. cbn [Nat.eqb].
  destruct (zero_interleave_b_real n0 b v l 2 Hv Hne ltac:(lia)) as (v1 & b1 & E1 & (M1 & M2 & M3) & Hv1).
  { destruct b; try done. cbn in *. lia. }
  rewrite E1, bind_Done. pose proof (zero_interleave_b_keeps _ _ _ _ _ E1) as Hk1. apply zero_interleave_b_spare in E1.
  assert (Ev : vec_to_complex v1 = v1). { destruct v1 as [? ? ? ns ?]. cbn in *. rewrite M3, Hns. done. } rewrite Ev. cbv zeta.
  assert (Hl1 : length (interleaved n0 2 l) = (2 * length l)%nat). { rewrite interleaved_length by lia. lia. }
  pose proof (points_reals v1 _ Hv1) as Hp1. rewrite Hl1 in Hp1.
  assert (Hpos : (0 < length l)%nat) by (destruct l; [done | cbn; lia]).
  destruct (apply_window_spec w s sched v1) as [Hy _]; [rewrite Hp1; exact Hw | intros _; left; lia|].
  destruct (Hy _ Hv1) as (vw & l' & Ew & Hvw & Wl & (N1 & N2 & N3) & Hrw). rewrite Ew, bind_Done.
  destruct (windowed_interleaved (w_fun w) l l' Wl) as (lw & Hlw & El'). subst l'.
  assert (Hll : length lw = length l) by (destruct Hlw as [K _]; exact K).
  assert (Hl2 : length (interleaved 0 2 lw) = (2 * length l)%nat) by (rewrite interleaved_length by lia; lia).
  destruct (fft_any_real Hlf b1 vw _ Hvw) as (v2 & b2 & X & -> & Hv2 & Rot & Hd2 & Hdl2 & Ht2 & Hrt2 & Hs2).
  { intros E. rewrite E in Hl2. cbn in Hl2. lia. }
  { unfold vdomain. by rewrite N2, M2, Hdm. } { unfold typed. by rewrite N2, N3, M2, M3, Hns, Hdm. }
  { rewrite Hl2. assert (K : lends b1 v1 (2 * (2 * length l))). { apply Hk1. by replace (2 * (2 * length l))%nat with (4 * length l)%nat by lia. }
    destruct b1; try done. cbn in K |- *. rewrite (alloc_rest v1 vw); [exact K | | | exact Hrw].
    - destruct (vdata_split v1 _ (proj2 Hv1)) as (rest & He & Hn). unfold len, alloc_len, s_len. unfold elems in He. rewrite He, app_length. lia.
    - destruct (vdata_split vw _ (proj2 Hvw)) as (rest & He & Hn). unfold len, alloc_len, s_len. unfold elems in He. rewrite He, app_length. lia. }
  { rewrite Hl2. by apply E1. }
  rewrite bind_Done, (points_reals vw _ Hvw), Hl2.
  assert (Hdiv : (2 * length l / 2 + 1 = length l + 1)%nat) by (rewrite Nat.mul_comm, Nat.div_mul; lia).
  assert (HlX : length X = (2 * length l)%nat). { destruct Rot as [E _]. by rewrite E, Hlf, map_length, Hl2. }
  destruct (unmirror_spec v2 _ (2 * length l) Hv2) as (v3 & -> & Hv3 & (O1 & O2 & O3) & _).
  { rewrite Hdiv. rewrite Nat.add_1_r, Nat.odd_succ. rewrite <- Nat.negb_odd, Hodd. done. }
  { rewrite Hdiv, HlX. lia. }
  rewrite bind_Done. rewrite Hdiv in Hv3.
  assert (number_space v2 = NComplex /\ domain v2 = DFreq) as [Hst1 Hst2].
  { destruct Hv2 as [Hc2 _]. unfold is_complex, vdomain, typed, runtime in *. destruct v2 as [? ? dm2 ns2 ?]. cbn in *.
    assert (Hnr : ~ (exists c d, number_space vw = NDyn c /\ domain vw = DDyn d)) by (intros (cc & dd & E' & _); congruence).
    rewrite <- Hrt2 in Hnr. destruct ns2, dm2; try done. exfalso. apply Hnr. by eexists _, _. }
  rewrite Hl2 in Rot. replace (2 * length l / 2)%nat with (length l) in Rot by lia.
  destruct HF as (HF1 & _). rewrite HF1 in Rot. cbn [n0 Rnum] in Rot.
  change (map _ (interleaved 0 2 lw)) with (cpx (interleaved 0 2 lw)) in Rot. rewrite dft_interleaved in Rot.
  replace (length l) with (length (dft (-1) (cpx lw))) in Rot at 1 by (rewrite dft_length, cpx_length; exact Hll). apply rotated_twice in Rot. subst X.
  rewrite take_app_le in Hv3. 2:{ rewrite dft_length, cpx_length, Hll. lia. }
  exists v3, b2, lw. split; [reflexivity|]. split; [exact Hlw|]. split; [exact Hv3|]. split; [by rewrite O3|]. split; [by rewrite O2|].
  by eapply still_spare_trans.
Qed.
Theorem windowed_sfft_gen w s sched b (v : dvec R) l : reals v l -> runtime v -> vdomain v = Time -> Nat.odd (length l) = true ->
  (w_symmetric w = true -> mirrored (w_fun w) (length l) /\ pairs_up s (length l)) ->
  lends b v (2 * length l) -> spare b (2 * fft_inplace_scratch_len (length l)) ->
  ((length l mod 4 = 1)%nat -> windowed_sfft w s sched b v = Panicked) /\
  ((length l mod 4 = 3)%nat -> exists v' b' lw X, windowed_sfft w s sched b v = Done (v', b', Ok tt) /\ windowed Rmult (w_fun w) l lw /\
     rotated_by (length l / 2) (dft (-1) (map (fun x => (x, 0)) lw)) X /\ cplx v' (take ((length l + 1) / 4) X)).
Proof using HF.
  intros Hv Hrt Hd Hodd Hwin Hb Hb2. assert (Hne : l <> []) by (by destruct l).
  unfold windowed_sfft, symmetric_fft. rewrite Hd, (proj1 Hv). cbn [ddomain_eqb negb orb].
  rewrite (points_reals v l Hv). assert (Hm : (length l mod 2 = 1)%nat). { apply Nat.odd_spec in Hodd. destruct Hodd as [k ->]. rewrite Nat.add_comm, Nat.mul_comm. by rewrite Nat.mod_add. }
  rewrite Hm. cbn [Nat.eqb].
  destruct (zero_interleave_b_real n0 b v l 2 Hv Hne ltac:(lia)) as (v1 & b1 & E1 & (M1 & M2 & M3) & Hv1). { by rewrite Nat.mul_comm. }
  rewrite E1, !bind_Done. apply zero_interleave_b_spare in E1. cbv zeta.
  destruct Hrt as (cc & dd & Hns & Hdm). set (w1 := vec_to_complex v1).
  assert (Hw : cplx w1 (map (fun x => (x, 0)) l)).
  { split; [unfold w1, vec_to_complex, is_complex; destruct v1; cbn in *; by rewrite M3, Hns|]. pose proof (interleaved_pairs (A := R) l) as Ip. cbn [n0 Rnum] in Ip. rewrite <- Ip. pose proof (proj2 Hv1) as Iv. cbn [n0 Rnum] in Iv. rewrite <- Iv. by destruct v1. }
  assert (Hwt : runtime w1). { unfold w1, vec_to_complex, runtime. destruct v1; cbn in *. rewrite M3, Hns. exists true, dd. split; [done|]. congruence. }
  assert (Hwd : vdomain w1 = Time). { unfold w1, vec_to_complex, vdomain in *. destruct v1; cbn in *. by rewrite M2. }
  assert (Hpos : (0 < length l)%nat) by (destruct l; [done | cbn; lia]).
  pose proof (points_cplx w1 _ Hw) as Hp1. rewrite map_length in Hp1.
  destruct (apply_window_spec w s sched w1) as [_ Hy]; [rewrite Hp1; exact Hwin | intros _; left; lia|].
  destruct (Hy _ Hw) as (vw & c' & Ew & Hvw & [WL W] & (N1 & N2 & N3) & Hrw). rewrite Ew, bind_Done. rewrite map_length in WL, W.
  set (lw := imap (fun i x => x * w_fun w i (length l)) l).
  assert (Hlw : windowed Rmult (w_fun w) l lw).
  { split; [apply imap_length|]. intros i x Ex. unfold lw. rewrite list_lookup_imap, Ex. reflexivity. }
  assert (Hll : length lw = length l) by (destruct Hlw as [K _]; exact K).
  assert (c' = map (fun x => (x, 0)) lw) as ->.
  { apply list_eq. intros i. change (map ?g lw) with (g <$> lw). rewrite list_lookup_fmap. destruct (l !! i) as [x|] eqn:Ex.
    - rewrite (proj2 Hlw i x Ex). rewrite (W i (x, 0)); [|change (map ?g l) with (g <$> l); rewrite list_lookup_fmap, Ex; reflexivity].
      cbn. unfold complex_product. cbn. f_equal. f_equal; lra.
    - rewrite !lookup_ge_None_2; [reflexivity | rewrite Hll; by apply lookup_ge_None | rewrite WL; by apply lookup_ge_None]. }
  destruct (fft_any Hlf b1 vw _ Hvw) as (v2 & b2 & X & -> & Hv2 & Rot & Hd2 & Hr2 & Hdl2 & Ht2 & Hrt2 & Hs2).
  { unfold vdomain in *. congruence. }
  { destruct Hwt as (? & ? & E & E'). unfold typed. by rewrite N2, N3, E, E'. } { rewrite map_length, Hll. by apply E1. }
  rewrite bind_Done. rewrite (points_cplx vw _ Hvw). rewrite map_length, Hll in *.
  destruct HF as (HF1 & _). rewrite HF1 in Rot.
  assert (HlX : length X = length l). { destruct Rot as [E _]. by rewrite E, dft_length, map_length, Hll. }
  pose proof (Nat.div_mod_eq (length l) 4) as D4. split; intros Hm4; rewrite Hm4 in D4.
  - rewrite (unmirror_odd v2); [done | apply Hv2 |]. rewrite D4. replace ((4 * (length l / 4) + 1) / 2 + 1)%nat with (1 + 2 * (length l / 4))%nat by lia.
    by rewrite Nat.odd_add_mul_2.
  - assert (Hdiv : (length l / 2 + 1 = 2 * (length l / 4 + 1))%nat) by lia.
    destruct (unmirror_spec v2 _ (length l) Hv2) as (v3 & -> & Hv3 & _).
    { rewrite Hdiv. rewrite Nat.odd_mul. done. } { rewrite Hdiv, HlX. lia. }
    rewrite bind_Done. exists v3, b2, lw, X. split; [reflexivity|]. split; [exact Hlw|]. split; [exact Rot|]. rewrite Hdiv in Hv3.
    by replace ((length l + 1) / 4)%nat with (2 * (length l / 4 + 1) / 2)%nat by lia.
Qed.
End transforms.
