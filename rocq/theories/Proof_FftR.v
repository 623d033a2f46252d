From Verif Require Export Proof_Fft Proof_Real.
From stdpp Require Import list_numbers.
Local Open Scope nat_scope.

Lemma rotated_back {T} k k' (l l1 l2 : list T) : rotated_by k l l1 -> rotated_by k' l1 l2 -> l <> [] -> (k + k') mod length l = 0 -> l2 = l.
Proof.
  intros [H1 R1] [H2 R2] Hne Hk. assert (Hn : length l <> 0) by (by destruct l).
  apply list_eq. intros i. destruct (decide (i < length l)) as [Hi|Hi]; [|rewrite !lookup_ge_None_2; [done | lia | lia]].
  rewrite H1 in R2. rewrite <- (R1 i Hi). rewrite <- (R2 ((i + k) mod length l)) by (by apply Nat.mod_upper_bound). f_equal.
  rewrite Nat.add_mod_idemp_l by done. replace (i + k + k') with (i + (k + k')) by lia. rewrite <- Nat.add_mod_idemp_r, Hk, Nat.add_0_r by done.
  symmetry. by apply Nat.mod_small.
Qed.
Lemma rotated_map {T U} (f : T -> U) k l l' : rotated_by k l l' -> rotated_by k (map f l) (map f l').
Proof.
  intros [H1 R1]. split; [by rewrite !map_length|]. rewrite map_length. intros i Hi. change (map f ?l) with (f <$> l). rewrite !list_lookup_fmap.
  by rewrite R1.
Qed.
Lemma halves n : (n / 2 + (n - n / 2)) mod n = 0.
Proof.
  destruct (decide (n = 0)) as [->|Hn]; [done|]. replace (n / 2 + (n - n / 2)) with n; [by apply Nat.mod_same|].
  pose proof (Nat.div_le_upper_bound n 2 n ltac:(lia) ltac:(lia)). lia.
Qed.

Section transforms.
Context {A : Type} `{Num A} `{Flt A} `{Rem A} `{Trig A} `{F : Fft A}.
Context (Hlf : forall c, length (fft_forward c) = length c) (Hli : forall c, length (fft_inverse c) = length c).

Lemma fft_any_real b (v : dvec A) l : reals v l -> l <> [] -> vdomain v = Time -> typed v -> lends b v (2 * length l) ->
  spare b (2 * fft_inplace_scratch_len (length l)) ->
  exists v' b' X, vfft b v = Done (v', b') /\ cplx v' X /\ rotated_by (length l / 2) (fft_forward (map (fun x => (x, n0)) l)) X /\ vdomain v' = Frequency /\
    delta v' = (nofnat (length l) * delta v)%num /\ typed v' /\ (runtime v' <-> runtime v) /\ still_spare b b'.
Proof using Hlf.
  intros Hv Hne Hd Ht Hb Hb2. destruct (plain_fft_any_real Hlf b v l Hv Hne Hd Ht Hb Hb2) as (w & b' & E & Hw & Hwd & Hdl & Hwt & Hrt & Hs).
  unfold vfft. rewrite E, bind_Done. destruct (swap_halves_cplx w _ Hw) as (v' & X & _ & -> & HX & Hrot & (M1 & M2 & M3) & Hr').
  rewrite bind_Done. rewrite Hlf, map_length in Hrot. exists v', b', X. split_and!; try done.
  - unfold vdomain in *. congruence.
  - congruence.
  - unfold typed in *. by rewrite M2, M3.
  - unfold runtime in *. rewrite M2, M3. apply Hrt.
Qed.

Theorem ifft_any r addr s sched b (v : dvec A) c : reg_ok r -> elem_aligned r addr -> simd_fits r addr (len v) ->
  cplx v c -> length c <> 1 -> vdomain v = Frequency -> typed v -> spare b (2 * fft_inplace_scratch_len (length c)) ->
  exists v' b' X, vifft r addr s sched b v = Done (v', b') /\ cplx v' (fft_inverse X) /\
    rotated_by (length c - length c / 2) (map (fun x => (fst x * (n1 / nofnat (length c)), snd x * (n1 / nofnat (length c))))%num c) X /\ same_rest v v' /\
    (runtime v -> vdomain v' = Frequency) /\ (~ runtime v -> vdomain v' = Time) /\
    delta v' = (nofnat (length c) * delta v)%num /\ typed v' /\ (runtime v' <-> runtime v) /\ still_spare b b'.
Proof using Hli.
  intros Hr Ha Hf Hv Hl1 Hd Ht Hb. unfold vifft.
  assert (Hp : points v = length c) by (by apply points_cplx).
  rewrite Hp. destruct (proj2 (scale_real_spec r addr s sched (n1 / nofnat (length c))%num v Hr Ha Hf) c Hv) as (w & -> & Hw & (M1 & M2 & M3) & Hrw). rewrite bind_Done.
  destruct (ifft_shift_cplx w _ Hw) as (w2 & X & -> & HX & Hrot & (N1 & N2 & N3) & Hrw2). { by rewrite map_length. } rewrite bind_Done. rewrite map_length in Hrot.
  assert (HlX : length X = length c). { destruct Hrot as [E _]. by rewrite E, map_length. }
  destruct (plain_ifft_any Hli b w2 X HX) as (v' & b' & -> & Hv' & R' & T1 & T2 & D' & Ht' & Hrt & Hs).
  { unfold vdomain in *. congruence. } { unfold typed in *. by rewrite N2, N3, M2, M3. } { by rewrite HlX. }
  assert (Hrr : runtime w2 <-> runtime v). { unfold runtime. by rewrite N2, N3, M2, M3. }
  exists v', b', X. split_and!; try done.
  - apply same_rest_trans with w2; [|done]. by apply same_rest_trans with w.
  - intros K. apply T1. by apply Hrr.
  - intros K. apply T2. intros K'. by apply K, Hrr.
  - rewrite D', HlX. congruence.
  - by rewrite Hrt.
Qed.

(** A single point *)
Theorem ifft_single r addr s sched b (v : dvec A) x : reg_ok r -> elem_aligned r addr -> simd_fits r addr (len v) -> cplx v [x] ->
  vifft r addr s sched b v = Panicked.
Proof.
  intros Hr Ha Hf Hv. unfold vifft. destruct (proj2 (scale_real_spec r addr s sched (n1 / nofnat (points v))%num v Hr Ha Hf) [x] Hv) as (w & -> & [Hw1 Hw2] & _).
  rewrite bind_Done. destruct x as [x y]. cbn [map complex_to_array concat app fst snd] in Hw2.
  destruct (vdata_split w _ Hw2) as (rest & He & Hn). cbn in Hn. unfold ifft_shift, swap_halves_priv, on_valid_complex, len. rewrite Hn, Hw1, He. done.
Qed.
End transforms.

(** ** With the discrete Fourier transform over the real numbers *)
Local Open Scope R_scope.

Local Notation C := (R * R)%type.
Definition rscale (k : R) (x : C) : C := (fst x * k, snd x * k).
Lemma rscale_cmul k x : rscale k x = cmul x (k, 0).
Proof. destruct x as [a b]. unfold rscale, cmul. cbn. f_equal; ring. Qed.
Lemma dft_scale s k c : dft s (map (rscale k) c) = map (rscale k) (dft s c).
Proof.
  apply list_eq. intros i. change (map (rscale k) (dft s c)) with (rscale k <$> dft s c). rewrite list_lookup_fmap.
  destruct (decide (i < length c)%nat) as [Hi|Hi]; [|rewrite !lookup_ge_None_2; [done | rewrite dft_length; lia | rewrite dft_length, map_length; lia]].
  rewrite !dft_lookup by (by rewrite ?map_length). rewrite map_length. cbn [fmap option_fmap option_map]. f_equal. rewrite rscale_cmul, <- csm_mul_r.
  apply csm_ext. intros j Hj. change (map (rscale k) c) with (rscale k <$> c). rewrite list_lookup_fmap.
  destruct (lookup_lt_is_Some_2 c j Hj) as [x ->]. cbn [fmap option_fmap option_map]. rewrite rscale_cmul. change (default ?aa (Some ?bb)) with bb. ring.
Qed.
Lemma scale_back n (c : list C) : n <> 0%nat -> map (rscale (1 / INR n)) (map (fun x => cmul (INR n, 0) x) c) = c.
Proof.
  intros Hn. rewrite map_map. rewrite <- (map_id c) at 2. apply map_ext. intros [a b]. unfold rscale, cmul. cbn.
  assert (INR n <> 0) by (by apply not_0_INR). f_equal; field; done.
Qed.
Lemma scale_nth n (c : list C) : map (fun x => cmul (INR n, 0) x) c = map (rscale (INR n)) c.
Proof. apply map_ext. intros x. rewrite rscale_cmul. ring. Qed.

Section real.
Context `{F : Fft R} (HF : computes_dft).
Let Hlf : forall c, length (fft_forward c) = length c. Proof. intros c. destruct HF as (-> & _). apply dft_length. Qed.
Let Hli : forall c, length (fft_inverse c) = length c. Proof. intros c. destruct HF as (_ & -> & _). apply dft_length. Qed.

Lemma len_rest {A} (v v' : dvec A) : same_rest v v' -> len v' = len v.
Proof. intros (_ & _ & E & _). exact E. Qed.

Theorem fft_ifft r addr s sched b (v : dvec R) c : reg_ok r -> elem_aligned r addr -> simd_fits r addr (len v) ->
  cplx v c -> length c <> 1%nat -> vdomain v = Time -> typed v -> spare b (2 * fft_inplace_scratch_len (length c)) ->
  exists v1 b1 v2 b2, vfft b v = Done (v1, b1) /\ vifft r addr s sched b1 v1 = Done (v2, b2) /\ cplx v2 c /\ same_rest v v2.
Proof using HF.
  intros Hr Ha Hf Hv Hl1 Hd Ht Hb. destruct (fft_any Hlf b v c Hv Hd Ht Hb) as (v1 & b1 & X & E1 & HX & Rot & Hd1 & Hr1 & _ & Ht1 & _ & Hs).
  assert (HlX : length X = length c). { destruct Rot as [E _]. by rewrite E, Hlf. }
  destruct (ifft_any Hli r addr s sched b1 v1 X Hr Ha) as (v2 & b2 & Y & E2 & HY & Rot2 & Hr2 & _).
  { by rewrite (len_rest v v1). } { done. } { by rewrite HlX. } { done. } { done. } { rewrite HlX. by apply Hs. }
  exists v1, b1, v2, b2. split_and!; try done; [|by apply same_rest_trans with v1].
  rewrite HlX in Rot2. assert (Ec : c = fft_inverse Y); [|by rewrite <- Ec in HY].
  destruct (decide (c = [])) as [->|Hne].
  { destruct Y; [|destruct Rot2 as [E _]; rewrite map_length, HlX in E; done]. by destruct HF as (_ & -> & _). }
  assert (Hn : length c <> 0%nat) by (by destruct c).
  assert (EY : Y = map (rscale (1 / INR (length c))) (fft_forward c)).
  { apply rotated_back with (length c / 2)%nat (length c - length c / 2)%nat (map (rscale (1 / INR (length c))) X).
    - by apply rotated_map.
    - exact Rot2.
    - intros E. apply (f_equal length) in E. rewrite map_length, Hlf in E. cbn in E. lia.
    - rewrite map_length, Hlf. apply halves. }
  destruct HF as (HF1 & HF2 & _). rewrite HF2, EY, HF1, dft_scale, (dft_dft (-1) 1) by (auto || done). symmetry. by apply scale_back.
Qed.

Theorem plain_fft_ifft b (v : dvec R) c : cplx v c -> vdomain v = Time -> typed v -> spare b (2 * fft_inplace_scratch_len (length c)) ->
  exists v1 b1 v2 b2, plain_fft b v = Done (v1, b1) /\ plain_ifft b1 v1 = Done (v2, b2) /\
    cplx v2 (map (fun x => (INR (length c) * fst x, INR (length c) * snd x)) c) /\ same_rest v v2.
Proof using HF.
  intros Hv Hd Ht Hb. destruct (plain_fft_any Hlf b v c Hv Hd Ht Hb) as (v1 & b1 & E1 & HX & Hd1 & Hr1 & _ & Ht1 & _ & Hs).
  destruct (plain_ifft_any Hli b1 v1 _ HX Hd1 Ht1) as (v2 & b2 & E2 & HY & Hr2 & _). { rewrite Hlf. by apply Hs. }
  exists v1, b1, v2, b2. split_and!; try done; [|by apply same_rest_trans with v1].
  destruct HF as (HF1 & HF2 & _). rewrite HF2, HF1, (dft_dft (-1) 1) in HY by (auto || done). erewrite map_ext; [exact HY|].
  intros [x y]. unfold cmul. cbn. f_equal; ring.
Qed.

(** Real vectors become complex ones with the same real parts. *)
Theorem fft_ifft_real r addr s sched b (v : dvec R) l : reg_ok r -> elem_aligned r addr -> simd_fits r addr (2 * len v) ->
  reals v l -> l <> [] -> length l <> 1%nat -> vdomain v = Time -> typed v -> lends b v (2 * length l) -> spare b (2 * fft_inplace_scratch_len (length l)) ->
  exists v1 b1 v2 b2, vfft b v = Done (v1, b1) /\ vifft r addr s sched b1 v1 = Done (v2, b2) /\ cplx v2 (map (fun x => (x, 0)) l).
Proof using HF.
  intros Hr Ha Hf Hv Hne Hl1 Hd Ht Hb Hb2.
  destruct (fft_any_real Hlf b v l Hv Hne Hd Ht Hb Hb2) as (v1 & b1 & X & E1 & HX & Rot & Hd1 & _ & Ht1 & _ & Hs).
  set (c := map (fun x : R => (x, n0)) l) in *. assert (Hlc : length c = length l) by apply map_length.
  assert (HlX : length X = length c). { destruct Rot as [E _]. by rewrite E, Hlf. }
  destruct (ifft_any Hli r addr s sched b1 v1 X Hr Ha) as (v2 & b2 & Y & E2 & HY & Rot2 & Hr2 & _).
  { rewrite (reals_len v1 _ (proj2 HX)), complex_to_array_length, HlX, Hlc. by rewrite (reals_len v _ (proj2 Hv)) in Hf. }
  { done. } { by rewrite HlX, Hlc. } { done. } { done. } { rewrite HlX, Hlc. by apply Hs. }
  exists v1, b1, v2, b2. split_and!; try done.
  rewrite HlX in Rot2. assert (Ec : c = fft_inverse Y); [|by rewrite <- Ec in HY].
  assert (Hn : length c <> 0%nat) by (rewrite Hlc; by destruct l).
  assert (EY : Y = map (rscale (1 / INR (length c))) (fft_forward c)).
  { apply rotated_back with (length c / 2)%nat (length c - length c / 2)%nat (map (rscale (1 / INR (length c))) X).
    - apply rotated_map. by rewrite Hlc.
    - exact Rot2.
    - intros E. apply (f_equal length) in E. rewrite map_length, Hlf in E. cbn in E. lia.
    - rewrite map_length, Hlf. apply halves. }
  destruct HF as (HF1 & HF2 & _). rewrite HF2, EY, HF1, dft_scale, (dft_dft (-1) 1) by (auto || done). symmetry. by apply scale_back.
Qed.
End real.
