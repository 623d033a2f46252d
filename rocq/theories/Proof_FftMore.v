(** More about the transforms: the wrong domain, real spectra, windows, and the mirror. *)
From Verif Require Export Proof_SfftR.
From stdpp Require Import list_numbers.
Local Open Scope nat_scope.

Section any.
Context {A : Type} `{Num A} `{Flt A} `{Rem A} `{Trig A} `{F : Fft A}.

Lemma shift_empty (v : dvec A) : len v = 0 -> fft_shift v = Done v /\ ifft_shift v = Done v.
Proof. intros E. unfold fft_shift, ifft_shift, swap_halves_priv. by rewrite E. Qed.

Theorem fft_wrong b (v : dvec A) : vdomain v <> Time -> typed v ->
  exists v', vfft b v = Done (v', b) /\ poisoned v' /\ is_complex v' = true /\ vdomain v' = Frequency.
Proof.
  intros Hd Ht. destruct (plain_fft_wrong b v Hd Ht) as (v' & E & Hp & K). unfold vfft. rewrite E, bind_Done.
  rewrite (proj1 (shift_empty v' (proj1 Hp))), bind_Done. by exists v'.
Qed.
Theorem ifft_wrong r addr s sched b (v : dvec A) : reg_ok r -> elem_aligned r addr -> simd_fits r addr (len v) -> wf v -> points v <> 1 ->
  vdomain v <> Frequency -> typed v ->
  exists v', vifft r addr s sched b v = Done (v', b) /\ poisoned v' /\ is_complex v' = true.
Proof.
  intros Hr Ha Hf Hwf Hp Hd Ht. unfold vifft. set (k := (n1 / nofnat (points v))%num).
  destruct (scale_real_spec r addr s sched k v Hr Ha Hf) as [Sr Sc].
  destruct (reals_or_cplx v Hwf) as [[l Hv]|[c Hv]].
  - destruct (Sr l Hv) as (w & -> & Hw & (M1 & M2 & M3) & _). rewrite bind_Done.
    destruct (ifft_shift_real w _ Hw) as (w2 & X & -> & HX & _ & (N1 & N2 & N3) & _). { rewrite map_length, <- (points_reals v l Hv). done. } rewrite bind_Done.
    apply plain_ifft_wrong; [unfold vdomain in *; congruence | unfold typed in *; by rewrite N2, N3, M2, M3].
  - destruct (Sc c Hv) as (w & -> & Hw & (M1 & M2 & M3) & _). rewrite bind_Done.
    destruct (ifft_shift_cplx w _ Hw) as (w2 & X & -> & HX & _ & (N1 & N2 & N3) & _). { rewrite map_length, <- (points_cplx v c Hv). done. } rewrite bind_Done.
    apply plain_ifft_wrong; [unfold vdomain in *; congruence | unfold typed in *; by rewrite N2, N3, M2, M3].
Qed.

Theorem mirror_spec b (v : dvec A) c : cplx v c -> c <> [] -> lends b v (2 * (2 * length c - 1)) ->
  exists v' b' c', mirror b v = Done (v', b') /\ cplx v' c' /\ conj_mirrored c c' /\ same_meta v v'.
Proof.
  intros Hv Hc Hb. destruct (mirror_app b v c Hv Hc Hb) as (v' & b' & E & Hv' & M & _). exists v', b', (c ++ rev (map conj1 (tail c))).
  split_and!; try done. by apply mirrored_app.
Qed.
End any.

Section transforms.
Context {A : Type} `{Num A} `{Flt A} `{Rem A} `{Trig A} `{F : Fft A}.
Context (Hlf : forall c, length (fft_forward c) = length c) (Hli : forall c, length (fft_inverse c) = length c).

Theorem plain_ifft_any_real b (v : dvec A) l : reals v l -> l <> [] -> vdomain v = Frequency -> typed v -> lends b v (2 * length l) ->
  spare b (2 * fft_inplace_scratch_len (length l)) ->
  exists v' b', plain_ifft b v = Done (v', b') /\ cplx v' (fft_inverse (map (fun x => (x, n0)) l)) /\
    (runtime v -> vdomain v' = Frequency) /\ (~ runtime v -> vdomain v' = Time).
Proof using Hli.
  intros Hv Hne Hd Ht Hb Hb2. unfold plain_ifft. rewrite Hd, (proj1 Hv). cbn [ddomain_eqb negb]. cbv zeta.
  destruct (zero_interleave_b_real n0 b v l 2 Hv Hne ltac:(lia)) as (v1 & b1 & E1 & (M1 & M2 & M3) & [C1 R1]); [by rewrite Nat.mul_comm|].
  rewrite E1, !bind_Done. apply zero_interleave_b_spare in E1. rewrite interleaved_pairs in R1.
  destruct (run_fft_spec fft_inverse b1 (vec_to_complex v1) (map (fun x => (x, n0)) l)) as (w & b' & -> & Hw & Hr & Hdl & Hns & Hdm & Hs).
  { done. } { apply Hli. } { rewrite map_length. by apply E1. }
  rewrite bind_Done.
  eexists _, _. split; [reflexivity|]. destruct (force_time v w Ht) as (K1 & K2 & K3 & K4 & K5).
  - rewrite Hdm. destruct v1; done.
  - destruct (number_space v1) eqn:En; [right | left; unfold is_complex; rewrite Hns; unfold vec_to_complex; destruct v1; cbn in *; by rewrite En..].
    intros (cc & dd & E & _). congruence.
  - intros (cc & dd & E & _). rewrite <- M3 in E. exists true. rewrite Hns. unfold vec_to_complex. destruct v1; cbn in *. by rewrite E.
  - split_and!; try done. split; [done | by rewrite vdata_force].
Qed.
End transforms.

Local Open Scope R_scope.
Section real.
Context `{F : Fft R} (HF : computes_dft).

(** With a window *)
Theorem windowed_fft_ifft w r addr s sched sched' sched'' b (v : dvec R) c : reg_ok r -> elem_aligned r addr -> simd_fits r addr (len v) ->
  cplx v c -> length c <> 1%nat -> vdomain v = Time -> typed v -> spare b (2 * fft_inplace_scratch_len (length c)) ->
  (w_symmetric w = true -> mirrored (w_fun w) (length c) /\ pairs_up s (length c)) ->
  (w_symmetric w = false -> (0 < length c)%nat \/ no_threads_for_nothing Medium s) ->
  (forall i, (i < length c)%nat -> w_fun w i (length c) <> 0) ->
  exists v1 b1 v2 b2, windowed_fft w s sched b v = Done (v1, b1) /\ windowed_ifft w r addr s sched' sched'' b1 v1 = Done (v2, b2) /\ cplx v2 c.
Proof using HF.
  intros Hr Ha Hf Hv Hl Hd Ht Hb Hs Hn Hw. pose proof (points_cplx v c Hv) as Hp. rewrite <- Hp in Hs, Hn.
  destruct (apply_window_spec w s sched v Hs Hn) as [_ Hc]. destruct (Hc c Hv) as (w1 & c1 & E1 & Hw1 & W1 & (M1 & M2 & M3) & R1).
  assert (Hl1 : length c1 = length c) by apply W1.
  destruct (fft_ifft HF r addr s sched' b w1 c1 Hr Ha) as (v1 & b1 & v2 & b2 & F1 & F2 & Hv2 & R2); try done.
  { by rewrite (len_rest _ _ R1). } { by rewrite Hl1. } { unfold vdomain in *. congruence. } { unfold typed in *. by rewrite M2, M3. } { by rewrite Hl1. }
  unfold windowed_fft. rewrite E1, bind_Done. exists v1, b1. fold (vfft b w1). rewrite F1.
  assert (Hp2 : points v2 = points v) by (rewrite Hp, (points_cplx v2 c1 Hv2); exact Hl1).
  rewrite <- Hp2 in Hs, Hn. destruct (unapply_window_spec w s sched'' v2 Hs Hn) as [_ Hc2].
  destruct (Hc2 c1 Hv2) as (v3 & c3 & E3 & Hv3 & W3 & _). exists v3, b2. split; [done|]. unfold windowed_ifft. rewrite F2, bind_Done, E3, bind_Done. split; [done|].
  apply (windowed_back _ _ c c1 c3) in W3; [by subst | | done].
  intros i [x y] Hi. unfold complex_product. simpl. f_equal; field; by apply Hw.
Qed.
End real.
