(** The transforms of the table of Spec_Named.v *)
From Verif Require Import Props_Par Props_Reorg Props_Window Proof_Window Proof_ElemOps Proof_CorrV Proof_FftMore Proof_SfftR Proof_Dft.
From Verif Require Import Spec_Named.
From Verif Require Import Model_MatOps.
From stdpp Require Import tactics.
Local Open Scope R_scope.
Local Notation C := (R * R)%type.

Section transforms.
Context `{F : Fft R} (HF : computes_dft).
Let Hlf : forall c, length (fft_forward c) = length c. Proof. intros c. destruct HF as (-> & _). apply dft_length. Qed.
Let Hli : forall c, length (fft_inverse c) = length c. Proof. intros c. destruct HF as (_ & -> & _). apply dft_length. Qed.

Lemma ifft_values r addr s sched b (v : dvec R) c : reg_ok r -> elem_aligned r addr -> address_ok r addr v ->
  cplx v c -> vdomain v = Frequency -> typed v -> length c <> 1%nat -> spare b (2 * fft_inplace_scratch_len (length c)) ->
  exists v' b' c1, vifft r addr s sched b v = Done (v', b') /\ cplx v' (dft 1 c1) /\ length c1 = length c /\
    rotated_by (length c - length c / 2) (map (fun z : C => (fst z * (1 / INR (length c)), snd z * (1 / INR (length c)))) c) c1.
Proof using HF.
  intros Hr He Ha Hv Hd Ht H1 Hb.
  assert (Ha2 : half_aligned r addr \/ (len v < (addr mod reg_bytes r) / elem_size r + reg_len r)%nat).
  { destruct Ha as [[h _]|h]; [left; exact h | right; exact h]. }
  unfold vifft. rewrite (points_cplx v c Hv).
  destruct (proj2 (C13_scale_real r addr s sched (n1 / nofnat (length c))%num v Hr He Ha2) c Hv) as (v1 & E1 & D1 & M1 & _).
  rewrite E1, bind_Done.
  destruct (C10_ifft_shift_complex v1 _ D1) as (v2 & c2 & E2 & D2 & Rot & M2 & _).
  { rewrite map_length. exact H1. }
  rewrite E2, bind_Done. rewrite map_length in Rot.
  assert (Hl2 : length c2 = length c). { destruct Rot as [L _]. rewrite L, map_length. reflexivity. }
  destruct M1 as (M1a & M1b & M1c), M2 as (M2a & M2b & M2c).
  assert (Hd2 : vdomain v2 = Frequency) by (unfold vdomain in *; congruence).
  assert (Ht2 : typed v2) by (unfold typed in *; by rewrite M2b, M2c, M1b, M1c).
  destruct (plain_ifft_any Hli b v2 c2 D2 Hd2 Ht2) as (v' & b' & E & D & _); [by rewrite Hl2|].
  exists v', b', c2. split; [exact E|]. split; [|split; [exact Hl2 | exact Rot]].
  destruct HF as (_ & HF2 & _). rewrite HF2 in D. exact D.
Qed.

Theorem transform_values e op i b (v : dvec R) c : row_ready e i v -> typed v -> aligned_all (e_reg e) (e_addr e i) -> transformable e op b v -> cplx v c ->
  exists v' b' c', vec_buffered e op i b v = Done (v', b') /\ cplx v' c' /\ transforms op c c'.
Proof using HF.
  intros (Hr & He & Ha & Hl & Hw) Ht Hal (Hd & Hb & Hx) Hv.
  assert (Hp : points v = length c) by exact (points_cplx v c Hv).
  assert (Hlen : length c <> 0%nat).
  { intros E. apply Hl. rewrite (reals_len v _ (proj2 Hv)), (complex_to_array_length c), E. reflexivity. }
  rewrite Hp in Hb, Hx. pose proof HF as (HF1 & HF2 & _).
  destruct op; cbn [vec_buffered transforms] in *; try (exfalso; exact Hx).
  - destruct (plain_fft_any Hlf b v c Hv Hd Ht Hb) as (v' & b' & E & D & _). rewrite HF1 in D. exists v', b', (dft (-1) c). split; [exact E|]. split; [exact D|reflexivity].
  - destruct (fft_any Hlf b v c Hv Hd Ht Hb) as (v' & b' & X & E & D & Rot & _). rewrite HF1 in Rot. exists v', b', X. split; [exact E|]. split; [exact D|exact Rot].
  - destruct (apply_window_spec w (e_set e) (e_sched e i 0) v) as [_ Hy]; [rewrite Hp; exact Hx|intros _; left; lia|].
    destruct (Hy c Hv) as (v1 & c1 & E1 & D1 & P1 & (M1 & M2 & M3) & _).
    assert (Hl1 : length c1 = length c) by (destruct P1 as [L _]; exact L).
    assert (Hd1 : vdomain v1 = Time) by (unfold vdomain in *; congruence).
    assert (Ht1 : typed v1) by (unfold typed in *; by rewrite M2, M3).
    destruct (fft_any Hlf b v1 c1 D1 Hd1 Ht1) as (v' & b' & X & E & D & Rot & _); [by rewrite Hl1|]. rewrite HF1, Hl1 in Rot.
    exists v', b', X. split.
    + unfold windowed_fft. rewrite E1, bind_Done. unfold vfft in E. exact E.
    + split; [exact D|]. exists c1. split; [exact P1 | exact Rot].
  - destruct (plain_ifft_any Hli b v c Hv Hd Ht Hb) as (v' & b' & E & D & _). rewrite HF2 in D. exists v', b', (dft 1 c). split; [exact E|]. split; [exact D|reflexivity].
  - destruct (ifft_values (e_reg e) (e_addr e i) (e_set e) (e_sched e i 0) b v c Hr He Ha Hv Hd Ht Hx Hb) as (v' & b' & c1 & E & D & _ & Rot).
    exists v', b', (dft 1 c1). split; [exact E|]. split; [exact D|]. exists c1. split; [exact Rot | reflexivity].
  - destruct Hx as [Hx1 Hx2].
    destruct (ifft_values (e_reg e) (e_addr e i) (e_set e) (e_sched e i 0) b v c Hr He Ha Hv Hd Ht Hx1 Hb) as (v1 & b' & c1 & E & D & L & Rot).
    assert (Hp1 : points v1 = length c) by (rewrite (points_cplx v1 _ D), dft_length; exact L).
    destruct (unapply_window_spec w (e_set e) (e_sched e i 1) v1) as [_ Hy]; [rewrite Hp1; exact Hx2|intros _; left; lia|].
    destruct (Hy _ D) as (v' & c' & E1 & D1 & P1 & _).
    exists v', b', c'. split; [|split; [exact D1|]].
    + unfold windowed_ifft. rewrite E, bind_Done, E1, bind_Done. reflexivity.
    + exists c1. split; [exact Rot | exact P1].
  - destruct (prepare_argument_any HF (e_reg e) (e_addr e i) (e_set e) (e_sched e i 0) b v c Hal Hv Hd Ht Hb) as (v' & b' & E & D & _).
    eexists v', b', _. split; [exact E|]. split; [exact D|]. reflexivity.
  - destruct Hb as (Hb1 & Hb2 & Hb3).
    destruct (prepare_argument_padded_any HF (e_reg e) (e_addr e i) (e_set e) (e_sched e i 0) b v c Hal Hv Hb1 Hd Ht Hb2 Hb3) as (v' & b' & E & D & _).
    eexists v', b', _. split; [exact E|]. split; [exact D|]. reflexivity.
Qed.
End transforms.
