(** What is in the buffer afterwards, and matrices which show its content *)
From Verif Require Import Proof_Base Proof_Vec Proof_Frame Proof_FrameB Proof_MatConv.
From Verif Require Export Spec_BufferUse.
From stdpp Require Import list list_numbers tactics.
From Verif Require Import Model_Chunk Model_Reorg.

Section swap.
Context {A : Type} `{Num A} `{Flt A} `{Rem A} `{Trig A} `{Math A} `{F : Fft A} `{RA : Rounding A}.

Lemma zero_pad_swap (v w : dvec A) t b n o res : len v < (if is_complex v then 2 * n else n) ->
  zero_pad_b n0 (SingleBuffer t) v n o = Done (w, b, res) -> b = SingleBuffer (elems v) /\ res = Ok tt.
Proof.
  intros Hl E. unfold zero_pad_b in E. cbv zeta in E. destruct (Nat.leb_spec (if is_complex v then 2 * n else n) (len v)) as [G|_]; [lia|].
  apply bind_Done_inv in E as (x & _ & E). apply bind_Done_inv in E as (y & _ & E). cbn [trade] in E. by injection E as _ <- <-.
Qed.
Lemma zero_interleave_swap (v w : dvec A) t b k : 1 < k -> zero_interleave_b n0 (SingleBuffer t) v k = Done (w, b) -> b = SingleBuffer (elems v).
Proof.
  intros Hl E. unfold zero_interleave_b in E. cbv zeta in E. destruct (Nat.leb_spec k 1) as [G|_]; [lia|].
  apply bind_Done_inv in E as (x & _ & E). apply bind_Done_inv in E as (y & _ & E). apply bind_Done_inv in E as (z & _ & E). apply bind_Done_inv in E as (q & _ & E).
  cbn [trade] in E. by injection E as _ <-.
Qed.
Lemma pure_swap s sched t op c (v w : dvec A) b : pure_complex_to_real_operation n0 s sched (SingleBuffer t) op c v = Done (w, b) -> b = SingleBuffer (elems v).
Proof.
  intros E. unfold pure_complex_to_real_operation in E. cbv zeta in E. do 5 (apply bind_Done_inv in E as (? & _ & E)). cbn [trade] in E. by injection E as _ <-.
Qed.
Lemma simd_swap r addr s sched t sop op c (v w : dvec A) b : simd_complex_to_real_operation r addr n0 s sched (SingleBuffer t) sop op c v = Done (w, b) -> b = SingleBuffer (elems v).
Proof.
  intros E. unfold simd_complex_to_real_operation in E. cbv zeta in E.
  repeat (apply bind_Done_inv in E as ([] & _ & E) || apply bind_Done_inv in E as (? & _ & E)); cbn [trade] in E; by injection E as _ <-.
Qed.

Theorem swapped e fits i (u : use A) (v w : dvec A) t b res : swaps u v -> with_buffer e fits i u (SingleBuffer t) v = Done (w, b, res) ->
  b = SingleBuffer (elems v) /\ res = Ok tt.
Proof.
  intros Hs E. destruct u as [op|op|op|op|o|o|n o|k|n|f]; cbn [swaps with_buffer] in *; try done.
  - apply bind_Done_inv in E as ([w' b'] & E & E'). injection E' as _ <- <-. split; [|done].
    destruct op; cbn [vec_buffered] in E; try done.
    + unfold magnitude_b, complex_to_real_simd_b in E. rewrite Hs in E. cbn [negb] in E. apply bind_Done_inv in E as ([w2 b2] & E & E'). injection E' as _ <-. exact (simd_swap _ _ _ _ _ _ _ _ _ _ _ E).
    + unfold magnitude_squared_b, complex_to_real_simd_b in E. rewrite Hs in E. cbn [negb] in E. apply bind_Done_inv in E as ([w2 b2] & E & E'). injection E' as _ <-. exact (simd_swap _ _ _ _ _ _ _ _ _ _ _ E).
    + unfold to_real_b, complex_to_real_b in E. rewrite Hs in E. cbn [negb] in E. apply bind_Done_inv in E as ([w2 b2] & E & E'). injection E' as _ <-. exact (pure_swap _ _ _ _ _ _ _ _ E).
    + unfold to_imag_b, complex_to_real_b in E. rewrite Hs in E. cbn [negb] in E. apply bind_Done_inv in E as ([w2 b2] & E & E'). injection E' as _ <-. exact (pure_swap _ _ _ _ _ _ _ _ E).
    + unfold phase_b, complex_to_real_b in E. rewrite Hs in E. cbn [negb] in E. apply bind_Done_inv in E as ([w2 b2] & E & E'). injection E' as _ <-. exact (pure_swap _ _ _ _ _ _ _ _ E).
    + unfold to_complex_b in E. rewrite Hs in E. apply bind_Done_inv in E as ([w2 b2] & E & E'). injection E' as _ <-. assert (G2 : 1 < 2) by lia. exact (zero_interleave_swap _ _ _ _ _ G2 E).
  - exact (zero_pad_swap _ _ _ _ _ _ _ Hs E).
  - apply bind_Done_inv in E as ([w' b'] & E & E'). injection E' as _ <- <-. split; [|done]. exact (zero_interleave_swap _ _ _ _ _ Hs E).
Qed.

(** A matrix which is convolved with no impulse response at all becomes the content of the buffer. *)
Theorem convolve_with_nothing (m : list (dvec A)) n t : Forall (fun v => valid_len v = n /\ n <= alloc_len v) m -> length t = n * length m ->
  exists m' b', mat_convolve_signal (SingleBuffer t) m [] = Done (m', b', Ok tt) /\
    Forall2 (fun v w => same_meta v w /\ same_rest v w) m m' /\ forall i w, m' !! i = Some w -> vdata w = Done (take n (drop (i * n) t)).
Proof.
  intros Hm Ht. unfold mat_convolve_signal. cbv zeta. cbn [borrow]. rewrite bind_Done.
  assert (Hrl : m <> [] -> row_len m = n). { destruct m; [done|]. intros _. inversion Hm as [|? ? [E _] _]. subst. done. }
  assert (HR : resized n0 t (row_len m * length m) = t).
  { unfold resized. destruct m as [|v m]; [cbn in *; rewrite Nat.mul_0_r in Ht; by destruct t|]. rewrite (Hrl ltac:(done)), <- Ht, firstn_all, Nat.sub_diag, app_nil_r. done. }
  rewrite HR. unfold mat_convolve_loop. rewrite bind_Done. unfold rows_each.
  assert (Hrow : forall i v, m !! i = Some v -> valid_len v = n /\ n <= alloc_len v /\ row_len m = n /\ (i + 1) * n <= length t).
  { intros i v Hi. destruct (Forall_lookup_1 _ _ _ _ Hm Hi) as [E1 E2]. split_and!; [done|done|apply Hrl; by intros ->|]. apply lookup_lt_Some in Hi. nia. }
  rewrite (rows_each_from_lookup 0 _ m (fun i v => set_elems v (take n (drop (i * n) t) ++ drop n (elems v)))).
  - rewrite bind_Done. eexists _, _. split; [reflexivity|]. split.
    + apply Forall2_same_length_lookup_2; [by rewrite imap_length|]. intros i v w Hv Hw. rewrite list_lookup_imap, Hv in Hw. injection Hw as <-.
      destruct (Hrow i v Hv) as (E1 & E2 & _ & E4). unfold alloc_len, s_len, elems in *. split; [done|]. unfold same_rest, elems. cbn [valid_len data set_elems s_kind s_cap s_elems]. split_and!; try done. rewrite E1. cbn. apply drop_app_alt. rewrite take_length, drop_length. cbn. lia.
    + intros i w Hw. rewrite list_lookup_imap in Hw. destruct (m !! i) as [v|] eqn:Hv; [|done]. injection Hw as <-.
      destruct (Hrow i v Hv) as (E1 & E2 & _ & E4). unfold alloc_len, s_len, elems in *. change (slice (take n (drop (i * n) t) ++ drop n (s_elems (data v))) 0 (valid_len v) = Done (take n (drop (i * n) t))).
      assert (HL : length (take n (drop (i * n) t)) = n) by (rewrite take_length, drop_length; lia).
      rewrite slice_Done; [|lia|rewrite E1, app_length; lia]. rewrite E1, drop_0, Nat.sub_0_r, take_app_alt by done. done.
  - intros i v Hv. destruct (Hrow i v Hv) as (E1 & E2 & E3 & E4). rewrite Nat.add_0_l, E3. unfold vdata, alloc_len, s_len, elems in *. rewrite E1.
    rewrite (slice_Done (s_elems (data v)) 0 n) by lia. rewrite bind_Done. rewrite (slice_Done t (i * n) ((i + 1) * n)) by lia. rewrite bind_Done.
    replace ((i + 1) * n - i * n) with n by lia. rewrite copy_into_Done; [|lia|lia|rewrite take_length, drop_length; lia]. rewrite bind_Done. done.
Qed.
End swap.
