(** Proofs for C05 - C07: where the two variants of [zero_pad] differ; C02. *)
From Verif Require Import Nums Spec Proof_ReorgMore Proof_Outside.

Lemma zero_pad_held {A} (zero : A) (v : dvec A) p n o : reals v p -> length p < n -> can_hold (data v) n ->
  exists v', zero_pad zero v n o = Done (v', Ok tt) /\ reals v' (padded zero o ((n - length p) / 2 + 1) n p).
Proof.
  intros Hv Hn Hch. destruct (zero_pad_real zero v p n o Hv Hn) as [(e & _ & Hr)|(v' & E & _ & Hr)]; [|by exists v'].
  exfalso. destruct Hv as [Hc _]. unfold resize in Hr. rewrite Hc in Hr. simpl in Hr. unfold try_resize, can_hold, alloc_len in *.
  destruct (s_kind (data v)); repeat case_match; simplify_eq; lia.
Qed.
Lemma surround_even {A} (zero : A) (v : dvec A) p n k :
  reals v p -> n = length p + 2 * k -> 0 < k -> can_hold (data v) n ->
  exists v', zero_pad zero v n Surround = Done (v', Ok tt) /\ reals v' (zeros zero (k + 1) ++ p ++ zeros zero (k - 1)).
Proof.
  intros Hv Hn Hk Hch. destruct (zero_pad_held zero v p n Surround Hv ltac:(lia) Hch) as (v' & E & Hr). exists v'. split; [exact E|].
  unfold padded in Hr. assert (n - length p = 2 * k) as Hd by lia. rewrite Hd in Hr.
  assert (2 * k / 2 = k) as Hh by lia. rewrite Hh in Hr. assert (2 * k - (k + 1) = k - 1) as He by lia. by rewrite He in Hr.
Qed.
Lemma surround_differs {A} (zero : A) b (v : dvec A) p n k :
  reals v p -> n = length p + 2 * k -> 0 < k -> can_hold (data v) n -> lends b v n ->
  exists v1 v2 b', zero_pad zero v n Surround = Done (v1, Ok tt) /\ zero_pad_b zero b v n Surround = Done (v2, b', Ok tt) /\
    reals v1 (zeros zero (k + 1) ++ p ++ zeros zero (k - 1)) /\ reals v2 (zeros zero k ++ p ++ zeros zero k).
Proof.
  intros Hv Hn Hk Hch Hb. destruct (surround_even zero v p n k Hv Hn Hk Hch) as (v1 & E1 & R1).
  destruct (zero_pad_b_real zero b v p n Surround Hv ltac:(lia) Hb ltac:(discriminate)) as (v2 & b' & E2 & _ & R2).
  exists v1, v2, b'. split_and!; try done. unfold padded in R2. assert (n - length p = 2 * k) as Hd by lia. rewrite Hd in R2.
  assert ((2 * k + 1) / 2 = k) as Hh by lia. rewrite Hh in R2. assert (2 * k - k = k) as He by lia. by rewrite He in R2.
Qed.
Lemma center_differs {A} (zero : A) b (v : dvec A) p n old :
  reals v p -> length p < n -> n - length p < length p - length p / 2 -> can_hold (data v) n -> lends b v n -> borrow zero b n = Done old ->
  exists v1, zero_pad zero v n Center = Done (v1, Ok tt) /\ reals v1 (padded zero Center 0 n p) /\ zero_pad_b zero b v n Center = Panicked.
Proof.
  intros Hv Hn Hg Hch Hb Ho. destruct (zero_pad_held zero v p n Center Hv Hn Hch) as (v1 & E & Hr). exists v1. split_and!; try done.
  exact (proj1 (zero_pad_b_center zero b v p n old Hn Hv Hb Ho) Hg).
Qed.
Lemma center_leaks {A} (zero x : A) (v : dvec A) p n :
  reals v p -> length p < n -> let h := length p - length p / 2 in let gap := n - length p in h <= gap ->
  exists v' b', zero_pad_b zero (SingleBuffer (replicate n x)) v n Center = Done (v', b', Ok tt) /\
    reals v' (take h p ++ zeros zero (gap - h) ++ replicate h x ++ drop h p).
Proof.
  intros Hv Hn h gap Hg.
  assert (Ho : borrow zero (SingleBuffer (replicate n x)) n = Done (replicate n x)).
  { cbn [borrow]. unfold resized. rewrite replicate_length, Nat.sub_diag, take_ge by (rewrite replicate_length; lia). f_equal. apply app_nil_r. }
  destruct (proj2 (zero_pad_b_center zero (SingleBuffer (replicate n x)) v p n _ Hn Hv I Ho) Hg) as (v' & b' & E & _ & Hr).
  exists v', b'. split; [exact E|]. rewrite drop_replicate, take_replicate in Hr.
  assert (h `min` (n - (n - length p)) = h) as Hm by lia. fold h in Hr. by rewrite Hm in Hr.
Qed.

(** A vector which was made shorter and grows again *)
Lemma regrow {A} (zero : A) (v : dvec A) m n : wf v -> m <= n <= alloc_len v -> (is_complex v = true -> Nat.even m = true /\ Nat.even n = true) ->
  exists v1 v2, Model_Vec.resize zero v m = (v1, Ok tt) /\ Model_Vec.resize zero v1 n = (v2, Ok tt) /\
    vdata v1 = Done (take m (elems v)) /\ vdata v2 = Done (take n (elems v)).
Proof.
  intros _ [Hm Hn] He.
  assert (Hr : forall (w : dvec A) k, data w = data v -> is_complex w = is_complex v -> k <= alloc_len v -> (is_complex v = true -> Nat.even k = true) ->
    exists w', Model_Vec.resize zero w k = (w', Ok tt) /\ data w' = data v /\ is_complex w' = is_complex v /\ vdata w' = Done (take k (elems v))).
  { intros w k Hd Hc Hk Hev. unfold Model_Vec.resize.
    assert (is_complex w && Nat.odd k = false) as ->.
    { rewrite Hc. destruct (is_complex v); [|done]. cbn [andb]. rewrite <- Nat.negb_even, (Hev eq_refl). done. }
    assert ((alloc_len w <? k) = false) as Hl. { apply Nat.ltb_ge. unfold alloc_len in *. by rewrite Hd. }
    rewrite Hl. eexists. split; [reflexivity|]. split; [exact Hd|]. split; [exact Hc|].
    unfold vdata, elems, alloc_len, s_len in *. cbn [set_valid_len Model_Vec.data valid_len]. rewrite Hd. rewrite slice_Done by lia. by rewrite drop_0, Nat.sub_0_r. }
  destruct (Hr v m eq_refl eq_refl ltac:(lia) (fun H => proj1 (He H))) as (v1 & E1 & D1 & C1 & V1).
  destruct (Hr v1 n D1 C1 Hn (fun H => proj2 (He H))) as (v2 & E2 & _ & _ & V2). by exists v1, v2.
Qed.
