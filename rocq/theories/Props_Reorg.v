(** Property theorems: reordering and padding of data (C05 - C11). [reals v l] and [cplx v c] say that the vector is real / complex with
    the readable points [l] / [c]; see Spec.v. *)
From Verif Require Import Nums Spec Proof_ReorgMore Proof_ReorgDiff Proof_Outside.

(** ** C05: zero_pad places the data and zeros where documented *)

(** Either the storage can not be resized, which is reported without modification, or the vector has exactly [n] points in the layout
    [padded]. [left], the number of zeros in front for [Surround], is [diff / 2 + 1]. *)
Theorem C05_zero_pad_real : forall {A} (zero : A) (v : dvec A) p n o,
  reals v p -> length p < n ->
  (exists e, zero_pad zero v n o = Done (v, Err e) /\ resize zero v n = (v, Err e)) \/
  exists v', zero_pad zero v n o = Done (v', Ok tt) /\ same_meta v v' /\
    reals v' (padded zero o ((n - length p) / 2 + 1) n p).
Proof. exact @zero_pad_real. Qed.
Print Assumptions C05_zero_pad_real.
Theorem C05_zero_pad_complex : forall {A} (zero : A) (v : dvec A) p n o,
  cplx v p -> length p < n ->
  (exists e, zero_pad zero v n o = Done (v, Err e) /\ resize zero v (2 * n) = (v, Err e)) \/
  exists v', zero_pad zero v n o = Done (v', Ok tt) /\ same_meta v v' /\
    cplx v' (padded (zero, zero) o ((n - length p) / 2 + 1) n p).
Proof. exact @zero_pad_cplx. Qed.
Print Assumptions C05_zero_pad_complex.
Theorem C05_zero_pad_too_small : forall {A} (zero : A) (v : dvec A) n o,
  wf v -> n <= points v -> zero_pad zero v n o = Done (v, Err InvalidArgumentLength).
Proof. exact @zero_pad_too_small. Qed.
Print Assumptions C05_zero_pad_too_small.

Example C05_example : (* two points padded to five, all three layouts *)
  let v := DVec (Storage KVec 4 [1; 2; 3; 4]%Z) 1%Z DTime NComplex 4 in
  cplx v [(1, 2); (3, 4)]%Z /\
  (exists v', zero_pad 0%Z v 5 End = Done (v', Ok tt) /\ vdata v' = Done [1; 2; 3; 4; 0; 0; 0; 0; 0; 0]%Z) /\
  (exists v', zero_pad 0%Z v 5 Surround = Done (v', Ok tt) /\ vdata v' = Done [0; 0; 0; 0; 1; 2; 3; 4; 0; 0]%Z) /\
  (exists v', zero_pad 0%Z v 5 Center = Done (v', Ok tt) /\ vdata v' = Done [1; 2; 0; 0; 0; 0; 0; 0; 3; 4]%Z).
Proof. vm_compute. split_and!; try done; eexists; done. Qed.

(** Surround is not balanced: with an even number of zeros to place one more goes to the front and one less to the end than would be balanced. *)
Theorem C05_surround_unbalanced : forall {A} (zero : A) (v : dvec A) p n k,
  reals v p -> n = length p + 2 * k -> 0 < k -> can_hold (data v) n ->
  exists v', zero_pad zero v n Surround = Done (v', Ok tt) /\ reals v' (zeros zero (k + 1) ++ p ++ zeros zero (k - 1)).
Proof. exact @surround_even. Qed.
Print Assumptions C05_surround_unbalanced.
Example C05_unbalanced_example : let v := DVec (Storage KVec 2 [1; 2]%Z) 1%Z DTime NReal 2 in
  reals v [1; 2]%Z /\ 4 = length [1; 2]%Z + 2 * 1 /\ can_hold (data v) 4 /\
  exists v', zero_pad 0%Z v 4 Surround = Done (v', Ok tt) /\ vdata v' = Done [0; 0; 1; 2]%Z.
Proof. vm_compute. split_and!; try done. eexists. done. Qed.

(** The buffered variant puts [(diff + 1) / 2] zeros in front, which is balanced. *)
Theorem C05_zero_pad_b_real : forall {A} (zero : A) b (v : dvec A) p n o,
  reals v p -> length p < n -> lends b v n -> o <> Center ->
  exists v' b', zero_pad_b zero b v n o = Done (v', b', Ok tt) /\ same_meta v v' /\
    reals v' (padded zero o ((n - length p + 1) / 2) n p).
Proof. exact @zero_pad_b_real. Qed.
Print Assumptions C05_zero_pad_b_real.
Theorem C05_zero_pad_b_complex : forall {A} (zero : A) b (v : dvec A) p n o,
  cplx v p -> length p < n -> lends b v (2 * n) -> o <> Center ->
  exists v' b', zero_pad_b zero b v n o = Done (v', b', Ok tt) /\ same_meta v v' /\
    cplx v' (padded (zero, zero) o ((n - length p + 1) / 2) n p).
Proof. exact @zero_pad_b_cplx. Qed.
Print Assumptions C05_zero_pad_b_complex.
Theorem C05_zero_pad_b_too_small : forall {A} (zero : A) b (v : dvec A) n o,
  wf v -> n <= points v -> zero_pad_b zero b v n o = Done (v, b, Err InvalidArgumentLength).
Proof. exact @zero_pad_b_too_small. Qed.
Print Assumptions C05_zero_pad_b_too_small.
(** Center: with [h] the larger half of the points, the last [h] points of the gap are not cleared but show what the buffer lends ([old]); if
    the gap is smaller than [h] the call panics. *)
Theorem C05_zero_pad_b_center_real : forall {A} (zero : A) b (v : dvec A) p n old,
  length p < n -> let h := length p - length p / 2 in let gap := n - length p in
  reals v p -> lends b v n -> borrow zero b n = Done old ->
  (gap < h -> zero_pad_b zero b v n Center = Panicked) /\
  (h <= gap -> exists v' b', zero_pad_b zero b v n Center = Done (v', b', Ok tt) /\ same_meta v v' /\
     reals v' (take h p ++ zeros zero (gap - h) ++ take h (drop gap old) ++ drop h p)).
Proof. exact @zero_pad_b_center. Qed.
Print Assumptions C05_zero_pad_b_center_real.
Theorem C05_zero_pad_b_center_complex : forall {A} (zero : A) b (v : dvec A) p n old,
  length p < n -> let h := length p - length p / 2 in let gap := n - length p in
  cplx v p -> lends b v (2 * n) -> borrow zero b (2 * n) = Done (complex_to_array old) ->
  (gap < h -> zero_pad_b zero b v n Center = Panicked) /\
  (h <= gap -> exists v' b', zero_pad_b zero b v n Center = Done (v', b', Ok tt) /\ same_meta v v' /\
     cplx v' (take h p ++ zeros (zero, zero) (gap - h) ++ take h (drop gap old) ++ drop h p)).
Proof. exact @zero_pad_b_center_cplx. Qed.
Print Assumptions C05_zero_pad_b_center_complex.
Example C05_center_example : let v := DVec (Storage KVec 4 [1; 2; 3; 4]%Z) 1%Z DTime NComplex 4 in
  let b := SingleBuffer [11; 12; 13; 14; 15; 16; 17; 18; 19; 20; 21]%Z in
  cplx v [(1, 2); (3, 4)]%Z /\ lends b v (2 * 5) /\
  borrow 0%Z b (2 * 5) = Done (complex_to_array [(11, 12); (13, 14); (15, 16); (17, 18); (19, 20)]%Z) /\
  exists v' b', zero_pad_b 0%Z b v 5 Center = Done (v', b', Ok tt) /\ cplx v' [(1, 2); (0, 0); (0, 0); (17, 18); (3, 4)]%Z.
Proof. vm_compute. split_and!; try done. eexists _, _. done. Qed.

(** ** C06: buffered and in-place variants agree *)

Theorem C06_zero_pad_agree : forall {A} (zero : A) b (v : dvec A) n o,
  wf v -> o = End \/ (o = Surround /\ Nat.odd (n - points v) = true) ->
  lends b v (if is_complex v then 2 * n else n) ->
  can_hold (data v) (if is_complex v then 2 * n else n) ->
  exists v1 v2 b' r, zero_pad zero v n o = Done (v1, r) /\ zero_pad_b zero b v n o = Done (v2, b', r) /\
    vdata v1 = vdata v2 /\ same_meta v v1 /\ same_meta v v2.
Proof. exact @pad_agree. Qed.
Print Assumptions C06_zero_pad_agree.
(** Center agrees when the buffer lends zeros, as a new buffer does, and the gap is not smaller than the larger half. *)
Theorem C06_center_agree : forall {A} (zero : A) b (v : dvec A) n,
  wf v -> points v < n -> points v - points v / 2 <= n - points v ->
  let w := if is_complex v then 2 else 1 in
  lends b v (w * n) -> can_hold (data v) (w * n) -> borrow zero b (w * n) = Done (zeros zero (w * n)) ->
  exists v1 v2 b', zero_pad zero v n Center = Done (v1, Ok tt) /\ zero_pad_b zero b v n Center = Done (v2, b', Ok tt) /\
    vdata v1 = vdata v2 /\ same_meta v v1 /\ same_meta v v2.
Proof. exact @center_agree. Qed.
Print Assumptions C06_center_agree.
Example C06_center_example : let v := DVec (Storage KVec 3 [1; 2; 3]%Z) 1%Z DTime NReal 3 in
  wf v /\ points v < 5 /\ points v - points v / 2 <= 5 - points v /\ lends NoBuffer v 5 /\ can_hold (data v) 5 /\
  borrow 0%Z NoBuffer 5 = Done (zeros 0%Z 5) /\
  exists v2 b', zero_pad_b 0%Z NoBuffer v 5 Center = Done (v2, b', Ok tt) /\ vdata v2 = Done [1; 2; 0; 0; 3]%Z.
Proof. vm_compute. split_and!; done || lia || (split; [lia|done]) || (eexists _, _; done). Qed.
Theorem C06_zero_interleave_agree : forall {A} (zero : A) b (v : dvec A) f,
  wf v -> len v <> 0 -> 2 <= f -> lends b v (len v * f) -> can_hold (data v) (len v * f) ->
  (is_complex v = true -> Nat.even (alloc_len v) = true) ->
  exists v1 v2 b', zero_interleave zero v f = Done (v1, Ok tt) /\ zero_interleave_b zero b v f = Done (v2, b') /\
    vdata v1 = vdata v2 /\ same_meta v v1 /\ same_meta v v2.
Proof. exact @interleave_agree. Qed.
Print Assumptions C06_zero_interleave_agree.

(** The even Surround case, the Center case and the empty vector differ. *)
Theorem C06_surround_refuted : forall {A} (zero : A) b (v : dvec A) p n k,
  reals v p -> n = length p + 2 * k -> 0 < k -> can_hold (data v) n -> lends b v n ->
  exists v1 v2 b', zero_pad zero v n Surround = Done (v1, Ok tt) /\ zero_pad_b zero b v n Surround = Done (v2, b', Ok tt) /\
    reals v1 (zeros zero (k + 1) ++ p ++ zeros zero (k - 1)) /\ reals v2 (zeros zero k ++ p ++ zeros zero k).
Proof. exact @surround_differs. Qed.
Print Assumptions C06_surround_refuted.
Theorem C06_center_refuted : forall {A} (zero : A) b (v : dvec A) p n old,
  reals v p -> length p < n -> n - length p < length p - length p / 2 -> can_hold (data v) n -> lends b v n -> borrow zero b n = Done old ->
  exists v1, zero_pad zero v n Center = Done (v1, Ok tt) /\ reals v1 (padded zero Center 0 n p) /\ zero_pad_b zero b v n Center = Panicked.
Proof. exact @center_differs. Qed.
Print Assumptions C06_center_refuted.
Example C06_refuted_example : let v := DVec (Storage KVec 3 [1; 2; 3]%Z) 1%Z DTime NReal 3 in
  reals v [1; 2; 3]%Z /\ 5 = length [1; 2; 3]%Z + 2 * 1 /\ 4 - length [1; 2; 3]%Z < length [1; 2; 3]%Z - length [1; 2; 3]%Z / 2 /\
  (forall n, can_hold (data v) n /\ lends NoBuffer v n /\ exists old, borrow 0%Z NoBuffer n = Done old) /\
  (exists v1 v2 b', zero_pad 0%Z v 5 Surround = Done (v1, Ok tt) /\ zero_pad_b 0%Z NoBuffer v 5 Surround = Done (v2, b', Ok tt) /\
     vdata v1 = Done [0; 0; 1; 2; 3]%Z /\ vdata v2 = Done [0; 1; 2; 3; 0]%Z) /\
  zero_pad_b 0%Z NoBuffer v 4 Center = Panicked.
Proof.
  split_and!; try (vm_compute; done); [|eexists _, _, _; vm_compute; done]. intros n. split_and!; try done. by eexists.
Qed.
Theorem C06_interleave_empty_refuted : forall {A} (zero : A) b (v : dvec A) f, reals v [] -> 2 <= f -> lends b v 0 ->
  (exists v1, zero_interleave zero v f = Done (v1, Ok tt)) /\ zero_interleave_b zero b v f = Panicked.
Proof.
  intros A zero b v f Hv Hf Hb. split.
  - destruct (zero_interleave_real zero v [] f Hv ltac:(lia)) as [(e & _ & He)|(v' & E & _)]; [|by exists v'].
    exfalso. unfold resize in He. destruct Hv as [Hc _]. rewrite Hc in He. cbn in He. discriminate.
  - apply interleave_b_empty; try done. destruct Hv as [_ Hv]. by apply vdata_inv in Hv as (Hl & _).
Qed.
Print Assumptions C06_interleave_empty_refuted.

Example C06_example : let v := DVec (Storage KSliceMut 8 [1; 2; 3; 4; 9; 9; 9; 9]%Z) 1%Z DTime NComplex 4 in
  let b := FixedLenBuffer (replicate 9 5%Z) in
  wf v /\ lends b v 8 /\ can_hold (data v) 8 /\
  exists v1 v2 b', zero_interleave 0%Z v 2 = Done (v1, Ok tt) /\ zero_interleave_b 0%Z b v 2 = Done (v2, b') /\
    vdata v1 = Done [1; 2; 0; 0; 3; 4; 0; 0]%Z /\ vdata v2 = vdata v1.
Proof. vm_compute. split_and!; try done; try lia. eexists _, _, _. done. Qed.

(** ** C07: buffers never leak stale data *)

Theorem C07_zero_pad_no_leak : forall {A} (zero : A) b1 b2 (v : dvec A) n o,
  wf v -> o <> Center ->
  lends b1 v (if is_complex v then 2 * n else n) -> lends b2 v (if is_complex v then 2 * n else n) ->
  exists v1 b1' v2 b2' r, zero_pad_b zero b1 v n o = Done (v1, b1', r) /\ zero_pad_b zero b2 v n o = Done (v2, b2', r) /\
    vdata v1 = vdata v2 /\ same_meta v v1 /\ same_meta v v2.
Proof. exact @pad_b_no_leak. Qed.
Print Assumptions C07_zero_pad_no_leak.
Theorem C07_zero_interleave_no_leak : forall {A} (zero : A) b1 b2 (v : dvec A) f,
  wf v -> len v <> 0 -> lends b1 v (len v * f) -> lends b2 v (len v * f) ->
  exists v1 b1' v2 b2', zero_interleave_b zero b1 v f = Done (v1, b1') /\ zero_interleave_b zero b2 v f = Done (v2, b2') /\
    vdata v1 = vdata v2 /\ same_meta v v1 /\ same_meta v v2.
Proof. exact @interleave_b_no_leak. Qed.
Print Assumptions C07_zero_interleave_no_leak.

(** The Center option shows what an earlier operation left in the buffer. *)
Theorem C07_center_refuted : forall {A} (zero x : A) (v : dvec A) p n,
  reals v p -> length p < n -> let h := length p - length p / 2 in let gap := n - length p in h <= gap ->
  exists v' b', zero_pad_b zero (SingleBuffer (replicate n x)) v n Center = Done (v', b', Ok tt) /\
    reals v' (take h p ++ zeros zero (gap - h) ++ replicate h x ++ drop h p).
Proof. exact @center_leaks. Qed.
Print Assumptions C07_center_refuted.
Example C07_center_example : let v := DVec (Storage KVec 2 [1; 2]%Z) 1%Z DTime NReal 2 in
  reals v [1; 2]%Z /\ length [1; 2]%Z - length [1; 2]%Z / 2 <= 6 - length [1; 2]%Z /\
  (exists v' b', zero_pad_b 0%Z (SingleBuffer (replicate 6 0%Z)) v 6 Center = Done (v', b', Ok tt) /\ vdata v' = Done [1; 0; 0; 0; 0; 2]%Z) /\
  exists v' b', zero_pad_b 0%Z (SingleBuffer (replicate 6 77%Z)) v 6 Center = Done (v', b', Ok tt) /\ vdata v' = Done [1; 0; 0; 0; 77; 2]%Z.
Proof. vm_compute. split_and!; try done; try lia; eexists _, _; done. Qed.

Example C07_example : let v := DVec (Storage KVec 2 [1; 2]%Z) 1%Z DTime NReal 2 in
  wf v /\ lends (SingleBuffer [77; 78; 79]%Z) v 5 /\
  exists v1 b1, zero_pad_b 0%Z (SingleBuffer [77; 78; 79]%Z) v 5 Surround = Done (v1, b1, Ok tt) /\ vdata v1 = Done [0; 0; 1; 2; 0]%Z
    /\ b1 = SingleBuffer [1; 2]%Z.
Proof. vm_compute. split_and!; try done. eexists _, _. done. Qed.

(** ** C08: zero_interleave spreads the points *)

Theorem C08_zero_interleave_real : forall {A} (zero : A) (v : dvec A) p f,
  reals v p -> 0 < f ->
  (exists e, zero_interleave zero v f = Done (v, Err e) /\ resize zero v (length p * f) = (v, Err e)) \/
  exists v', zero_interleave zero v f = Done (v', Ok tt) /\ same_meta v v' /\ reals v' (interleaved zero f p).
Proof. exact @zero_interleave_real. Qed.
Print Assumptions C08_zero_interleave_real.
Theorem C08_zero_interleave_complex : forall {A} (zero : A) (v : dvec A) p f,
  cplx v p -> 0 < f -> Nat.even (alloc_len v) = true \/ alloc_len v < 2 * (length p * f) ->
  (exists e, zero_interleave zero v f = Done (v, Err e) /\ resize zero v (2 * (length p * f)) = (v, Err e)) \/
  exists v', zero_interleave zero v f = Done (v', Ok tt) /\ same_meta v v' /\ cplx v' (interleaved (zero, zero) f p).
Proof. exact @zero_interleave_cplx. Qed.
Print Assumptions C08_zero_interleave_complex.
Theorem C08_zero_interleave_b_real : forall {A} (zero : A) b (v : dvec A) p f,
  reals v p -> p <> [] -> 2 <= f -> lends b v (length p * f) ->
  exists v' b', zero_interleave_b zero b v f = Done (v', b') /\ same_meta v v' /\ reals v' (interleaved zero f p).
Proof. exact @zero_interleave_b_real. Qed.
Print Assumptions C08_zero_interleave_b_real.
Theorem C08_zero_interleave_b_complex : forall {A} (zero : A) b (v : dvec A) p f,
  cplx v p -> p <> [] -> 2 <= f -> lends b v (2 * (length p * f)) ->
  exists v' b', zero_interleave_b zero b v f = Done (v', b') /\ same_meta v v' /\ cplx v' (interleaved (zero, zero) f p).
Proof. exact @zero_interleave_b_cplx. Qed.
Print Assumptions C08_zero_interleave_b_complex.

(** [interleaved] is what the property says. *)
Theorem C08_interleaved_meaning : forall {A} (z : A) f p i,
  0 < f -> i < length p * f -> interleaved z f p !! i = if i mod f =? 0 then p !! (i / f) else Some z.
Proof. exact @interleaved_lookup. Qed.
Print Assumptions C08_interleaved_meaning.
Theorem C08_interleaved_length : forall {A} (z : A) f p, 0 < f -> length (interleaved z f p) = length p * f.
Proof. exact @interleaved_length. Qed.
Print Assumptions C08_interleaved_length.

(** A complex vector whose storage has an odd number of elements and needs no more: panic. *)
Theorem C08_odd_storage_refuted : forall {A} (zero : A) (v : dvec A) p f,
  cplx v p -> 0 < f -> Nat.even (alloc_len v) = false -> 2 * (length p * f) <= alloc_len v -> zero_interleave zero v f = Panicked.
Proof. exact @interleave_odd_storage. Qed.
Print Assumptions C08_odd_storage_refuted.

Example C08_odd_example : let v := DVec (Storage KVec 5 [1; 2; 3; 4; 5]%Z) 1%Z DTime NComplex 2 in
  cplx v [(1, 2)]%Z /\ Nat.even (alloc_len v) = false /\ 2 * (length [(1, 2)]%Z * 2) <= alloc_len v /\ zero_interleave 0%Z v 2 = Panicked.
Proof. vm_compute. split_and!; done || lia. Qed.
Example C08_example : let v := DVec (Storage KVec 4 [1; 2; 3; 4]%Z) 1%Z DTime NComplex 4 in
  cplx v [(1, 2); (3, 4)]%Z /\ alloc_len v = 4 /\
  exists v', zero_interleave 0%Z v 3 = Done (v', Ok tt) /\ vdata v' = Done [1; 2; 0; 0; 0; 0; 3; 4; 0; 0; 0; 0]%Z.
Proof. vm_compute. split_and!; try done. eexists. done. Qed.

(** ** C09: reverse reverses points *)

Theorem C09_reverse_real : forall {A} (v : dvec A) l, reals v l ->
  exists v', vreverse v = Done v' /\ reals v' (rev l) /\ same_meta v v' /\ same_rest v v'.
Proof. exact @vreverse_real. Qed.
Print Assumptions C09_reverse_real.
Theorem C09_reverse_complex : forall {A} (v : dvec A) c, cplx v c ->
  exists v', vreverse v = Done v' /\ cplx v' (rev c) /\ same_meta v v' /\ same_rest v v'.
Proof. exact @vreverse_cplx. Qed.
Print Assumptions C09_reverse_complex.
Theorem C09_reverse_involutive : forall {A} (v : dvec A), wf v ->
  exists v1 v2, vreverse v = Done v1 /\ vreverse v1 = Done v2 /\ vdata v2 = vdata v /\ same_meta v v2 /\ same_rest v v2.
Proof. exact @reverse_involutive. Qed.
Print Assumptions C09_reverse_involutive.
Example C09_example : let v := DVec (Storage KVec 7 [1; 2; 3; 4; 5; 6; 7]%Z) 1%Z DTime NComplex 6 in
  cplx v [(1, 2); (3, 4); (5, 6)]%Z /\ exists v', vreverse v = Done v' /\ elems v' = [5; 6; 3; 4; 1; 2; 7]%Z.
Proof. vm_compute. split_and!; try done. eexists. done. Qed.

(** ** C10: swap_halves, fft_shift and ifft_shift are the documented rotations *)

(** [swap_halves] and [fft_shift] ([fwd = true]) move point [i] to position [(i + n/2) mod n]; [ifft_shift] ([fwd = false]) moves it to
    [(i + n - n/2) mod n]. *)
Theorem C10_swap_halves_real : forall {A} (v : dvec A) l, reals v l ->
  exists v' l', swap_halves v = Done v' /\ fft_shift v = Done v' /\ reals v' l' /\ rotated_by (length l / 2) l l' /\ same_meta v v' /\ same_rest v v'.
Proof. exact @swap_halves_real. Qed.
Print Assumptions C10_swap_halves_real.
Theorem C10_swap_halves_complex : forall {A} (v : dvec A) l, cplx v l ->
  exists v' l', swap_halves v = Done v' /\ fft_shift v = Done v' /\ cplx v' l' /\ rotated_by (length l / 2) l l' /\ same_meta v v' /\ same_rest v v'.
Proof. exact @swap_halves_cplx. Qed.
Print Assumptions C10_swap_halves_complex.
Theorem C10_ifft_shift_real : forall {A} (v : dvec A) l, reals v l -> length l <> 1 ->
  exists v' l', ifft_shift v = Done v' /\ reals v' l' /\ rotated_by (length l - length l / 2) l l' /\ same_meta v v' /\ same_rest v v'.
Proof. exact @ifft_shift_real. Qed.
Print Assumptions C10_ifft_shift_real.
Theorem C10_ifft_shift_complex : forall {A} (v : dvec A) l, cplx v l -> length l <> 1 ->
  exists v' l', ifft_shift v = Done v' /\ cplx v' l' /\ rotated_by (length l - length l / 2) l l' /\ same_meta v v' /\ same_rest v v'.
Proof. exact @ifft_shift_cplx. Qed.
Print Assumptions C10_ifft_shift_complex.
Theorem C10_shift_roundtrip : forall {A} (v : dvec A),
  wf v -> points v <> 1 ->
  exists v1 v2, fft_shift v = Done v1 /\ ifft_shift v1 = Done v2 /\ vdata v2 = vdata v /\ same_meta v v2 /\ same_rest v v2.
Proof. exact @shift_roundtrip. Qed.
Print Assumptions C10_shift_roundtrip.

(** One point: [ifft_shift] panics. *)
Theorem C10_single_point_refuted : forall {A} (v : dvec A), wf v -> points v = 1 -> fft_shift v = Done v /\ ifft_shift v = Panicked.
Proof. exact @ifft_shift_single. Qed.
Print Assumptions C10_single_point_refuted.
Example C10_single_example : let v := DVec (Storage KVec 3 [1; 2; 3]%Z) 1%Z DFreq NComplex 2 in wf v /\ points v = 1 /\ ifft_shift v = Panicked.
Proof. vm_compute. split_and!; done || (split; [lia|done]) || lia. Qed.
Example C10_example : let v := DVec (Storage KVec 5 [1; 2; 3; 4; 5]%Z) 1%Z DFreq NReal 5 in
  reals v [1; 2; 3; 4; 5]%Z /\ (exists v', fft_shift v = Done v' /\ vdata v' = Done [4; 5; 1; 2; 3]%Z) /\
  (exists v', ifft_shift v = Done v' /\ vdata v' = Done [3; 4; 5; 1; 2]%Z).
Proof. vm_compute. split_and!; try done; eexists; done. Qed.

(** ** C11: split_into and merge are inverse *)

(** [dealt p parts]: part [j] of [k] consists of the points [j], [j + k], [j + 2k], ... of [p]. *)
(** Real vectors are dealt out with the spare elements of their storage, which get in behind the valid ones of the targets; where the storage
    of a target has no room for them the call panics. *)
Theorem C11_split_real : forall {A} (zero : A) (v : dvec A) ts p,
  reals v p -> ts <> [] -> length p mod length ts = 0 -> Forall (fun t => is_complex t = false) ts ->
  (exists ts' e, split_into zero v ts = Done (ts', Err e) /\ resize_all zero ts (length p / length ts) = (ts', Err e)) \/
  (spare_fits v (length p) ts -> exists ts' parts, split_into zero v ts = Done (ts', Ok tt) /\ Forall2 same_meta ts ts' /\
    Forall2 reals ts' parts /\ dealt p parts) /\
  (spare_lost v (length p) ts -> split_into zero v ts = Panicked).
Proof. exact @split_into_spare. Qed.
Print Assumptions C11_split_real.
Theorem C11_split_complex : forall {A} (zero : A) (v : dvec A) ts p,
  cplx v p -> ts <> [] -> length p mod length ts = 0 ->
  Forall (fun t => is_complex t = true) ts ->
  (exists ts' e, split_into zero v ts = Done (ts', Err e) /\ resize_all zero ts (2 * (length p / length ts)) = (ts', Err e)) \/
  exists ts' parts, split_into zero v ts = Done (ts', Ok tt) /\ Forall2 same_meta ts ts' /\
    Forall2 cplx ts' parts /\ dealt p parts.
Proof. exact @split_into_cplx. Qed.
Print Assumptions C11_split_complex.
Theorem C11_split_rejects : forall {A} (zero : A) (v : dvec A) ts,
  ts = [] \/ len v mod length ts <> 0 -> split_into zero v ts = Done (ts, Err InvalidArgumentLength).
Proof. exact @split_into_bad_length. Qed.
Print Assumptions C11_split_rejects.
Theorem C11_merge_real : forall {A} (zero : A) (v : dvec A) sources parts p,
  is_complex v = false -> sources <> [] -> Forall2 reals sources parts -> dealt p parts ->
  (exists e, vmerge zero v sources = Done (v, Err e) /\ resize zero v (length p) = (v, Err e)) \/
  (spare_fits v (length p) sources -> exists v', vmerge zero v sources = Done (v', Ok tt) /\ same_meta v v' /\ reals v' p) /\
  (spare_lost v (length p) sources -> vmerge zero v sources = Panicked).
Proof. exact @vmerge_spare. Qed.
Print Assumptions C11_merge_real.
(** One of both is the case; without spare elements it is the first. *)
Theorem C11_spare : forall {A} (v : dvec A) from ts, (spare_fits v from ts \/ spare_lost v from ts) /\ (alloc_len v <= from -> spare_fits v from ts).
Proof. intros A v from ts. split; [apply spare_dec|]. intros Hl i t Hi. lia. Qed.
Print Assumptions C11_spare.
Theorem C11_merge_complex : forall {A} (zero : A) (v : dvec A) sources parts p,
  is_complex v = true -> sources <> [] -> Forall2 cplx sources parts -> dealt p parts ->
  (exists e, vmerge zero v sources = Done (v, Err e) /\ resize zero v (2 * length p) = (v, Err e)) \/
  exists v', vmerge zero v sources = Done (v', Ok tt) /\ same_meta v v' /\ cplx v' p.
Proof. exact @vmerge_cplx. Qed.
Print Assumptions C11_merge_complex.
Theorem C11_merge_rejects : forall {A} (zero : A) (v : dvec A) sources,
  sources = [] \/ (exists s s', s ∈ sources /\ s' ∈ sources /\ len s <> len s') ->
  vmerge zero v sources = Done (v, Err InvalidArgumentLength).
Proof. exact @vmerge_mismatch. Qed.
Print Assumptions C11_merge_rejects.
(** Merging what [split_into] made restores the data. *)
Theorem C11_merge_split : forall {A} (zero : A) (v w : dvec A) ts ts',
  wf v -> is_complex w = is_complex v -> s_kind (data w) = KVec ->
  (is_complex v = false -> spare_fits w (len v) ts') ->
  Forall (fun t => is_complex t = is_complex v) ts -> ts <> [] -> points v mod length ts = 0 ->
  split_into zero v ts = Done (ts', Ok tt) ->
  exists w', vmerge zero w ts' = Done (w', Ok tt) /\ vdata w' = vdata v /\ same_meta w w'.
Proof. exact @merge_split_spare. Qed.
Print Assumptions C11_merge_split.

(** With spare storage (as after a shrinking [resize]) the real branches panic. *)
Theorem C11_split_spare_refuted : exists (v t : dvec Z),
  wf v /\ wf t /\ is_complex v = false /\ is_complex t = false /\ points v = 2 /\ split_into 0%Z v [t; t] = Panicked.
Proof.
  exists (DVec (Storage KVec 4 [1; 2; 3; 4]%Z) 1%Z DTime NReal 2), (DVec (Storage KVec 0 []) 1%Z DTime NReal 0).
  vm_compute. split_and!; done || (split; [lia|done]) || lia.
Qed.
Print Assumptions C11_split_spare_refuted.
Theorem C11_merge_spare_refuted : exists (v s : dvec Z),
  wf v /\ wf s /\ is_complex v = false /\ is_complex s = false /\ points s = 1 /\ vmerge 0%Z v [s; s] = Panicked.
Proof.
  exists (DVec (Storage KVec 4 [1; 2; 3; 4]%Z) 1%Z DTime NReal 4), (DVec (Storage KVec 1 [7%Z]) 1%Z DTime NReal 1).
  vm_compute. split_and!; done || (split; [lia|done]) || lia.
Qed.
Print Assumptions C11_merge_spare_refuted.

Example C11_spare_example : let v := DVec (Storage KVec 3 [1; 2; 3]%Z) 1%Z DTime NReal 2 in
  let t := DVec (Storage KVec 2 [8; 9]%Z) 1%Z DTime NReal 0 in let u := DVec (Storage KVec 0 []) 1%Z DTime NReal 0 in
  reals v [1; 2]%Z /\ spare_fits v 2 [t; u] /\ spare_lost v 2 [u; t] /\ split_into 0%Z v [u; t] = Panicked /\
  exists a b, split_into 0%Z v [t; u] = Done ([a; b], Ok tt) /\ reals a [1]%Z /\ reals b [2]%Z.
Proof.
  split_and!; try (vm_compute; done).
  - intros i w. change (2 <= i < 3 -> [DVec (Storage KVec 2 [8; 9]%Z) 1%Z DTime NReal 0; DVec (Storage KVec 0 []) 1%Z DTime NReal 0] !! (i mod 2) = Some w -> i / 2 < alloc_len w).
    intros Hi. assert (i = 2) as -> by lia. intros E. injection E as <-. vm_compute. lia.
  - exists 2. eexists. split; [vm_compute; lia|]. split; [reflexivity|]. vm_compute. lia.
  - eexists _, _. vm_compute. done.
Qed.
Example C11_example : let v := DVec (Storage KVec 4 [1; 2; 3; 4]%Z) 1%Z DTime NReal 4 in
  let t := DVec (Storage KVec 0 []) 1%Z DTime NReal 0 in
  reals v [1; 2; 3; 4]%Z /\ alloc_len v = len v /\
  exists a b, split_into 0%Z v [t; t] = Done ([a; b], Ok tt) /\ vdata a = Done [1; 3]%Z /\ vdata b = Done [2; 4]%Z /\
    exists w, vmerge 0%Z t [a; b] = Done (w, Ok tt) /\ vdata w = vdata v.
Proof. vm_compute. split_and!; try done. eexists _, _. split_and!; try done. eexists. done. Qed.
