From Verif Require Export Proof_PadB Proof_Convolve Proof_Fft Proof_Overlap Spec_Interp.
Local Open Scope nat_scope.

Section points.
Context {P : Type}.
Lemma decimate_points_spec (x : list P) k d : 0 < k ->
  exists j l y, decimate_points x (length x) k d = Done (j, l) /\ length l = length x /\ j <= length x /\ y = take j l /\ every k d x y.
Proof.
  intros Hk. unfold decimate_points.
  destruct (while_inv (fun '(i, j, l) => i = d + j * k /\ length l = length x /\ j <= length x /\ (forall q, q < j -> l !! q = x !! (d + q * k)) /\ (forall q, j <= q -> l !! q = x !! q))
    (fun '(i, j, l) => length x - j) (S (length x)) (fun '(i, _, _) => i <? length x)
    (fun '(i, j, l) => x ← rd l i; l ← wr l j x; Done (i + k, j + 1, l)) (d, 0, x)) as ([[i j] l] & E & (Hi & Hl & Hj & H1 & H2) & Hc).
  - split_and!; try done; try lia.
  - lia.
  - intros [[i j] l] (Hi & Hl & Hj & H1 & H2) Hc. apply Nat.ltb_lt in Hc. assert (Hji : j <= i) by nia.
    destruct (lookup_lt_is_Some_2 x i Hc) as [p Hp].
    exists (i + k, j + 1, <[j:=p]> l). split.
    + unfold rd. rewrite H2, Hp, bind_Done by done. rewrite wr_Done by lia. done.
    + split; [|lia]. split_and!; [lia | by rewrite insert_length | lia | |].
      * intros q Hq. destruct (decide (q = j)) as [->|Hne].
        -- rewrite list_lookup_insert by lia. rewrite <- Hp. f_equal. lia.
        -- rewrite list_lookup_insert_ne by done. apply H1. lia.
      * intros q Hq. rewrite list_lookup_insert_ne by lia. apply H2. lia.
  - rewrite E, bind_Done. exists j, l, (take j l). apply Nat.ltb_ge in Hc. split_and!; try done.
    intros q. destruct (decide (q < j)) as [Hq|Hq].
    + rewrite lookup_take by done. by apply H1.
    + rewrite lookup_take_ge by lia. symmetry. apply lookup_ge_None_2. nia.
Qed.

(** A factor of zero never ends: the index of the result runs out of the slice. *)
Lemma decimate_points_zero (x : list P) d : d < length x -> decimate_points x (length x) 0 d = Panicked.
Proof.
  intros Hd. unfold decimate_points.
  assert (Hw : forall fuel j (l : list P), length l = length x ->
    while_ fuel (fun '(i, _, _) => i <? length x) (fun '(i, j, l) => y ← rd l i; l ← wr l j y; Done (i + 0, j + 1, l)) (d, j, l) = Panicked).
  { induction fuel as [|fuel IH]; intros j l Hl; [done|]. cbn [while_]. rewrite (proj2 (Nat.ltb_lt _ _) Hd).
    destruct (lookup_lt_is_Some_2 l d) as [p Hp]; [lia|]. unfold rd. rewrite Hp, bind_Done. unfold wr. destruct (j <? length l) eqn:Ej; [|done].
    rewrite !bind_Done, Nat.add_0_r. apply IH. by rewrite insert_length. }
  by rewrite Hw.
Qed.

Lemma every_unique k d (x y y' : list P) : every k d x y -> every k d x y' -> y = y'.
Proof. intros H1 H2. apply list_eq. intros i. by rewrite H1, H2. Qed.
Lemma every_length k d (x y : list P) : 0 < k -> every k d x y -> length y = (length x - d + (k - 1)) / k.
Proof.
  intros Hk Hy. apply Nat.div_unique with (r := (length x - d + (k - 1)) - k * length y); [|].
  - assert (H1 : y !! length y = None) by (by apply lookup_ge_None_2). rewrite Hy in H1. apply lookup_ge_None_1 in H1.
    destruct (length y) as [|n] eqn:En; [nia|]. assert (Hs : is_Some (y !! n)) by (apply lookup_lt_is_Some_2; lia). rewrite Hy in Hs. apply lookup_lt_is_Some_1 in Hs. nia.
  - assert (H1 : y !! length y = None) by (by apply lookup_ge_None_2). rewrite Hy in H1. apply lookup_ge_None_1 in H1.
    destruct (length y) as [|n] eqn:En; [nia|]. assert (Hs : is_Some (y !! n)) by (apply lookup_lt_is_Some_2; lia). rewrite Hy in Hs. apply lookup_lt_is_Some_1 in Hs. nia.
Qed.
Lemma every_interleaved (zero : P) k x : 0 < k -> every k 0 (interleaved zero k x) x.
Proof.
  intros Hk i. cbn [Nat.add]. destruct (decide (i < length x)) as [Hi|Hi].
  - rewrite interleaved_lookup by nia. rewrite Nat.mod_mul, Nat.div_mul by lia. done.
  - rewrite !lookup_ge_None_2; [done | | lia]. rewrite interleaved_length by done. nia.
Qed.
Lemma every_one (x : list P) : every 1 0 x x.
Proof. intros i. f_equal. lia. Qed.
Lemma every_every k k' d d' (x y z : list P) : every k d x y -> every k' d' y z -> every (k * k') (d + d' * k) x z.
Proof. intros H1 H2 i. rewrite H2, H1. f_equal. nia. Qed.
End points.

Section vectors.
Context {A : Type} `{Num A}.
Theorem decimatei_reals (v : dvec A) x k d : reals v x -> 0 < k ->
  exists v' y, decimatei v k d = Done v' /\ reals v' y /\ every k d x y /\ same_meta v v' /\ alloc_len v' = alloc_len v.
Proof.
  intros [Hc Hv] Hk. unfold decimatei. pose proof (vdata_inv v x Hv) as (Hl & Hle & _). unfold vdata in Hv. unfold len. rewrite Hv, bind_Done, Hc, Hl.
  destruct (decimate_points_spec x k d Hk) as (j & l & y & -> & Hll & Hj & -> & Hy). rewrite bind_Done.
  rewrite splice_Done by lia. rewrite bind_Done, take_0, app_nil_l. eexists _, _. split; [done|]. split_and!; try done.
  - split; [done|]. apply vdata_intro with (r := drop j l ++ drop (0 + length l) (elems v)).
    + cbn. by rewrite app_assoc, take_drop.
    + rewrite take_length_le by lia. done.
  - unfold alloc_len. change (length (l ++ drop (0 + length l) (elems v)) = length (elems v)). rewrite app_length, drop_length. lia.
Qed.
Theorem decimatei_cplx (v : dvec A) x k d : cplx v x -> 0 < k ->
  exists v' y, decimatei v k d = Done v' /\ cplx v' y /\ every k d x y /\ same_meta v v' /\ alloc_len v' = alloc_len v.
Proof.
  intros Hx Hk. pose proof (points_cplx v x Hx) as Hp. destruct Hx as [Hc Hv]. unfold decimatei. pose proof (vdata_inv v _ Hv) as (Hl & Hle & _). rewrite complex_to_array_length in *.
  unfold vdata in Hv. unfold len. rewrite Hv, bind_Done, Hc, array_to_complex_Done, bind_Done, Hp.
  destruct (decimate_points_spec x k d Hk) as (j & l & y & -> & Hll & Hj & -> & Hy). rewrite bind_Done.
  rewrite splice_Done by (rewrite complex_to_array_length; lia). rewrite bind_Done, take_0, app_nil_l. eexists _, (take j l). split; [done|]. split_and!; try done.
  - split; [done|]. apply vdata_intro with (r := complex_to_array (drop j l) ++ drop (0 + length (complex_to_array l)) (elems v)).
    + cbn. by rewrite app_assoc, <- complex_to_array_app, take_drop.
    + rewrite (complex_to_array_length (take j l)), take_length_le by lia. cbn. lia.
  - unfold alloc_len. change (length (complex_to_array l ++ drop (0 + length (complex_to_array l)) (elems v)) = length (elems v)). rewrite app_length, drop_length, complex_to_array_length. lia.
Qed.
Theorem decimatei_zero (v : dvec A) d : wf v -> d < points v -> decimatei v 0 d = Panicked.
Proof.
  intros [Hw He] Hd. change (alloc_len v) with (length (elems v)) in Hw. unfold decimatei. unfold len in *. rewrite slice_Done by lia. rewrite bind_Done, drop_0, Nat.sub_0_r.
  assert (Hl : length (take (valid_len v) (elems v)) = valid_len v) by (rewrite take_length_le by done; done).
  destruct (is_complex v) eqn:Hc.
  - rewrite array_to_complex_even by (rewrite Hl; by apply He). rewrite bind_Done.
    assert (Hlc : length (pairs_of (take (valid_len v) (elems v))) = points v) by (rewrite pairs_of_length, Hl; unfold points; by rewrite Hc).
    rewrite <- Hlc, decimate_points_zero by lia. done.
  - rewrite <- Hl at 2. rewrite decimate_points_zero; [done|]. rewrite Hl. unfold points in Hd. rewrite Hc, Nat.div_1_r in Hd. done.
Qed.
End vectors.
