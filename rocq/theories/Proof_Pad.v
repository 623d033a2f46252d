From Verif Require Export Proof_Reorg.

Ltac msteps := repeat first [rewrite bind_Done | rewrite usub_Done by lia].

(** ** Element level: the storage is [l ++ m ++ r], [l] being the old data and [l ++ m] the new valid part. *)

Lemma pad_end {A} (z : A) l m r :
  memzero z (l ++ m ++ r) (length l) (length l + length m) = Done (l ++ replicate (length m) z ++ r).
Proof.
  rewrite memzero_Done by (rewrite ?app_length; lia). f_equal.
  rewrite take_app. f_equal. f_equal; [f_equal; lia|].
  rewrite app_assoc. rewrite <- app_length. by rewrite drop_app.
Qed.

Lemma pad_surround {A} (z : A) l m r left right :
  left + right = length m ->
  (d ← memcpy (l ++ m ++ r) 0 (length l) left;
   d ← (if 0 <? right then s ← usub (length l + length m) right; memzero z d s (length l + length m) else Done d);
   memzero z d 0 left) = Done (replicate left z ++ l ++ replicate right z ++ r).
Proof.
  intros H. rewrite memcpy_Done by (rewrite ?app_length; lia). rewrite bind_Done, Nat.sub_0_r, drop_0, take_app.
  set (D := l ++ m ++ r).
  assert (HD : length D = length l + length m + length r) by (unfold D; rewrite !app_length; lia).
  assert (HDr : drop (length l + length m) D = r).
  { unfold D. rewrite app_assoc, <- app_length. apply drop_app. }
  clearbody D.
  assert (E : (if 0 <? right then s ← usub (length l + length m) right;
       memzero z (take left D ++ l ++ drop (left + length l) D) s (length l + length m)
       else Done (take left D ++ l ++ drop (left + length l) D))
       = Done (take left D ++ l ++ replicate right z ++ r)).
  { destruct (0 <? right) eqn:E0.
    - rewrite usub_Done by lia. rewrite bind_Done, memzero_Done; [|lia|].
      2:{ rewrite !app_length, take_length, drop_length. lia. }
      f_equal. rewrite (app_assoc (take left D) l (drop (left + length l) D)).
      rewrite take_app_alt by (rewrite app_length, take_length; lia).
      rewrite drop_app_ge by (rewrite app_length, take_length; lia).
      rewrite <- app_assoc. f_equal. f_equal. f_equal; [f_equal; lia|].
      rewrite app_length, take_length, drop_drop.
      rewrite <- HDr. f_equal. lia.
    - assert (right = 0) as -> by lia. do 3 f_equal. simpl. rewrite <- HDr. f_equal. lia. }
  rewrite E, bind_Done, memzero_Done; [|lia|].
  2:{ rewrite !app_length, take_length, replicate_length. lia. }
  f_equal. rewrite Nat.sub_0_r. simpl. f_equal. rewrite drop_app_alt by (rewrite take_length; lia). done.
Qed.

Lemma pad_center {A} (z : A) l m r left right :
  left + right = length l ->
  (d ← (if 0 <? right then t ← usub (length l + length m) right; memcpy (l ++ m ++ r) left (left + right) t
        else Done (l ++ m ++ r));
   t ← usub (length l + length m) right;
   memzero z d left t) = Done (take left l ++ replicate (length m) z ++ drop left l ++ r).
Proof.
  intros H. set (D := l ++ m ++ r).
  assert (HD : length D = length l + length m + length r) by (unfold D; rewrite !app_length; lia).
  assert (HDr : drop (length l + length m) D = r).
  { unfold D. rewrite app_assoc, <- app_length. apply drop_app. }
  assert (Htl : take left D = take left l) by (unfold D; rewrite take_app_le by lia; done).
  assert (Hmid : take right (drop left D) = drop left l).
  { unfold D. rewrite drop_app_le by lia. replace right with (length (drop left l)) by (rewrite drop_length; lia). by rewrite take_app. }
  clearbody D.
  destruct (0 <? right) eqn:E0.
  - rewrite usub_Done by lia. rewrite bind_Done, memcpy_Done by lia. rewrite !bind_Done.
    rewrite memzero_Done; [|lia|].
    2:{ rewrite !app_length, !take_length, !drop_length. lia. }
    f_equal. f_equal; [|f_equal].
    + rewrite take_app_le by (rewrite take_length; lia). rewrite take_take. rewrite Nat.min_l by lia. done.
    + f_equal. lia.
    + rewrite drop_app_alt by (rewrite take_length; lia).
      f_equal.
      * replace (left + right - left) with right by lia. done.
      * rewrite <- HDr. f_equal. lia.
  - assert (right = 0) as -> by lia. rewrite bind_Done, usub_Done by lia. rewrite bind_Done, memzero_Done by lia.
    f_equal. rewrite Htl. f_equal. f_equal; [f_equal; lia|].
    rewrite Nat.sub_0_r, HDr. rewrite (drop_ge l) by lia. done.
Qed.

(** The storage after a successful resize to [L] elements. *)
Lemma resize_shape {A} (zero : A) (v v' : dvec A) l L :
  vdata v = Done l -> length l <= L -> resize zero v L = (v', Ok tt) ->
  exists m r, elems v' = l ++ m ++ r /\ length l + length m = L /\ len v' = L /\ same_meta v v'.
Proof.
  intros Hv HL Hr. destruct (resize_cases zero v L) as [[e He]|(v2 & t & He & Hlen & Hm & Ha & Hk & Hel & _)]; [congruence|].
  rewrite He in Hr. injection Hr as <-.
  apply vdata_split in Hv as (r0 & Hr0 & Hn).
  exists (take (L - length l) (r0 ++ replicate t zero)), (drop (L - length l) (r0 ++ replicate t zero)).
  rewrite take_drop, Hel, Hr0, <- app_assoc. split_and!; try done.
  rewrite take_length. unfold alloc_len, s_len in Ha. fold (elems v2) in Ha. rewrite Hel, Hr0, <- app_assoc, app_length in Ha. lia.
Qed.

Lemma zero_pad_real {A} (zero : A) (v : dvec A) p n o :
  reals v p -> length p < n ->
  (exists e, zero_pad zero v n o = Done (v, Err e) /\ resize zero v n = (v, Err e)) \/
  exists v', zero_pad zero v n o = Done (v', Ok tt) /\ same_meta v v' /\
    reals v' (padded zero o ((n - length p) / 2 + 1) n p).
Proof.
  intros [Hc Hv] Hn. unfold zero_pad. rewrite Hc. cbv zeta. rewrite Nat.mul_1_r.
  pose proof (vdata_inv v p Hv) as (Hl & _ & _). unfold len. rewrite Hl.
  destruct (n <=? length p) eqn:E; [lia|].
  destruct (resize zero v n) as [v' [[]|e]] eqn:Er.
  2:{ left. exists e. destruct (resize_cases zero v n) as [[e' He]|(v2 & t & He & _)]; rewrite Er in He; [|discriminate].
      injection He as -> ->. done. }
  right. destruct (resize_shape zero v v' p n Hv ltac:(lia) Er) as (m & r & Hel & HL & Hlen & Hm).
  rewrite Hel.
  assert (Hfin : forall q, length q = n -> exists v'', Done (set_elems v' (q ++ r), Ok tt) = Done (v'', Ok tt) /\ same_meta v v'' /\ reals v'' q).
  { intros q Hq. eexists; split; [done|]. split; [done|]. split.
    - rewrite (same_meta_complex v). + done. + done.
    - eapply vdata_intro; [done|]. unfold len in Hlen. simpl. lia. }
  destruct o; cbn [padded]; unfold zeros.
  - rewrite <- HL, pad_end, bind_Done. rewrite app_assoc.
    replace (length p + length m - length p) with (length m) by lia. apply Hfin.
    rewrite app_length, replicate_length. lia.
  - rewrite usub_Done by lia. rewrite bind_Done, Nat.div_1_r. do 2 (rewrite (usub_Done (n - length p)) by lia; rewrite bind_Done).
    rewrite <- HL. rewrite pad_surround by lia. rewrite bind_Done.
    replace (length p + length m - length p) with (length m) by lia.
    replace (length m - (length m - 1) / 2) with (length m / 2 + 1) by lia.
    replace ((length m - 1) / 2) with (length m - (length m / 2 + 1)) by lia.
    replace (replicate (length m / 2 + 1) zero ++ p ++ replicate (length m - (length m / 2 + 1)) zero ++ r)
      with ((replicate (length m / 2 + 1) zero ++ p ++ replicate (length m - (length m / 2 + 1)) zero) ++ r) by (by rewrite <- !app_assoc).
    apply Hfin. rewrite !app_length, !replicate_length. lia.
  - rewrite !Nat.div_1_r. rewrite (usub_Done (length p)) by lia. rewrite bind_Done.
    rewrite <- HL. rewrite pad_center by lia. rewrite bind_Done.
    replace (length p + length m - length p) with (length m) by lia.
    set (h := length p - length p / 2).
    replace (take h p ++ replicate (length m) zero ++ drop h p ++ r) with ((take h p ++ replicate (length m) zero ++ drop h p) ++ r)
      by (by rewrite <- !app_assoc).
    apply Hfin. rewrite !app_length, take_length, drop_length, replicate_length. lia.
Qed.

Lemma padded_complex {A} (zero : A) o left n (p : list (A * A)) :
  complex_to_array (padded (zero, zero) o left n p) =
  match o with
  | End => complex_to_array p ++ replicate (2 * (n - length p)) zero
  | Surround => replicate (2 * left) zero ++ complex_to_array p ++ replicate (2 * (n - length p - left)) zero
  | Center => take (2 * (length p - length p / 2)) (complex_to_array p) ++ replicate (2 * (n - length p)) zero ++
              drop (2 * (length p - length p / 2)) (complex_to_array p)
  end.
Proof.
  destruct o; unfold padded, zeros; rewrite ?complex_to_array_app, ?complex_to_array_replicate; try done.
  by rewrite complex_to_array_take, complex_to_array_drop.
Qed.

Lemma zero_pad_cplx {A} (zero : A) (v : dvec A) p n o :
  cplx v p -> length p < n ->
  (exists e, zero_pad zero v n o = Done (v, Err e) /\ resize zero v (2 * n) = (v, Err e)) \/
  exists v', zero_pad zero v n o = Done (v', Ok tt) /\ same_meta v v' /\
    cplx v' (padded (zero, zero) o ((n - length p) / 2 + 1) n p).
Proof.
  intros [Hc Hv] Hn. unfold zero_pad. rewrite Hc. cbv zeta. rewrite (Nat.mul_comm n 2).
  set (P := complex_to_array p) in *.
  assert (HP : length P = 2 * length p) by apply complex_to_array_length.
  pose proof (vdata_inv v P Hv) as (Hl & _ & _). unfold len. rewrite Hl, HP.
  destruct (2 * n <=? 2 * length p) eqn:E; [lia|].
  destruct (resize zero v (2 * n)) as [v' [[]|e]] eqn:Er.
  2:{ left. exists e. destruct (resize_cases zero v (2 * n)) as [[e' He]|(v2 & t & He & _)]; rewrite Er in He; [|discriminate].
      injection He as -> ->. done. }
  right. destruct (resize_shape zero v v' P (2 * n) Hv ltac:(lia) Er) as (m & r & Hel & HL & Hlen & Hm).
  rewrite Hel.
  assert (Hfin : forall q, length (complex_to_array q) = 2 * n -> exists v'', Done (set_elems v' (complex_to_array q ++ r), Ok tt) = Done (v'', Ok tt) /\ same_meta v v'' /\ cplx v'' q).
  { intros q Hq. eexists; split; [done|]. split; [done|]. split.
    - rewrite (same_meta_complex v). + done. + done.
    - eapply vdata_intro; [done|]. unfold len in Hlen. simpl. lia. }
  assert (Hmd : length m = 2 * (n - length p)) by lia.
  destruct o.
  - rewrite <- HL, <- HP, pad_end, bind_Done. rewrite app_assoc.
    rewrite Hmd. unfold P. rewrite <- (padded_complex zero End 0 n p). apply Hfin.
    rewrite padded_complex, app_length, replicate_length. fold P. lia.
  - rewrite usub_Done by lia. rewrite bind_Done. replace (2 * n - 2 * length p) with ((n - length p) * 2) by lia.
    rewrite Nat.div_mul by lia. do 2 (rewrite (usub_Done (n - length p)) by lia; rewrite bind_Done).
    set (diff := n - length p) in *.
    replace (diff - (diff - 1) / 2) with (diff / 2 + 1) by lia.
    replace ((diff - 1) / 2) with (diff - (diff / 2 + 1)) by lia.
    rewrite <- HL, <- HP. rewrite pad_surround by lia. rewrite bind_Done.
    rewrite (Nat.mul_comm (diff / 2 + 1) 2), (Nat.mul_comm _ 2).
    replace (replicate (2 * (diff / 2 + 1)) zero ++ P ++ replicate (2 * (diff - (diff / 2 + 1))) zero ++ r)
      with ((replicate (2 * (diff / 2 + 1)) zero ++ P ++ replicate (2 * (diff - (diff / 2 + 1))) zero) ++ r) by (by rewrite <- !app_assoc).
    unfold P, diff. rewrite <- (padded_complex zero Surround). apply Hfin.
    rewrite padded_complex. fold P. fold diff. rewrite !app_length, !replicate_length. lia.
  - replace (2 * length p) with (length p * 2) by lia. rewrite Nat.div_mul by lia. rewrite (usub_Done (length p)) by lia. rewrite bind_Done.
    rewrite <- HL. rewrite pad_center by lia. rewrite bind_Done.
    rewrite (Nat.mul_comm (length p - length p / 2) 2), Hmd.
    set (h := length p - length p / 2).
    replace (take (2 * h) P ++ replicate (2 * (n - length p)) zero ++ drop (2 * h) P ++ r)
      with ((take (2 * h) P ++ replicate (2 * (n - length p)) zero ++ drop (2 * h) P) ++ r)
      by (by rewrite <- !app_assoc).
    unfold P, h. rewrite <- (padded_complex zero Center 0 n p).
    apply Hfin. rewrite padded_complex. fold h. fold P. rewrite !app_length, take_length, drop_length, replicate_length. lia.
Qed.

Lemma zero_pad_too_small {A} (zero : A) (v : dvec A) n o :
  wf v -> n <= points v -> zero_pad zero v n o = Done (v, Err InvalidArgumentLength).
Proof.
  intros [_ Hw] Hn. unfold zero_pad, points, len in *.
  destruct (is_complex v) eqn:E; cbv zeta.
  - specialize (Hw eq_refl). apply Nat.even_spec in Hw as [k Hk].
    destruct (n * 2 <=? valid_len v) eqn:E2; [done|lia].
  - destruct (n * 1 <=? valid_len v) eqn:E2; [done|lia].
Qed.
