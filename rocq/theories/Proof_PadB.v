From Verif Require Export Proof_Pad.

Lemma borrow_lends {A} (zero : A) b (v : dvec A) n :
  lends b v n -> exists t, borrow zero b n = Done t /\ length t = n.
Proof.
  destruct b as [temp| |store]; simpl; intros H.
  - eexists; split; [done|]. apply resized_length.
  - eexists; split; [done|]. apply replicate_length.
  - destruct (length store <? n) eqn:E; [lia|]. eexists; split; [done|]. rewrite take_length. lia.
Qed.

Lemma trade_lends {A} b (v : dvec A) target :
  lends b v (length target) -> exists s b' r, trade b target (data v) = (s, b') /\ s_elems s = target ++ r /\ s_kind s = s_kind (data v).
Proof.
  destruct b as [temp| |store]; simpl; intros H.
  - eexists _, _, []. by rewrite app_nil_r.
  - eexists _, _, []. by rewrite app_nil_r.
  - eexists _, _, _. split; [done|]. simpl. unfold alloc_len in H. rewrite Nat.min_r by lia. by rewrite take_ge.
Qed.

Lemma trade_vdata {A} b (v : dvec A) target n :
  lends b v n -> length target = n ->
  exists v' b', (let '(s, b') := trade b target (data v) in (set_valid_len (set_data v s) n, b')) = (v', b') /\
    vdata v' = Done target /\ same_meta v v'.
Proof.
  intros Hl Hn. subst n. destruct (trade_lends b v target Hl) as (s & b' & r & -> & Hs & _).
  eexists _, _. split; [done|]. split; [|done]. eapply vdata_intro; [exact Hs | done].
Qed.

Lemma padb_end {A} (z : A) p T L :
  length T = L -> length p <= L ->
  (t ← copy_into T 0 (length p) p; memzero z t (length p) L) = Done (p ++ replicate (L - length p) z).
Proof.
  intros H1 H2. rewrite copy_into_Done by lia. rewrite bind_Done. rewrite take_0, app_nil_l.
  rewrite memzero_Done; [|lia|rewrite app_length, drop_length; lia]. f_equal.
  rewrite take_app. f_equal. rewrite (drop_ge _ L) by (rewrite app_length, drop_length; lia). apply app_nil_r.
Qed.

Lemma padb_surround {A} (z : A) p T left right :
  length T = left + length p + right ->
  (t ← copy_into T left (left + length p) p;
   t ← (if 0 <? right then s ← usub (left + length p + right) right; memzero z t s (left + length p + right) else Done t);
   memzero z t 0 left) = Done (replicate left z ++ p ++ replicate right z).
Proof.
  intros H1. rewrite copy_into_Done by lia. rewrite bind_Done.
  assert (E : (if 0 <? right then s ← usub (left + length p + right) right;
     memzero z (take left T ++ p ++ drop (left + length p) T) s (left + length p + right)
     else Done (take left T ++ p ++ drop (left + length p) T)) = Done (take left T ++ p ++ replicate right z)).
  { destruct (0 <? right) eqn:E0.
    - rewrite usub_Done by lia. rewrite bind_Done, memzero_Done; [|lia|rewrite !app_length, take_length, drop_length; lia].
      f_equal. rewrite (app_assoc (take left T) p (drop (left + length p) T)).
      rewrite take_app_alt by (rewrite app_length, take_length; lia).
      rewrite (drop_ge _ (left + length p + right)) by (rewrite !app_length, take_length, drop_length; lia).
      rewrite app_nil_r, <- app_assoc. f_equal. f_equal. f_equal. lia.
    - assert (right = 0) as -> by lia. f_equal. f_equal. f_equal. simpl. apply drop_ge. lia. }
  rewrite E, bind_Done, memzero_Done; [|lia|rewrite !app_length, take_length; lia].
  f_equal. rewrite Nat.sub_0_r. simpl. f_equal. by rewrite drop_app_alt by (rewrite take_length; lia).
Qed.

Lemma zero_pad_b_real {A} (zero : A) b (v : dvec A) p n o :
  reals v p -> length p < n -> lends b v n -> o <> Center ->
  exists v' b', zero_pad_b zero b v n o = Done (v', b', Ok tt) /\ same_meta v v' /\
    reals v' (padded zero o ((n - length p + 1) / 2) n p).
Proof.
  intros [Hc Hv] Hn Hb Ho. unfold zero_pad_b. rewrite Hc. cbv zeta.
  pose proof (vdata_inv v p Hv) as (Hl & _ & _). unfold len. rewrite Hl.
  destruct (n <=? length p) eqn:E; [lia|].
  destruct (borrow_lends zero b v n Hb) as (T & -> & HT). rewrite bind_Done.
  assert (Hsl : slice (elems v) 0 (length p) = Done p) by (unfold vdata in Hv; rewrite Hl in Hv; done).
  assert (Hfin : forall q, length q = n -> exists v' b', (let '(s, b') := trade b q (data v) in
     Done (set_valid_len (set_data v s) n, b', Ok tt)) = Done (v', b', Ok tt) /\ same_meta v v' /\ reals v' q).
  { intros q Hq. destruct (trade_vdata b v q n Hb Hq) as (v' & b' & H1 & H2 & H3).
    exists v', b'. destruct (trade b q (data v)) as [s b2]. apply pair_equal_spec in H1 as [<- <-]. split_and!; done. }
  destruct o; [| |done].
  - rewrite Hsl, bind_Done. rewrite padb_end by lia. rewrite bind_Done. apply Hfin.
    unfold padded, zeros; rewrite app_length, replicate_length. lia.
  - rewrite usub_Done by lia. rewrite bind_Done, Nat.div_1_r. rewrite (usub_Done (n - length p)) by lia. rewrite bind_Done.
    rewrite Hsl, bind_Done.
    set (diff := n - length p) in *. set (right := diff / 2). set (left := diff - right).
    assert (Hnn : n = left + length p + right) by lia.
    pose proof (padb_surround zero p T left right ltac:(lia)) as HS. rewrite <- Hnn in HS. rewrite HS, bind_Done. clear HS.
    unfold padded, zeros. fold diff. replace ((diff + 1) / 2) with left by lia. replace (diff - left) with right by lia.
    apply Hfin. rewrite !app_length, !replicate_length. lia.
Qed.

Lemma zero_pad_b_cplx {A} (zero : A) b (v : dvec A) p n o :
  cplx v p -> length p < n -> lends b v (2 * n) -> o <> Center ->
  exists v' b', zero_pad_b zero b v n o = Done (v', b', Ok tt) /\ same_meta v v' /\
    cplx v' (padded (zero, zero) o ((n - length p + 1) / 2) n p).
Proof.
  intros [Hc Hv] Hn Hb Ho. unfold zero_pad_b. rewrite Hc. cbv zeta.
  set (P := complex_to_array p) in *.
  assert (HP : length P = 2 * length p) by apply complex_to_array_length.
  pose proof (vdata_inv v P Hv) as (Hl & _ & _). unfold len. rewrite Hl.
  destruct (2 * n <=? length P) eqn:E; [lia|].
  destruct (borrow_lends zero b v (2 * n) Hb) as (T & -> & HT). rewrite bind_Done.
  assert (Hsl : slice (elems v) 0 (length P) = Done P) by (unfold vdata in Hv; rewrite Hl in Hv; done).
  assert (Hfin : forall q, length (complex_to_array q) = 2 * n -> exists v' b', (let '(s, b') := trade b (complex_to_array q) (data v) in
     Done (set_valid_len (set_data v s) (2 * n), b', Ok tt)) = Done (v', b', Ok tt) /\ same_meta v v' /\ cplx v' q).
  { intros q Hq. destruct (trade_vdata b v _ _ Hb Hq) as (v' & b' & H1 & H2 & H3).
    exists v', b'. destruct (trade b _ (data v)) as [s b2]. apply pair_equal_spec in H1 as [<- <-]. split_and!; done. }
  destruct o; [| |done].
  - rewrite Hsl, bind_Done. rewrite padb_end by lia. rewrite bind_Done.
    replace (2 * n - length P) with (2 * (n - length p)) by lia. unfold P. rewrite <- (padded_complex zero End ((n - length p + 1) / 2)). apply Hfin.
    rewrite padded_complex, app_length, replicate_length. fold P. lia.
  - rewrite usub_Done by lia. rewrite bind_Done.
    replace ((2 * n - length P) / 2) with (n - length p) by lia.
    rewrite (usub_Done (n - length p)) by lia. rewrite bind_Done. rewrite Hsl, bind_Done.
    set (diff := n - length p) in *. set (right := diff / 2). set (left := diff - right).
    assert (Hnn : 2 * n = left * 2 + length P + right * 2) by lia.
    pose proof (padb_surround zero P T (left * 2) (right * 2) ltac:(lia)) as HS. rewrite <- Hnn in HS. rewrite HS, bind_Done. clear HS.
    replace ((diff + 1) / 2) with left by lia.
    rewrite (Nat.mul_comm left), (Nat.mul_comm right).
    replace (2 * right) with (2 * (n - length p - left)) by lia.
    unfold P. rewrite <- (padded_complex zero Surround).
    apply Hfin. rewrite padded_complex. fold P. rewrite !app_length, !replicate_length. lia.
Qed.

Lemma zero_pad_b_too_small {A} (zero : A) b (v : dvec A) n o :
  wf v -> n <= points v -> zero_pad_b zero b v n o = Done (v, b, Err InvalidArgumentLength).
Proof.
  intros [_ Hw] Hn. unfold zero_pad_b, points, len in *.
  destruct (is_complex v) eqn:E; cbv zeta.
  - specialize (Hw eq_refl). apply Nat.even_spec in Hw as [k Hk].
    destruct (2 * n <=? valid_len v) eqn:E2; [done|lia].
  - destruct (n <=? valid_len v) eqn:E2; [done|lia].
Qed.

(** Center: everything except the gap is right; the gap is only zeroed up to [L - len_before]. *)
Lemma zero_pad_b_center_real {A} (zero : A) (v : dvec A) p n :
  reals v p -> length p < n -> length p - length p / 2 <= n - length p ->
  exists v' b', zero_pad_b zero NoBuffer v n Center = Done (v', b', Ok tt) /\ same_meta v v' /\
    reals v' (padded zero Center 0 n p).
Proof.
  intros [Hc Hv] Hn Hgap. unfold zero_pad_b. rewrite Hc. cbv zeta.
  pose proof (vdata_inv v p Hv) as (Hl & Hel & Htk). unfold len. rewrite Hl.
  destruct (n <=? length p) eqn:E; [lia|]. unfold borrow. rewrite bind_Done, Nat.div_1_r.
  rewrite (usub_Done (length p)) by lia. rewrite bind_Done.
  set (right := length p / 2) in *. set (left := length p - right) in *.
  rewrite (usub_Done n right) by lia. rewrite bind_Done. rewrite bind_Done.
  assert (Hs1 : slice (elems v) (length p - right) (length p) = Done (drop left p)).
  { rewrite slice_Done by lia. f_equal. fold left.
    transitivity (drop left (take (length p) (elems v))); [by rewrite skipn_firstn_comm | by rewrite Htk]. }
  assert (Hs2 : slice (elems v) 0 left = Done (take left p)).
  { rewrite slice_Done by lia. f_equal. rewrite Nat.sub_0_r, drop_0.
    transitivity (take left (take (length p) (elems v))); [rewrite take_take; f_equal; lia | by rewrite Htk]. }
  fold left. fold left in Hs1.
  rewrite Hs1, bind_Done. rewrite copy_into_Done by (rewrite ?replicate_length, ?drop_length; lia). rewrite bind_Done.
  rewrite Hs2, bind_Done. rewrite copy_into_Done; [|lia|..].
  2:{ rewrite !app_length, take_length, !drop_length, replicate_length. lia. }
  2:{ rewrite take_length. lia. }
  rewrite bind_Done, usub_Done by lia. rewrite bind_Done.
  rewrite memzero_Done; [|lia|].
  2:{ rewrite !app_length, !drop_length, !app_length, !take_length, !drop_length, !replicate_length. lia. }
  rewrite bind_Done. simpl.
  eexists _, _. split; [done|]. split; [done|]. split; [done|].
  assert (Hres : take left (take left p ++ drop left (take (n - right) (replicate n zero) ++ drop left p ++ drop n (replicate n zero)))
     ++ replicate (n - length p - left) zero ++
     drop (n - length p) (take left p ++ drop left (take (n - right) (replicate n zero) ++ drop left p ++ drop n (replicate n zero)))
     = padded zero Center 0 n p).
  { unfold padded, zeros. fold right. fold left.
    rewrite take_app_alt by (rewrite take_length; lia). f_equal.
    rewrite (drop_ge (replicate n zero)) by (rewrite replicate_length; lia). rewrite app_nil_r.
    rewrite take_replicate, Nat.min_l by lia.
    rewrite drop_app_ge by (rewrite take_length; lia). rewrite take_length, drop_drop, Nat.min_l by lia.
    replace (left + (n - length p - left)) with (n - length p) by lia.
    rewrite drop_app_le by (rewrite replicate_length; lia).
    rewrite drop_replicate. rewrite app_assoc, <- replicate_add. f_equal. f_equal. lia. }
  rewrite Hres. eapply vdata_intro; [unfold elems; simpl; symmetry; apply app_nil_r|]. simpl.
  unfold padded, zeros. rewrite !app_length, take_length, drop_length, replicate_length. lia.
Qed.

(** ** zero_interleave *)

Lemma interleaved_cons {A} (z : A) f x p : interleaved z f (x :: p) = x :: zeros z (f - 1) ++ interleaved z f p.
Proof. done. Qed.

Lemma interleaved_length {A} (z : A) f p : 0 < f -> length (interleaved z f p) = length p * f.
Proof.
  intros Hf. induction p as [|x p IH]; [done|].
  rewrite interleaved_cons. simpl. rewrite app_length, IH. unfold zeros. rewrite replicate_length. lia.
Qed.

Lemma interleaved_lookup {A} (z : A) f p i :
  0 < f -> i < length p * f -> interleaved z f p !! i = if i mod f =? 0 then p !! (i / f) else Some z.
Proof.
  intros Hf. revert i. induction p as [|x p IH]; intros i Hi; [simpl in Hi; lia|].
  rewrite interleaved_cons. simpl in Hi.
  destruct (decide (i < f)).
  - rewrite Nat.mod_small, Nat.div_small by done.
    destruct i as [|i]; [done|]. simpl. rewrite lookup_app_l by (unfold zeros; rewrite replicate_length; lia).
    unfold zeros. by rewrite lookup_replicate_2 by lia.
  - assert (i = (i - f) + 1 * f) as Hif by lia.
    assert (Hm : i mod f = (i - f) mod f) by (rewrite Hif at 1; rewrite Nat.mod_add by lia; done).
    assert (Hd : i / f = S ((i - f) / f)) by (rewrite Hif at 1; rewrite Nat.div_add by lia; lia).
    rewrite Hm, Hd. rewrite lookup_cons_ne_0 by lia.
    rewrite lookup_app_r by (unfold zeros; rewrite replicate_length; lia).
    unfold zeros; rewrite replicate_length. replace (pred i - (f - 1)) with (i - f) by lia.
    rewrite IH by lia. done.
Qed.

(** The descending in-place loop, for any element type. *)
Lemma interleave_loop {A} (z : A) f p d0 L :
  0 < f -> L = length p * f -> L <= length d0 -> take (length p) d0 = p ->
  loop L 0 (fun j d =>
      t ← usub L 1; i ← usub t j;
      r ← umod i f;
      if r =? 0 then q ← udiv i f; x ← rd d q; wr d i x
      else wr d i z) d0 = Done (interleaved z f p ++ drop L d0).
Proof.
  intros Hf HL Hlen Hp.
  assert (Hlk : forall k, k < length p -> d0 !! k = p !! k).
  { intros k Hk. transitivity (take (length p) d0 !! k); [by rewrite lookup_take | by rewrite Hp]. }
  destruct (loop_inv (fun j d => length d = length d0 /\
     (forall k, k < L - j -> d !! k = d0 !! k) /\
     (forall k, L - j <= k < L -> d !! k = interleaved z f p !! k) /\
     (forall k, L <= k -> d !! k = d0 !! k)) L 0
     (fun j d =>
      t ← usub L 1; i ← usub t j;
      r ← umod i f;
      if r =? 0 then q ← udiv i f; x ← rd d q; wr d i x
      else wr d i z) d0) as (d & -> & H1 & _ & H3 & H4).
  - split_and!; try done. intros; lia.
  - intros j d Hj (H1 & H2 & H3 & H4).
    rewrite usub_Done by lia. rewrite bind_Done. rewrite usub_Done by lia. rewrite bind_Done.
    rewrite umod_Done by lia. rewrite bind_Done.
    set (i := L - 1 - j).
    assert (Hi : i < L) by lia.
    assert (Hq : i / f < length p) by (apply Nat.div_lt_upper_bound; lia).
    assert (Hqi : i / f <= i) by (apply Nat.div_le_upper_bound; [lia|]; nia).
    pose proof (interleaved_lookup z f p i Hf ltac:(lia)) as Hil.
    assert (Hfin : forall x, interleaved z f p !! i = Some x -> exists s', wr d i x = Done s' /\
       length s' = length d0 /\ (forall k, k < L - (j + 1) -> s' !! k = d0 !! k) /\
       (forall k, L - (j + 1) <= k < L -> s' !! k = interleaved z f p !! k) /\
       (forall k, L <= k -> s' !! k = d0 !! k)).
    { intros x Hx. rewrite wr_Done by lia. eexists; split; [done|]. rewrite insert_length. split_and!; [done|..].
      - intros k Hk. rewrite list_lookup_insert_ne by lia. apply H2. lia.
      - intros k Hk. destruct (decide (k = i)) as [->|].
        + rewrite list_lookup_insert by lia. done.
        + rewrite list_lookup_insert_ne by lia. apply H3. lia.
      - intros k Hk. rewrite list_lookup_insert_ne by lia. by apply H4. }
    destruct (i mod f =? 0) eqn:Em.
    + rewrite udiv_Done by lia. rewrite bind_Done.
      destruct (rd_lt d (i / f)) as (x & Hx & ->); [lia|]. rewrite bind_Done.
      apply Hfin. rewrite Hil, <- Hx, H2 by lia. symmetry. apply Hlk. done.
    + apply Hfin. done.
  - f_equal. apply list_eq. intros k. rewrite Nat.add_0_l, Nat.sub_diag in H3.
    pose proof (interleaved_length z f p Hf) as Hil.
    destruct (decide (k < L)).
    + rewrite lookup_app_l by lia. apply H3. lia.
    + rewrite lookup_app_r by lia. rewrite lookup_drop, Hil. rewrite H4 by lia. f_equal. lia.
Qed.

Lemma zero_interleave_real {A} (zero : A) (v : dvec A) p f :
  reals v p -> 0 < f ->
  (exists e, zero_interleave zero v f = Done (v, Err e) /\ resize zero v (length p * f) = (v, Err e)) \/
  exists v', zero_interleave zero v f = Done (v', Ok tt) /\ same_meta v v' /\ reals v' (interleaved zero f p).
Proof.
  intros [Hc Hv] Hf. unfold zero_interleave. rewrite Hc. cbv zeta.
  pose proof (vdata_inv v p Hv) as (Hl & _ & _). unfold len. rewrite Hl.
  destruct (length p * f <? length p) eqn:E; [nia|].
  destruct (resize zero v (length p * f)) as [v' [[]|e]] eqn:Er.
  2:{ left. exists e. destruct (resize_cases zero v (length p * f)) as [[e' He]|(v2 & t & He & _)]; rewrite Er in He; [|discriminate].
      injection He as -> ->. done. }
  right. destruct (resize_shape zero v v' p (length p * f) Hv ltac:(lia) Er) as (m & r & Hel & HL & Hlen & Hm).
  rewrite (interleave_loop zero f p); [|done|done|..].
  2:{ rewrite Hel, !app_length. lia. }
  2:{ rewrite Hel. apply take_app. }
  rewrite bind_Done. eexists; split; [done|]. split; [done|]. split.
  - rewrite (same_meta_complex v). + done. + done.
  - eapply vdata_intro; [done|]. rewrite interleaved_length by done. unfold len in Hlen. simpl. lia.
Qed.

Lemma zero_interleave_cplx {A} (zero : A) (v : dvec A) p f :
  cplx v p -> 0 < f -> Nat.even (alloc_len v) = true \/ alloc_len v < 2 * (length p * f) ->
  (exists e, zero_interleave zero v f = Done (v, Err e) /\ resize zero v (2 * (length p * f)) = (v, Err e)) \/
  exists v', zero_interleave zero v f = Done (v', Ok tt) /\ same_meta v v' /\ cplx v' (interleaved (zero, zero) f p).
Proof.
  intros [Hc Hv] Hf Hev. unfold zero_interleave. rewrite Hc. cbv zeta.
  set (P := complex_to_array p) in *.
  assert (HP : length P = 2 * length p) by apply complex_to_array_length.
  pose proof (vdata_inv v P Hv) as (Hl & _ & _). unfold len. rewrite Hl.
  replace (length P * f) with (2 * (length p * f)) by nia.
  destruct (2 * (length p * f) <? length P) eqn:E; [nia|].
  destruct (resize zero v (2 * (length p * f))) as [v' [[]|e]] eqn:Er.
  2:{ left. exists e. destruct (resize_cases zero v (2 * (length p * f))) as [[e' He]|(v2 & t & He & _)]; rewrite Er in He; [|discriminate].
      injection He as -> ->. done. }
  right. destruct (resize_shape zero v v' P (2 * (length p * f)) Hv ltac:(lia) Er) as (m & r & Hel & HL & Hlen & Hm).
  assert (Heven : Nat.even (length (elems v')) = true).
  { destruct (resize_cases zero v (2 * (length p * f))) as [[e He]|(v2 & t & He & _ & _ & Ha & _ & Hel2 & _ & Ht)]; [congruence|].
    rewrite He in Er. injection Er as ->. rewrite Hel2, app_length, replicate_length.
    unfold alloc_len, s_len in *. fold (elems v) in *. destruct Hev as [Hev|Hev].
    - destruct (decide (2 * (length p * f) <= length (elems v))).
      + rewrite Ht. replace (2 * (length p * f) - length (elems v)) with 0 by lia. by rewrite Nat.add_0_r.
      + rewrite Ht. replace (length (elems v) + (2 * (length p * f) - length (elems v))) with (2 * (length p * f)) by lia. apply even_double.
    - rewrite Ht. replace (length (elems v) + (2 * (length p * f) - length (elems v))) with (2 * (length p * f)) by lia. apply even_double. }
  rewrite array_to_complex_even by done. rewrite bind_Done.
  assert (HH : 2 * (length p * f) / 2 = length p * f) by (rewrite Nat.mul_comm; apply Nat.div_mul; lia). rewrite !HH. clear HH.
  assert (Hpe : length (pairs_of (elems v')) * 2 = length (elems v')).
  { rewrite pairs_of_length. apply Nat.even_spec in Heven as [k Hk]. lia. }
  rewrite (interleave_loop (zero, zero) f p); [|done|done|..].
  2:{ rewrite Hel, !app_length in Hpe. rewrite Hel. lia. }
  2:{ rewrite Hel. rewrite pairs_of_app_even by (rewrite HP; apply even_double). unfold P.
      rewrite pairs_of_complex_to_array. apply take_app. }
  rewrite bind_Done. eexists; split; [done|]. split; [done|]. split.
  - rewrite (same_meta_complex v). + done. + done.
  - rewrite complex_to_array_app. eapply vdata_intro; [done|].
    rewrite complex_to_array_length, interleaved_length by done. unfold len in Hlen. simpl. lia.
Qed.
